(** C99, continued: what a full answer of the deployed server omits, whatever the characters of
    the query (internal/http/cmd, internal/suggest/api, pkg/suggest). *)
From Coq Require Import String ZifyBool Permutation Sorted Lia Reals.
From Verif Require Import Base BaseLemmas GoMap Store StoreSpec Postings PostingsSpec PostingsDrive P_PostingsLemmas Merger MergerSpec MergerAnySpec P_MergerLemmas Index IndexSpec IndexProofs P_IndexLemmas Text AnalysisSpec Analysis Decimal Scanner ScannerSpec
  Mph Float64 Metric MetricSpec FloatProofs MetricFloat MetricWide TopK Suggest SuggestSpec P_SuggestLemmas P_Suggest SuggestAnySpec Autocomplete AutocompleteSpec AutocompleteAnySpec AutocompleteAny P_Autocomplete Http HttpSpec P_Http NGramIndex NGramIndexSpec NGramIndexProofs P_NGramIndex NGramIndexAnySpec NGramIndexAny P_RepeatedDict CdbDict CdbDictSpec P_Cdb Paths PathsSpec
  JsonSpec Json P_Json Config ConfigSpec P_Config P_Scanner Indexer IndexerSpec P_Indexer Deploy DeploySpec P_Deploy P_DeployAny P_AnyQuery P_FullAnswer P_AnyQueryServer.
From Verif Require P_Index P_Analysis Handlers P_Handlers.
Local Open Scope Z_scope.
Local Notation length := List.length.

(** [C99_suggest_request_partial] with the answers that have topK items: an entry that is similar
    enough, and has no more n-grams in common with the query than it has n-grams, is left out
    only of an answer of topK items, each with a score no smaller than its similarity (up to
    rounding).  The hypotheses are met by the server of [C99_deployed_nonvacuous]. *)
Theorem C99_suggest_request : forall L rb srt g ord lowr asort chunk chunk' fuel O pf bf ftext etext k k' configPath cs service service' name c query tk mt sm topK m alpha,
  sound L rb g ord -> sorter_ok srt -> P_Handlers.parses_valid pf -> P_Handlers.writes_numbers ftext ->
  deployed L rb g ord lowr asort chunk fuel O k configPath cs k' ->
  configure_service rb g ord (ToLower lowr) asort chunk' fuel k' configPath service = Ret service' ->
  last_named cs name c -> P_Handlers.suggest_params pf tk mt sm topK m alpha -> alpha_ok alpha ->
  let d := tokenizer_of asort c in
  let words := entries (text_at k (source_path c)) in
  let q := entry_grams lowr d query in
  dictionary_any lowr d words -> zlen q <= 65535 -> (m = Overlap -> zlen q <= 32767) ->
  (q <> [] -> exists w, In w words /\ MinY m alpha (zlen q) <= zlen (entry_grams lowr d w)) ->
  forall sched out, suggest_request L rb srt (ToLower lowr) pf bf ftext etext service' name query tk mt sm sched = Some out ->
  let of := fun i => entry_grams lowr d (entry_at words i) in
  let score := fun a : Z * Z => Score m (snd a) (zlen q) (zlen (of (fst a))) in
  let sim := fun i => gram_similarity lowr d m q (entry_at words i) in
  exists ans body, out = Handlers.Sent (Handlers.mkResp 200 (bs "application/json") body) /\
    read_array (read_item (bs "Score") (bs "Value")) body = Some (map (fun a => (ftext (score a), entry_at words (fst a))) ans) /\
    zlen ans <= topK /\ (q = [] -> ans = []) /\
    StronglySorted (fun a b => flt (score a) (score b) = false /\ (feq (score a) (score b) = true -> fst a <= fst b)) ans /\
    (forall i n, In (i, n) ans -> 0 <= i < zlen words /\ 1 <= n <= common q (of i) /\ (NoDup (of i) -> score (i, n) = score (i, common q (of i)))) /\
    (forall i, 0 <= i < zlen words -> (copies i ans <= repeats (of i))%nat) /\
    (q <> [] -> zlen ans < topK ->
       (forall i n, In (i, n) ans -> common q (of i) <= zlen (of i) -> (sim i >= val alpha * (1 - / 2 ^ 46))%R) /\
       (forall i, 0 <= i < zlen words -> 1 <= zlen (of i) -> (m = Overlap -> zlen (of i) <= 32767) -> common q (of i) <= zlen (of i) -> (sim i >= val alpha * (1 + / 2 ^ 46))%R ->
          exists n, In (i, n) ans /\ score (i, n) = score (i, common q (of i)))) /\
    (q <> [] -> forall i, 0 <= i < zlen words -> 1 <= zlen (of i) -> (m = Overlap -> zlen (of i) <= 32767) -> common q (of i) <= zlen (of i) -> (sim i >= val alpha * (1 + / 2 ^ 46))%R ->
       (exists n, In (i, n) ans /\ score (i, n) = score (i, common q (of i))) \/
       zlen ans = topK /\ forall a, In a ans -> (sim i <= val (score a) * (1 + / 2 ^ 46) + / 2 ^ 50)%R).
Proof.
  intros L rb srt g ord lowr asort chunk chunk' fuel O pf bf ftext etext k k' configPath cs service service' name c query tk mt sm topK m alpha Hs Hsrt Hpf Hft Hd Hconf Hlast Hp Ha d words q Hdict Hq Hov Hlong sched out Hout of score sim.
  destruct (served_every L rb srt g ord lowr asort chunk chunk' fuel O k k' configPath cs service service' name c Hs Hsrt Hd Hconf Hlast Hdict) as (ix & _ & Hb & Hw & Hsu & _). pose proof Hs as (HL & Hrb & Hrw & Hg & Ho).
  assert (1 <= topK) as Hk by (destruct Hp as ([[_ ->]|[_ H]] & _); lia). pose proof (proj1 (P_Handlers.params_config pf tk mt sm topK m alpha query Hpf) Hp) as Hc.
  unfold suggest_request in Hout. rewrite Hc, (Hsu query m alpha topK Hq Hov Ha Hk Hlong) in Hout. fold d words in Hout, Hb.
  destruct (ServiceSuggest rb srt ix words (ToLower lowr) d query alpha m topK sched) as [r|] eqn:Er; [|discriminate]. cbn [Handlers.when_done] in Hout. injection Hout as <-.
  assert (exists ans, r = Ret (map (fun a => (score a, entry_at words (fst a))) ans) /\ zlen ans <= topK /\ (q = [] -> ans = []) /\
    StronglySorted (fun a b => flt (score a) (score b) = false /\ (feq (score a) (score b) = true -> fst a <= fst b)) ans /\
    (forall i n, In (i, n) ans -> 0 <= i < zlen words /\ 1 <= n <= common q (of i) /\ (NoDup (of i) -> score (i, n) = score (i, common q (of i)))) /\
    (forall i, 0 <= i < zlen words -> (copies i ans <= repeats (of i))%nat) /\
    (q <> [] -> zlen ans < topK ->
       (forall i n, In (i, n) ans -> common q (of i) <= zlen (of i) -> (sim i >= val alpha * (1 - / 2 ^ 46))%R) /\
       (forall i, 0 <= i < zlen words -> 1 <= zlen (of i) -> (m = Overlap -> zlen (of i) <= 32767) -> common q (of i) <= zlen (of i) -> (sim i >= val alpha * (1 + / 2 ^ 46))%R ->
          exists n, In (i, n) ans /\ score (i, n) = score (i, common q (of i)))) /\
    (q <> [] -> forall i, 0 <= i < zlen words -> 1 <= zlen (of i) -> (m = Overlap -> zlen (of i) <= 32767) -> common q (of i) <= zlen (of i) -> (sim i >= val alpha * (1 + / 2 ^ 46))%R ->
       (exists n, In (i, n) ans /\ score (i, n) = score (i, common q (of i))) \/
       zlen ans = topK /\ forall a, In a ans -> (sim i <= val (score a) * (1 + / 2 ^ 46) + / 2 ^ 50)%R)) as (ans & -> & H1 & H0 & H2 & H3 & H4 & H5 & H6).
  { destruct (list_eq_dec (list_eq_dec Z.eq_dec) q []) as [E|Hne].
    - exists []. split; [|split; [rewrite zlen_nil; lia|]; split; [intros _; reflexivity|]; split; [exact (SSorted_nil _)|]; split; [intros i n []|]; split; [intros i _; cbn; lia|split; intros H; exfalso; exact (H E)]].
      unfold ServiceSuggest in Er. rewrite suggest_grams in Er by (apply Hdict). fold q in Er. rewrite E in Er. destruct sched as [|ch sched]; cbn in Er; [injection Er as <-; reflexivity|destruct ch; discriminate Er].
    - assert (1 <= zlen q <= 65535) as Hq3 by (split; [apply nonempty_len; exact Hne|exact Hq]).
      destruct (C99_suggest rb srt g ord "" lowr d words ix query m alpha topK Hrb Hrw Hg Ho Hsrt Hdict Hb Hq3 Hov Ha Hk (Hlong Hne) sched r Er) as (ans & -> & H1 & H2 & H3 & H4 & H5 & H6). exists ans. split; [reflexivity|]. split; [exact H1|]. split; [intros E; exfalso; exact (Hne E)|]. split; [exact H2|]. split; [exact H3|]. split; [exact H4|]. split; intros _; [exact H5|exact H6]. }
  exists ans. destruct (responds bf ftext etext (map (fun a => (score a, entry_at words (fst a))) ans) Hft) as (body & Eb & Hread).
  - intros it Hit. apply in_map_iff in Hit. destruct Hit as ([i n] & <- & Hi). cbn [snd fst]. apply Hw, entry_in. apply (H3 i n Hi).
  - intros it Hit. apply in_map_iff in Hit. destruct Hit as ([i n] & <- & Hi). cbn [fst]. apply P_Handlers.fin_json. destruct (H3 i n Hi) as (Hin & Hn & _). pose proof (P_Handlers.common_bound q (of i)) as Hcb.
    destruct Hdict as (_ & _ & _ & _ & Hl). specialize (Hl _ (entry_in words i Hin)). fold (of i) in Hl.
    assert (1 <= zlen (of i)) as H1'.
    { destruct (Z.le_gt_cases 1 (zlen (of i))) as [Hge|Hlt]; [exact Hge|]. exfalso. assert (of i = []) as Eo by (destruct (of i); [reflexivity|rewrite zlen_cons in Hlt; pose proof (zlen_nonneg l); lia]).
      assert (1 <= n <= common q (of i)) as Hn' by exact Hn. rewrite Eo in Hn'. assert (common q [] = 0) as E0 by (unfold common; clear; induction q as [|t q' IH]; [reflexivity|]; cbn [filter existsb]; exact IH). lia. }
    assert (1 <= n <= common q (of i)) as Hn' by exact Hn. assert (zlen (of i) + 1 < 2 ^ 26) as Hl' by exact Hl. change (fin (Score m n (zlen q) (zlen (of i)))). generalize dependent (of i). intros h. intros. apply score_wide; unfold size_ok; lia.
  - exists body. split; [exact Eb|]. split; [rewrite Hread, map_map; reflexivity|]. auto 12.
Qed.
Print Assumptions C99_suggest_request.
