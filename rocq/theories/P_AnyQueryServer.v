(** C99: the deployed server answers every query, whatever its characters (pkg/suggest,
    internal/http/cmd, internal/suggest/api). *)
From Coq Require Import String ZifyBool Permutation Sorted Lia Reals.
From Verif Require Import Base BaseLemmas GoMap Store StoreSpec Postings PostingsSpec PostingsDrive P_PostingsLemmas Merger MergerSpec MergerAnySpec P_MergerLemmas Index IndexSpec IndexProofs P_IndexLemmas Text AnalysisSpec Analysis Decimal Scanner ScannerSpec
  Mph Float64 Metric MetricSpec FloatProofs MetricFloat MetricWide TopK Suggest SuggestSpec P_SuggestLemmas P_Suggest SuggestAnySpec Autocomplete AutocompleteSpec AutocompleteAnySpec AutocompleteAny P_Autocomplete Http HttpSpec P_Http NGramIndex NGramIndexSpec NGramIndexProofs P_NGramIndex NGramIndexAnySpec NGramIndexAny P_RepeatedDict CdbDict CdbDictSpec P_Cdb Paths PathsSpec
  JsonSpec Json P_Json Config ConfigSpec P_Config P_Scanner Indexer IndexerSpec P_Indexer Deploy DeploySpec P_Deploy P_DeployAny P_AnyQuery.
From Verif Require P_Index P_Analysis Handlers P_Handlers.
Local Open Scope Z_scope.
Local Notation length := List.length.


Lemma nonempty_len {A} (l : list A) : l <> [] -> 1 <= zlen l.
Proof. destruct l as [|x l]; [congruence|]. intros _. rewrite zlen_cons. pose proof (zlen_nonneg l). lia. Qed.

(** ** A dictionary on disc *)
Lemma disc_suggest_every L rb srt g ord name lowr d words recs ix query m alpha topK :
  roaring_ok rb -> roaring_written rb -> gob_ok g -> order_ok ord -> sorter_ok srt ->
  dictionary_any lowr d words -> index_built rb g ord name lowr d words ix ->
  (forall key, is_u32 key -> CdbGet L recs key = Ret (DictGet words key)) ->
  let q := entry_grams lowr d query in
  zlen q <= 65535 -> (m = Overlap -> zlen q <= 32767) -> alpha_ok alpha -> 1 <= topK ->
  (q <> [] -> exists w, In w words /\ MinY m alpha (zlen q) <= zlen (entry_grams lowr d w)) ->
  forall sched, DiscSuggest L rb srt ix recs (ToLower lowr) d query alpha m topK sched = ServiceSuggest rb srt ix words (ToLower lowr) d query alpha m topK sched.
Proof.
  intros Hrb Hrw Hg Ho Hsrt Hdict Hb Hget q Hq1 Hq2 Ha Hk Hlong sched.
  pose proof (dict_index_any rb g ord name lowr d words Hrb Hrw Hg Ho Hdict ix Hb) as Hok. pose proof (any_len rb lowr d words ix Hdict Hok) as Hlen. destruct (docs_good_any lowr d words Hdict) as (Hd & _). pose proof (proj1 Hok) as Hi.
  unfold DiscSuggest, ServiceSuggest. rewrite suggest_grams by (apply Hdict). fold q.
  destruct (run rb srt ix q m alpha topK sched (start ix q m alpha topK)) as [[s|r0|]|] eqn:Er; try reflexivity.
  destruct (list_eq_dec (list_eq_dec Z.eq_dec) q []) as [E|Hne].
  - rewrite E in Er. assert (r0 = Ret []) as -> by (destruct sched as [|c sched]; cbn in Er; [injection Er as <-; reflexivity|destruct c; discriminate Er]). reflexivity.
  - assert (1 <= zlen q <= 65535) as Hq3 by (split; [apply nonempty_len; exact Hne|exact Hq1]).
    assert (query_any ix q m alpha topK) as Hq by (split; [exact Ha|]; split; [exact Hq3|]; split; [exact Hlen|]; split; assumption).
    pose proof (any_searchable rb lowr d words ix Hok q m alpha (Hlong Hne)) as Hse.
    destruct (P_Repeated.C94_repeated_query_partial rb srt ix _ q m alpha topK sched r0 Hq Hse Hd Hi Hsrt Er) as (l & -> & _ & _ & Hsound & _). cbn [bind]. f_equal. apply retrieved.
    intros c Hc. apply Hget. destruct (Hsound c Hc) as ((x & ts) & n & H1 & -> & _). apply (doc_entry lowr d words) in H1. destruct H1 as [H1 _]. cbn [Key fst]. destruct Hdict as (_ & Hz & _). unfold is_u32. unfold bytes in *. lia.
Qed.
Lemma disc_autocomplete_every L rb srt g ord name lowr d words recs ix query limit :
  roaring_ok rb -> roaring_written rb -> gob_ok g -> order_ok ord -> sorter_ok srt ->
  dictionary_any lowr d words -> index_built rb g ord name lowr d words ix ->
  (forall key, is_u32 key -> CdbGet L recs key = Ret (DictGet words key)) ->
  let q := prefix_grams lowr d query in
  zlen q < 2 ^ 32 -> 0 <= limit ->
  forall sched, DiscAutocomplete L rb srt ix recs (ToLower lowr) d query limit sched = ServiceAutocomplete rb srt ix words (ToLower lowr) d query limit sched.
Proof.
  intros Hrb Hrw Hg Ho Hsrt Hdict Hb Hget q Hq Hl sched.
  pose proof (dict_index_any rb g ord name lowr d words Hrb Hrw Hg Ho Hdict ix Hb) as Hok. destruct (docs_good_any lowr d words Hdict) as (Hd & _). pose proof (proj1 Hok) as Hi.
  unfold DiscAutocomplete, ServiceAutocomplete. rewrite auto_grams by (apply Hdict). fold q.
  destruct (arun rb srt ix q limit sched (astart q limit)) as [p|] eqn:Er; [|reflexivity]. pose proof (autocomplete_every rb srt ix _ q limit Hd Hi Hsrt (conj (zlen_nonneg q) Hq) Hl sched p Er) as HG. destruct p as [s|r0|]; [reflexivity| |destruct HG].
  destruct HG as (X & (_ & Hin & _) & ->). cbn [bind]. f_equal. rewrite (retrieved (CdbGet L recs) words (fun _ => of_int 0)); [reflexivity|].
  intros c Hc. apply Hget. apply in_map_iff in Hc. destruct Hc as (i & <- & Hi'). assert (In i X) as HiX by (rewrite <- (firstn_skipn (Z.to_nat limit) X); apply in_app_iff; left; exact Hi').
  apply Hin in HiX. destruct HiX as (_ & ts & Hdoc & _). apply (doc_entry lowr d words) in Hdoc. destruct Hdoc as [H1 _]. change (is_u32 i). destruct Hdict as (_ & Hz & _). unfold is_u32. unfold bytes in *. lia.
Qed.

Section Held.
Context (L : cdblib) (rb : roaring) (srt : list iter -> list iter) (g : gobcodec) (ord : Z -> index_map -> index_map) (lowr : Z -> Z) (asort : list alphabet -> list alphabet) (chunk chunk' : nat -> nat) (fuel : nat) (O : outside).
Context (k k' : disk) (configPath : bytes) (cs : list IndexDescription) (service service' : list (bytes * entry)) (name : bytes) (c : IndexDescription).
Context (Hs : sound L rb g ord) (Hsrt : sorter_ok srt) (Hd : deployed L rb g ord lowr asort chunk fuel O k configPath cs k')
  (Hconf : configure_service rb g ord (ToLower lowr) asort chunk' fuel k' configPath service = Ret service') (Hlast : last_named cs name c).
Notation words := (entries (text_at k (source_path c))).
Notation conf := (tokenizer_of asort c).
Hypothesis Hdict : dictionary_any lowr conf words.
Lemma served_every : exists ix, index_held service' name = Some ix /\ index_built rb g ord "" lowr conf words ix /\ (forall w, In w words -> Forall is_byte w /\ well_formed w) /\
  (forall query m alpha topK, let q := entry_grams lowr conf query in zlen q <= 65535 -> (m = Overlap -> zlen q <= 32767) -> alpha_ok alpha -> 1 <= topK ->
     (q <> [] -> exists w, In w words /\ MinY m alpha (zlen q) <= zlen (entry_grams lowr conf w)) ->
     forall sched, served_suggest L rb srt (ToLower lowr) service' name (mkConfig query topK m alpha) sched = ServiceSuggest rb srt ix words (ToLower lowr) conf query alpha m topK sched) /\
  (forall query limit, let q := prefix_grams lowr conf query in zlen q < 2 ^ 32 -> 0 <= limit ->
     forall sched, served_autocomplete L rb srt (ToLower lowr) service' name query limit sched = ServiceAutocomplete rb srt ix words (ToLower lowr) conf query limit sched).
Proof.
  destruct (held L rb g ord lowr asort chunk chunk' fuel O k k' configPath cs service service' name c Hs Hd Hconf Hlast) as (e & ix & Hm & [_ Hgood] & Hb & Ei & Ec & _ & Hw). pose proof Hs as (HL & Hrb & Hrw & Hg & Ho).
  exists ix. split; [unfold index_held; rewrite Hm; destruct e as [[x ws|x recs] d]; cbn [e_opened] in Ei; subst x; reflexivity|]. split; [exact Hb|]. split; [exact Hw|].
  split.
  - intros query m alpha topK q H1 H2 H3 H4 H5 sched. unfold served_suggest. rewrite Hm. destruct e as [[x ws|x recs] d]; cbn [e_opened e_conf c_query c_similarity c_metric c_topK] in *; subst x d.
    + destruct Hgood as [-> _]. reflexivity.
    + exact (disc_suggest_every L rb srt g ord "" lowr conf words recs ix query m alpha topK Hrb Hrw Hg Ho Hsrt Hdict Hb (proj2 Hgood) H1 H2 H3 H4 H5 sched).
  - intros query limit q H1 H2 sched. unfold served_autocomplete. rewrite Hm. destruct e as [[x ws|x recs] d]; cbn [e_opened e_conf] in *; subst x d.
    + destruct Hgood as [-> _]. reflexivity.
    + exact (disc_autocomplete_every L rb srt g ord "" lowr conf words recs ix query limit Hrb Hrw Hg Ho Hsrt Hdict Hb (proj2 Hgood) H1 H2 sched).
Qed.
End Held.

(** ** Requests *)
(** An autocomplete request with any query: status 200, and of the list of the entries with
    all n-grams of the query and no fewer n-grams than it, by their position in the source, an entry that
    repeats n-grams possibly several times, the first [limit]. *)
Theorem C99_autocomplete_request_partial : forall L rb srt g ord lowr asort chunk chunk' fuel O bf ftext etext k k' configPath cs service service' name c query tk limit,
  sound L rb g ord -> sorter_ok srt -> P_Handlers.writes_numbers ftext ->
  deployed L rb g ord lowr asort chunk fuel O k configPath cs k' ->
  configure_service rb g ord (ToLower lowr) asort chunk' fuel k' configPath service = Ret service' ->
  last_named cs name c -> P_Handlers.count_param tk 0 limit ->
  let d := tokenizer_of asort c in
  let words := entries (text_at k (source_path c)) in
  let q := prefix_grams lowr d query in
  dictionary_any lowr d words -> zlen q < 2 ^ 32 ->
  forall sched out, autocomplete_request L rb srt (ToLower lowr) bf ftext etext service' name query tk sched = Some out ->
  exists X body, out = Handlers.Sent (Handlers.mkResp 200 (bs "application/json") body) /\
    read_array (read_item (bs "Score") (bs "Value")) body = Some (map (fun i => (ftext (of_int 0), entry_at words i)) (firstn (Z.to_nat limit) X)) /\
    StronglySorted Z.le X /\
    (forall i, In i X <-> q <> [] /\ In i (matches lowr d q words) /\ zlen q <= zlen (entry_grams lowr d (entry_at words i))) /\
    (forall i, In i X -> (times i X <= repeats (entry_grams lowr d (entry_at words i)))%nat).
Proof.
  intros L rb srt g ord lowr asort chunk chunk' fuel O bf ftext etext k k' configPath cs service service' name c query tk limit Hs Hsrt Hft Hd Hconf Hlast Hp d words q Hdict Hq sched out Hout.
  destruct (served_every L rb srt g ord lowr asort chunk chunk' fuel O k k' configPath cs service service' name c Hs Hsrt Hd Hconf Hlast Hdict) as (ix & _ & Hb & Hw & _ & Ha). pose proof Hs as (HL & Hrb & Hrw & Hg & Ho).
  assert (0 <= limit) as Hlim by (destruct Hp as [[_ ->]|[_ H]]; lia). apply (C66_topk_param tk defaultTopK limit ltac:(unfold defaultTopK; lia)) in Hp.
  unfold autocomplete_request, autocomplete_limit in Hout. rewrite Hp, (Ha query limit Hq Hlim) in Hout. fold d words in Hout, Hb.
  destruct (ServiceAutocomplete rb srt ix words (ToLower lowr) d query limit sched) as [r|] eqn:Er; [|discriminate]. cbn [Handlers.when_done] in Hout. injection Hout as <-.
  destruct (C99_autocomplete_partial rb srt g ord "" lowr d words ix query limit Hrb Hrw Hg Ho Hsrt Hdict Hb Hq Hlim sched r Er) as (X & -> & HX & Hm & Ht). exists X.
  destruct (responds bf ftext etext (map (fun i => (of_int 0, entry_at words i)) (firstn (Z.to_nat limit) X)) Hft) as (body & Eb & Hread).
  - intros it Hit. apply in_map_iff in Hit. destruct Hit as (i & <- & Hi). cbn [snd]. apply Hw, entry_in. assert (In i X) as HiX by (rewrite <- (firstn_skipn (Z.to_nat limit)); apply in_or_app; left; exact Hi).
    apply Hm in HiX. destruct HiX as (_ & HiX & _). unfold matches in HiX. apply filter_In in HiX. destruct HiX as [HiX _]. apply in_map_iff in HiX. destruct HiX as (n & <- & Hn). apply in_seq in Hn. unfold zlen. fold words. lia.
  - intros it Hit. apply in_map_iff in Hit. destruct Hit as (i & <- & _). reflexivity.
  - exists body. split; [exact Eb|]. split; [rewrite Hread, map_map; reflexivity|]. auto.
Qed.
Print Assumptions C99_autocomplete_request_partial.

(** A suggest request with any query: as C99_suggest_partial says, as JSON; a query without
    n-grams gets an empty array. *)
Theorem C99_suggest_request_partial : forall L rb srt g ord lowr asort chunk chunk' fuel O pf bf ftext etext k k' configPath cs service service' name c query tk mt sm topK m alpha,
  sound L rb g ord -> sorter_ok srt -> P_Handlers.parses_valid pf -> P_Handlers.writes_numbers ftext ->
  deployed L rb g ord lowr asort chunk fuel O k configPath cs k' ->
  configure_service rb g ord (ToLower lowr) asort chunk' fuel k' configPath service = Ret service' ->
  last_named cs name c -> P_Handlers.suggest_params pf tk mt sm topK m alpha -> alpha_ok alpha ->
  let d := tokenizer_of asort c in
  let words := entries (text_at k (source_path c)) in
  let q := entry_grams lowr d query in
  dictionary_any lowr d words -> zlen q <= 65535 -> (m = Overlap -> zlen q <= 32767) ->
  (q <> [] -> exists w, In w words /\ MinY m alpha (zlen q) <= zlen (entry_grams lowr d w)) ->
  forall sched out, suggest_request L rb srt (ToLower lowr) pf bf ftext etext service' name query tk mt sm sched = Some out ->
  let of := fun i => entry_grams lowr d (entry_at words i) in
  let score := fun a : Z * Z => Score m (snd a) (zlen q) (zlen (of (fst a))) in
  let sim := fun i => gram_similarity lowr d m q (entry_at words i) in
  exists ans body, out = Handlers.Sent (Handlers.mkResp 200 (bs "application/json") body) /\
    read_array (read_item (bs "Score") (bs "Value")) body = Some (map (fun a => (ftext (score a), entry_at words (fst a))) ans) /\
    zlen ans <= topK /\ (q = [] -> ans = []) /\
    StronglySorted (fun a b => flt (score a) (score b) = false /\ (feq (score a) (score b) = true -> fst a <= fst b)) ans /\
    (forall i n, In (i, n) ans -> 0 <= i < zlen words /\ 1 <= n <= common q (of i) /\ (NoDup (of i) -> score (i, n) = score (i, common q (of i)))) /\
    (forall i, 0 <= i < zlen words -> (copies i ans <= repeats (of i))%nat) /\
    (q <> [] -> zlen ans < topK ->
       (forall i n, In (i, n) ans -> common q (of i) <= zlen (of i) -> (sim i >= val alpha * (1 - / 2 ^ 46))%R) /\
       (forall i, 0 <= i < zlen words -> 1 <= zlen (of i) -> (m = Overlap -> zlen (of i) <= 32767) -> common q (of i) <= zlen (of i) -> (sim i >= val alpha * (1 + / 2 ^ 46))%R ->
          exists n, In (i, n) ans /\ score (i, n) = score (i, common q (of i)))).
Proof.
  intros L rb srt g ord lowr asort chunk chunk' fuel O pf bf ftext etext k k' configPath cs service service' name c query tk mt sm topK m alpha Hs Hsrt Hpf Hft Hd Hconf Hlast Hp Ha d words q Hdict Hq Hov Hlong sched out Hout of score sim.
  destruct (served_every L rb srt g ord lowr asort chunk chunk' fuel O k k' configPath cs service service' name c Hs Hsrt Hd Hconf Hlast Hdict) as (ix & _ & Hb & Hw & Hsu & _). pose proof Hs as (HL & Hrb & Hrw & Hg & Ho).
  assert (1 <= topK) as Hk by (destruct Hp as ([[_ ->]|[_ H]] & _); lia). pose proof (proj1 (P_Handlers.params_config pf tk mt sm topK m alpha query Hpf) Hp) as Hc.
  unfold suggest_request in Hout. rewrite Hc, (Hsu query m alpha topK Hq Hov Ha Hk Hlong) in Hout. fold d words in Hout, Hb.
  destruct (ServiceSuggest rb srt ix words (ToLower lowr) d query alpha m topK sched) as [r|] eqn:Er; [|discriminate]. cbn [Handlers.when_done] in Hout. injection Hout as <-.
  assert (exists ans, r = Ret (map (fun a => (score a, entry_at words (fst a))) ans) /\ zlen ans <= topK /\ (q = [] -> ans = []) /\
    StronglySorted (fun a b => flt (score a) (score b) = false /\ (feq (score a) (score b) = true -> fst a <= fst b)) ans /\
    (forall i n, In (i, n) ans -> 0 <= i < zlen words /\ 1 <= n <= common q (of i) /\ (NoDup (of i) -> score (i, n) = score (i, common q (of i)))) /\
    (forall i, 0 <= i < zlen words -> (copies i ans <= repeats (of i))%nat) /\
    (q <> [] -> zlen ans < topK ->
       (forall i n, In (i, n) ans -> common q (of i) <= zlen (of i) -> (sim i >= val alpha * (1 - / 2 ^ 46))%R) /\
       (forall i, 0 <= i < zlen words -> 1 <= zlen (of i) -> (m = Overlap -> zlen (of i) <= 32767) -> common q (of i) <= zlen (of i) -> (sim i >= val alpha * (1 + / 2 ^ 46))%R ->
          exists n, In (i, n) ans /\ score (i, n) = score (i, common q (of i))))) as (ans & -> & H1 & H0 & H2 & H3 & H4 & H5).
  { destruct (list_eq_dec (list_eq_dec Z.eq_dec) q []) as [E|Hne].
    - exists []. split; [|split; [rewrite zlen_nil; lia|]; split; [intros _; reflexivity|]; split; [exact (SSorted_nil _)|]; split; [intros i n []|]; split; [intros i _; cbn; lia|intros H; exfalso; exact (H E)]].
      unfold ServiceSuggest in Er. rewrite suggest_grams in Er by (apply Hdict). fold q in Er. rewrite E in Er. destruct sched as [|ch sched]; cbn in Er; [injection Er as <-; reflexivity|destruct ch; discriminate Er].
    - assert (1 <= zlen q <= 65535) as Hq3 by (split; [apply nonempty_len; exact Hne|exact Hq]).
      destruct (C99_suggest_partial rb srt g ord "" lowr d words ix query m alpha topK Hrb Hrw Hg Ho Hsrt Hdict Hb Hq3 Hov Ha Hk (Hlong Hne) sched r Er) as (ans & -> & H1 & H2 & H3 & H4 & H5). exists ans. split; [reflexivity|]. split; [exact H1|]. split; [intros E; exfalso; exact (Hne E)|]. split; [exact H2|]. split; [exact H3|]. split; [exact H4|]. intros _. exact H5. }
  exists ans. destruct (responds bf ftext etext (map (fun a => (score a, entry_at words (fst a))) ans) Hft) as (body & Eb & Hread).
  - intros it Hit. apply in_map_iff in Hit. destruct Hit as ([i n] & <- & Hi). cbn [snd fst]. apply Hw, entry_in. apply (H3 i n Hi).
  - intros it Hit. apply in_map_iff in Hit. destruct Hit as ([i n] & <- & Hi). cbn [fst]. apply P_Handlers.fin_json. destruct (H3 i n Hi) as (Hin & Hn & _). pose proof (P_Handlers.common_bound q (of i)) as Hcb.
    destruct Hdict as (_ & _ & _ & _ & Hl). specialize (Hl _ (entry_in words i Hin)). fold (of i) in Hl.
    assert (1 <= zlen (of i)) as H1'.
    { destruct (Z.le_gt_cases 1 (zlen (of i))) as [Hge|Hlt]; [exact Hge|]. exfalso. assert (of i = []) as Eo by (destruct (of i); [reflexivity|rewrite zlen_cons in Hlt; pose proof (zlen_nonneg l); lia]).
      assert (1 <= n <= common q (of i)) as Hn' by exact Hn. rewrite Eo in Hn'. assert (common q [] = 0) as E0 by (unfold common; clear; induction q as [|t q' IH]; [reflexivity|]; cbn [filter existsb]; exact IH). lia. }
    assert (1 <= n <= common q (of i)) as Hn' by exact Hn. assert (zlen (of i) + 1 < 2 ^ 26) as Hl' by exact Hl. change (fin (Score m n (zlen q) (zlen (of i)))). generalize dependent (of i). intros h. intros. apply score_wide; unfold size_ok; lia.
  - exists body. split; [exact Eb|]. split; [rewrite Hread, map_map; reflexivity|]. auto 10.
Qed.
Print Assumptions C99_suggest_request_partial.

(** Completion over HTTP: every line of the source that starts with the query is in the answer,
    if the answer has fewer than [limit] items. *)
Theorem C99_completion_request : forall L rb srt g ord lowr asort chunk chunk' fuel O bf ftext etext k k' configPath cs service service' name c query rest tk limit,
  sound L rb g ord -> sorter_ok srt -> P_Handlers.writes_numbers ftext ->
  deployed L rb g ord lowr asort chunk fuel O k configPath cs k' ->
  configure_service rb g ord (ToLower lowr) asort chunk' fuel k' configPath service = Ret service' ->
  last_named cs name c -> P_Handlers.count_param tk 0 limit ->
  let d := tokenizer_of asort c in
  let words := entries (text_at k (source_path c)) in
  dictionary_any lowr d words -> well_formed (t_wrap0 d ++ query) -> t_n d <= zlen (chars (Trim (ToLower lowr (t_wrap0 d ++ query)))) ->
  In (query ++ rest) words ->
  forall sched out, autocomplete_request L rb srt (ToLower lowr) bf ftext etext service' name query tk sched = Some out ->
  exists body items, out = Handlers.Sent (Handlers.mkResp 200 (bs "application/json") body) /\
    read_array (read_item (bs "Score") (bs "Value")) body = Some items /\
    (zlen items < limit -> In (query ++ rest) (map snd items)).
Proof.
  intros L rb srt g ord lowr asort chunk chunk' fuel O bf ftext etext k k' configPath cs service service' name c query rest tk limit Hs Hsrt Hft Hd Hconf Hlast Hp d words Hdict Hw Hc Hin sched out Hout.
  pose proof Hdict as (Hn & _ & _ & _ & Hlen). pose proof (prefix_fewer lowr d query rest Hn Hw Hc) as Hf. pose proof (Hlen _ Hin) as Hlw.
  destruct (C99_autocomplete_request_partial L rb srt g ord lowr asort chunk chunk' fuel O bf ftext etext k k' configPath cs service service' name c query tk limit Hs Hsrt Hft Hd Hconf Hlast Hp Hdict ltac:(fold d; lia) sched out Hout) as (X & body & -> & Hread & _ & Hm & _). fold d words in Hread, Hm.
  exists body. eexists. split; [reflexivity|]. split; [exact Hread|]. intros Hlt.
  apply In_nth_error in Hin. destruct Hin as (j & Hj). assert (entry_at words (Z.of_nat j) = query ++ rest) as Ej by (unfold entry_at; rewrite Nat2Z.id; apply nth_error_nth; exact Hj).
  assert (0 <= Z.of_nat j < zlen words) as Hjl by (assert (j < length words)%nat by (apply nth_error_Some; intros C; pose proof (eq_trans (eq_sym C) Hj) as C'; discriminate C'); unfold zlen; lia).
  destruct (C73_prefixes_match lowr d words query rest (Z.of_nat j) Hn Hw Hc Hjl Ej) as [Hmat Hne].
  assert (In (Z.of_nat j) X) as HX by (apply Hm; split; [exact Hne|split; [exact Hmat|rewrite Ej; exact Hf]]).
  rewrite map_map. cbn [snd]. apply in_map_iff. exists (Z.of_nat j). rewrite Ej. split; [reflexivity|]. unfold zlen in Hlt. rewrite map_length, firstn_length in Hlt. rewrite firstn_all2 by lia. exact HX.
Qed.
Print Assumptions C99_completion_request.
(** the hypotheses are met by the server of C95_deployed_nonvacuous *)
Example C99_deployed_nonvacuous : forall c, c = c93 "DISC" \/ c = c93_ram ->
  let d := tokenizer_of (fun l => l) c in let words := entries (text_at disk96 (source_path c)) in
  deployed lib74 rb4 gob1 (fun _ m => rev m) demo71_low (fun l => l) (fun _ => 3%nat) 100 out88 disk96 (bs "/d/config.json") [c93 "DISC"; c93_ram] disk96_after /\
  dictionary_any demo71_low d words /\ well_formed (t_wrap0 d ++ bs "a-") /\ t_n d <= zlen (chars (Trim (ToLower demo71_low (t_wrap0 d ++ bs "a-")))) /\ In (bs "a-" ++ bs "a+") words /\
  ~ NoDup (prefix_grams demo71_low d (bs "a-a+")) /\ ~ NoDup (entry_grams demo71_low d (bs "-+")) /\ zlen (entry_grams demo71_low d (bs "-+")) <= 65535.
Proof.
  intros c Hc d words. subst d words. pose proof (proj1 C95_deployed_nonvacuous) as Hd. destruct (source96 c Hc) as (_ & -> & -> & _). split; [exact Hd|]. split; [exact demo95_ok|]. split; [|split; [|split; [|split; [|split]]]].
  - unfold well_formed. match goal with |- Forall _ ?t => let v := eval vm_compute in t in change t with v end. repeat (apply Forall_cons; [intros [H _]; cbn in H; unfold RuneError in H; lia|]); apply Forall_nil.
  - vm_compute. discriminate.
  - left. reflexivity.
  - intros Hn. match type of Hn with NoDup ?t => let v := eval vm_compute in t in change t with v in Hn end. inversion_clear Hn. apply H. right. left. reflexivity.
  - intros Hn. match type of Hn with NoDup ?t => let v := eval vm_compute in t in change t with v in Hn end. inversion_clear Hn. apply H. left. reflexivity.
  - vm_compute. discriminate.
Qed.
(** The server answers "a-a+" (an n-gram twice), "-+" (an n-gram three times) and the empty query. *)
Definition sched99 (query : bytes) : list achoice := let g := prefix_grams demo71_low demo71_conf query in aauto95 100 g 5 (astart g 5).
Definition auto99 (query : bytes) : option Handlers.outcome :=
  match service96 with
  | Ret s => autocomplete_request lib74 rb4 (fun l => l) (ToLower demo71_low) false (fun _ => bs "0") (fun _ => bs "error") s (bs "x") query (bs "5") (sched99 query)
  | _ => None
  end.
Definition suggest99 (query : bytes) : option Handlers.outcome :=
  let g := entry_grams demo71_low demo71_conf query in
  match service96 with
  | Ret s => suggest_request lib74 rb4 (fun l => l) (ToLower demo71_low) (fun _ => Some quarter) false (fun _ => bs "0") (fun _ => bs "error") s (bs "x") query (bs "2") (bs "Cosine") (bs "0.25") (sauto95 300 g quarter 2 (start demo95_index g Cosine quarter 2))
  | _ => None
  end.
Example C99_deployed_answers : let sent body := Some (Handlers.Sent (Handlers.mkResp 200 (bs "application/json") (bs body))) in
  auto99 (bs "a-a+") = sent "[{""Score"":0,""Value"":""a-a+""},{""Score"":0,""Value"":""a-a+""}]"%string /\ auto99 (bs "") = sent "[]"%string /\
  suggest99 (bs "-+") = sent "[{""Score"":0,""Value"":""a-a+""}]"%string.
Proof. vm_compute. split; [|split]; reflexivity. Qed.
