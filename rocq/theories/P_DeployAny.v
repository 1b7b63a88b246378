(** C93 and C95: the deployed server over sources with any entries, and that it does answer. *)
From Coq Require Import String ZifyBool Permutation Sorted Lia Reals.
From Verif Require Import Base BaseLemmas GoMap Store StoreSpec Postings PostingsSpec PostingsDrive P_PostingsLemmas Merger MergerSpec MergerAnySpec P_MergerLemmas Index IndexSpec IndexProofs P_IndexLemmas Text AnalysisSpec Analysis Decimal Scanner ScannerSpec
  Mph Float64 Metric MetricSpec FloatProofs MetricFloat MetricWide TopK Suggest SuggestSpec P_Suggest SuggestAnySpec Autocomplete AutocompleteSpec Http HttpSpec P_Http NGramIndex NGramIndexSpec NGramIndexProofs P_NGramIndex NGramIndexAnySpec NGramIndexAny P_RepeatedDict CdbDict CdbDictSpec P_Cdb Paths PathsSpec
  JsonSpec Json P_Json Config ConfigSpec P_Config P_Scanner Indexer IndexerSpec P_Indexer Deploy DeploySpec P_Deploy.
From Verif Require P_Index P_Analysis Handlers P_Handlers.
Local Open Scope Z_scope.
Local Notation length := List.length.

(* the index the server holds under a name *)
Definition index_held (service : list (bytes * entry)) (name : bytes) : option (list (option inverted)) :=
  match mget beqb service name with Some (mkEntry (InMemory ix _) _) | Some (mkEntry (OnDisc ix _) _) => Some ix | None => None end.

Section Held.
Context (L : cdblib) (rb : roaring) (srt : list iter -> list iter) (g : gobcodec) (ord : Z -> index_map -> index_map) (lowr : Z -> Z) (asort : list alphabet -> list alphabet) (chunk chunk' : nat -> nat) (fuel : nat) (O : outside).
Context (k k' : disk) (configPath : bytes) (cs : list IndexDescription) (service service' : list (bytes * entry)) (name : bytes) (c : IndexDescription).
Context (Hs : sound L rb g ord) (Hsrt : sorter_ok srt) (Hd : deployed L rb g ord lowr asort chunk fuel O k configPath cs k')
  (Hconf : configure_service rb g ord (ToLower lowr) asort chunk' fuel k' configPath service = Ret service') (Hlast : last_named cs name c).
Notation words := (entries (text_at k (source_path c))).
Notation conf := (tokenizer_of asort c).
Lemma served : exists ix, index_held service' name = Some ix /\ index_built rb g ord "" lowr conf words ix /\ indexable lowr conf words /\ (forall w, In w words -> Forall is_byte w /\ well_formed w) /\
  (forall query m alpha topK, let q := entry_grams lowr conf query in NoDup q -> 1 <= zlen q <= 65535 -> (m = Overlap -> zlen q <= 32767) -> alpha_ok alpha -> 1 <= topK ->
     (exists w, In w words /\ MinY m alpha (zlen q) <= zlen (entry_grams lowr conf w)) ->
     forall sched, served_suggest L rb srt (ToLower lowr) service' name (mkConfig query topK m alpha) sched = ServiceSuggest rb srt ix words (ToLower lowr) conf query alpha m topK sched) /\
  (forall query limit, let q := prefix_grams lowr conf query in NoDup q -> 1 <= zlen q < 2 ^ 32 -> 0 <= limit ->
     forall sched, served_autocomplete L rb srt (ToLower lowr) service' name query limit sched = ServiceAutocomplete rb srt ix words (ToLower lowr) conf query limit sched).
Proof.
  destruct (held L rb g ord lowr asort chunk chunk' fuel O k k' configPath cs service service' name c Hs Hd Hconf Hlast) as (e & ix & Hm & [_ Hgood] & Hb & Ei & Ec & Hdict & Hw). pose proof Hs as (HL & Hrb & Hrw & Hg & Ho).
  exists ix. split; [unfold index_held; rewrite Hm; destruct e as [[x ws|x recs] d]; cbn [e_opened] in Ei; subst x; reflexivity|]. split; [exact Hb|]. split; [exact Hdict|]. split; [exact Hw|].
  split.
  - intros query m alpha topK q Nq H1 H2 H3 H4 H5 sched. unfold served_suggest. rewrite Hm. destruct e as [[x ws|x recs] d]; cbn [e_opened e_conf c_query c_similarity c_metric c_topK] in *; subst x d.
    + destruct Hgood as [-> _]. reflexivity.
    + exact (C74_disc_suggest_partial L rb srt g ord "" lowr conf words recs ix query m alpha topK Hrb Hrw Hg Ho Hsrt Hdict Hb (proj2 Hgood) Nq H1 H2 H3 H4 H5 sched).
  - intros query limit q Nq H1 H2 sched. unfold served_autocomplete. rewrite Hm. destruct e as [[x ws|x recs] d]; cbn [e_opened e_conf] in *; subst x d.
    + destruct Hgood as [-> _]. reflexivity.
    + exact (C74_disc_autocomplete_partial L rb srt g ord "" lowr conf words recs ix query limit Hrb Hrw Hg Ho Hsrt Hdict Hb (proj2 Hgood) Nq H1 H2 sched).
Qed.
End Held.

Lemma entry_in words i : 0 <= i < zlen words -> In (entry_at words i) words.
Proof. intros H. unfold entry_at. apply nth_In. unfold zlen in H. lia. Qed.
Lemma responds bf ftext etext items : P_Handlers.writes_numbers ftext -> (forall it, In it items -> Forall is_byte (snd it) /\ well_formed (snd it)) -> (forall it, In it items -> finite_score (fst it) = true) ->
  exists body, Handlers.respond etext (MarshalItems bf ftext) (Ret items) = Handlers.Sent (Handlers.mkResp 200 (bs "application/json") body) /\
  read_array (read_item (bs "Score") (bs "Value")) body = Some (map (fun it => (ftext (fst it), snd it)) items).
Proof.
  intros Hft Hw Hfin. destruct (C81_response bf ftext items Hw) as [Hex Hread]; [intros it _; apply Hft|]. destruct (proj2 Hex Hfin) as (body & Eb). exists body. unfold Handlers.respond. rewrite Eb. split; [reflexivity|]. exact (Hread body Eb).
Qed.

(** ** Sources with any entries *)
(** An autocomplete request: the answer has the entries with all n-grams of the query, by their
    position in the source, an entry that repeats n-grams possibly several times. *)
Theorem C95_autocomplete_request_partial : forall L rb srt g ord lowr asort chunk chunk' fuel O bf ftext etext k k' configPath cs service service' name c query tk limit,
  sound L rb g ord -> sorter_ok srt -> P_Handlers.writes_numbers ftext ->
  deployed L rb g ord lowr asort chunk fuel O k configPath cs k' ->
  configure_service rb g ord (ToLower lowr) asort chunk' fuel k' configPath service = Ret service' ->
  last_named cs name c -> P_Handlers.count_param tk 0 limit ->
  let d := tokenizer_of asort c in
  let words := entries (text_at k (source_path c)) in
  let q := prefix_grams lowr d query in
  dictionary_any lowr d words -> NoDup q -> 1 <= zlen q < 2 ^ 32 ->
  forall sched out, autocomplete_request L rb srt (ToLower lowr) bf ftext etext service' name query tk sched = Some out ->
  exists X body, out = Handlers.Sent (Handlers.mkResp 200 (bs "application/json") body) /\
    read_array (read_item (bs "Score") (bs "Value")) body = Some (map (fun i => (ftext (of_int 0), entry_at words i)) (firstn (Z.to_nat limit) X)) /\
    StronglySorted Z.le X /\ (forall i, In i X <-> In i (matches lowr d q words)) /\ (forall i, In i X -> (times i X <= repeats (entry_grams lowr d (entry_at words i)))%nat).
Proof.
  intros L rb srt g ord lowr asort chunk chunk' fuel O bf ftext etext k k' configPath cs service service' name c query tk limit Hs Hsrt Hft Hd Hconf Hlast Hp d words q Hdict Nq Hq sched out Hout.
  destruct (served L rb srt g ord lowr asort chunk chunk' fuel O k k' configPath cs service service' name c Hs Hsrt Hd Hconf Hlast) as (ix & _ & Hb & _ & Hw & _ & Ha). pose proof Hs as (HL & Hrb & Hrw & Hg & Ho).
  assert (0 <= limit) as Hlim by (destruct Hp as [[_ ->]|[_ H]]; lia). apply (C66_topk_param tk defaultTopK limit ltac:(unfold defaultTopK; lia)) in Hp.
  unfold autocomplete_request, autocomplete_limit in Hout. rewrite Hp, (Ha query limit Nq Hq Hlim) in Hout. fold d words in Hout, Hb.
  destruct (ServiceAutocomplete rb srt ix words (ToLower lowr) d query limit sched) as [r|] eqn:Er; [|discriminate]. cbn [Handlers.when_done] in Hout. injection Hout as <-.
  destruct (C95_autocomplete_partial rb srt g ord "" lowr d words ix query limit Hrb Hrw Hg Ho Hsrt Hdict Hb Nq Hq Hlim sched r Er) as (X & -> & HX & Hm & Ht). exists X.
  destruct (responds bf ftext etext (map (fun i => (of_int 0, entry_at words i)) (firstn (Z.to_nat limit) X)) Hft) as (body & Eb & Hread).
  - intros it Hit. apply in_map_iff in Hit. destruct Hit as (i & <- & Hi). cbn [snd]. apply Hw, entry_in. assert (In i X) as HiX by (rewrite <- (firstn_skipn (Z.to_nat limit)); apply in_or_app; left; exact Hi).
    apply Hm in HiX. unfold matches in HiX. apply filter_In in HiX. destruct HiX as [HiX _]. apply in_map_iff in HiX. destruct HiX as (n & <- & Hn). apply in_seq in Hn. unfold zlen. fold words. lia.
  - intros it Hit. apply in_map_iff in Hit. destruct Hit as (i & <- & _). reflexivity.
  - exists body. split; [exact Eb|]. split; [rewrite Hread, map_map; reflexivity|]. auto.
Qed.
Print Assumptions C95_autocomplete_request_partial.

(** A suggest request: as C95_suggest_partial says, as JSON. *)
Theorem C95_suggest_request_partial : forall L rb srt g ord lowr asort chunk chunk' fuel O pf bf ftext etext k k' configPath cs service service' name c query tk mt sm topK m alpha,
  sound L rb g ord -> sorter_ok srt -> P_Handlers.parses_valid pf -> P_Handlers.writes_numbers ftext ->
  deployed L rb g ord lowr asort chunk fuel O k configPath cs k' ->
  configure_service rb g ord (ToLower lowr) asort chunk' fuel k' configPath service = Ret service' ->
  last_named cs name c -> P_Handlers.suggest_params pf tk mt sm topK m alpha -> alpha_ok alpha ->
  let d := tokenizer_of asort c in
  let words := entries (text_at k (source_path c)) in
  let q := entry_grams lowr d query in
  dictionary_any lowr d words -> NoDup q -> 1 <= zlen q <= 65535 -> (m = Overlap -> zlen q <= 32767) ->
  (exists w, In w words /\ MinY m alpha (zlen q) <= zlen (entry_grams lowr d w)) ->
  forall sched out, suggest_request L rb srt (ToLower lowr) pf bf ftext etext service' name query tk mt sm sched = Some out ->
  let of := fun i => entry_grams lowr d (entry_at words i) in
  let score := fun a : Z * Z => Score m (snd a) (zlen q) (zlen (of (fst a))) in
  let sim := fun i => gram_similarity lowr d m q (entry_at words i) in
  exists ans body, out = Handlers.Sent (Handlers.mkResp 200 (bs "application/json") body) /\
    read_array (read_item (bs "Score") (bs "Value")) body = Some (map (fun a => (ftext (score a), entry_at words (fst a))) ans) /\
    zlen ans <= topK /\
    StronglySorted (fun a b => flt (score a) (score b) = false /\ (feq (score a) (score b) = true -> fst a <= fst b)) ans /\
    (forall i n, In (i, n) ans -> 0 <= i < zlen words /\ 1 <= n <= common q (of i) /\ (NoDup (of i) -> score (i, n) = score (i, common q (of i))) /\
       (sim i >= val alpha * (1 - / 2 ^ 46))%R) /\
    (forall i, 0 <= i < zlen words -> (copies i ans <= repeats (of i))%nat) /\
    (forall i, 0 <= i < zlen words -> 1 <= zlen (of i) -> (m = Overlap -> zlen (of i) <= 32767) -> (sim i >= val alpha * (1 + / 2 ^ 46))%R ->
       (exists n, In (i, n) ans /\ score (i, n) = score (i, common q (of i))) \/
       (zlen ans = topK /\ forall a, In a ans -> (sim i <= val (score a) * (1 + / 2 ^ 46) + / 2 ^ 50)%R)).
Proof.
  intros L rb srt g ord lowr asort chunk chunk' fuel O pf bf ftext etext k k' configPath cs service service' name c query tk mt sm topK m alpha Hs Hsrt Hpf Hft Hd Hconf Hlast Hp Ha d words q Hdict Nq Hq Hov Hlong sched out Hout of score sim.
  destruct (served L rb srt g ord lowr asort chunk chunk' fuel O k k' configPath cs service service' name c Hs Hsrt Hd Hconf Hlast) as (ix & _ & Hb & _ & Hw & Hsu & _). pose proof Hs as (HL & Hrb & Hrw & Hg & Ho).
  assert (1 <= topK) as Hk by (destruct Hp as ([[_ ->]|[_ H]] & _); lia). pose proof (proj1 (P_Handlers.params_config pf tk mt sm topK m alpha query Hpf) Hp) as Hc.
  unfold suggest_request in Hout. rewrite Hc, (Hsu query m alpha topK Nq Hq Hov Ha Hk Hlong) in Hout. fold d words in Hout, Hb.
  destruct (ServiceSuggest rb srt ix words (ToLower lowr) d query alpha m topK sched) as [r|] eqn:Er; [|discriminate]. cbn [Handlers.when_done] in Hout. injection Hout as <-.
  destruct (C95_suggest_partial rb srt g ord "" lowr d words ix query m alpha topK Hrb Hrw Hg Ho Hsrt Hdict Hb Nq Hq Hov Ha Hk Hlong sched r Er) as (ans & -> & H1 & H2 & H3 & H4 & H5). fold q in H1, H2, H3, H4, H5. fold of score sim in H2, H3, H4, H5. exists ans.
  destruct (responds bf ftext etext (map (fun a => (score a, entry_at words (fst a))) ans) Hft) as (body & Eb & Hread).
  - intros it Hit. apply in_map_iff in Hit. destruct Hit as ([i n] & <- & Hi). cbn [snd fst]. apply Hw, entry_in. apply (H3 i n Hi).
  - intros it Hit. apply in_map_iff in Hit. destruct Hit as ([i n] & <- & Hi). cbn [fst]. apply P_Handlers.fin_json. destruct (H3 i n Hi) as (Hin & Hn & _). pose proof (P_Handlers.common_bound q (of i)) as Hcb.
    destruct Hdict as (_ & _ & _ & _ & Hl). specialize (Hl _ (entry_in words i Hin)). fold (of i) in Hl.
    assert (1 <= zlen (of i)) as H1'.
    { destruct (Z.le_gt_cases 1 (zlen (of i))) as [Hge|Hlt]; [exact Hge|]. exfalso. assert (of i = []) as Eo by (destruct (of i); [reflexivity|rewrite zlen_cons in Hlt; pose proof (zlen_nonneg l); lia]).
      assert (1 <= n <= common q (of i)) as Hn' by exact Hn. rewrite Eo in Hn'. assert (common q [] = 0) as E0 by (unfold common; clear; induction q as [|t q' IH]; [reflexivity|]; cbn [filter existsb]; exact IH). lia. }
    assert (1 <= n <= common q (of i)) as Hn' by exact Hn. assert (zlen (of i) + 1 < 2 ^ 26) as Hl' by exact Hl. change (fin (Score m n (zlen q) (zlen (of i)))). generalize dependent (of i). intros h. intros. apply score_wide; unfold size_ok; lia.
  - exists body. split; [exact Eb|]. split; [rewrite Hread, map_map; reflexivity|]. auto 10.
Qed.
Print Assumptions C95_suggest_request_partial.

(** ** The server does answer *)
(** A suggest request, for any indexable source: however far the goroutines of its search have
    come in whatever order, they have made a bounded number of steps and can go on so that the
    client gets an answer. *)
Theorem C93_suggest_returns_partial : forall L rb srt g ord lowr asort chunk chunk' fuel O pf bf ftext etext k k' configPath cs service service' name c query tk mt sm topK m alpha,
  sound L rb g ord -> sorter_ok srt -> P_Handlers.parses_valid pf ->
  deployed L rb g ord lowr asort chunk fuel O k configPath cs k' ->
  configure_service rb g ord (ToLower lowr) asort chunk' fuel k' configPath service = Ret service' ->
  last_named cs name c -> P_Handlers.suggest_params pf tk mt sm topK m alpha -> alpha_ok alpha ->
  let d := tokenizer_of asort c in
  let words := entries (text_at k (source_path c)) in
  let q := entry_grams lowr d query in
  NoDup q -> 1 <= zlen q <= 65535 -> (m = Overlap -> zlen q <= 32767) ->
  (exists w, In w words /\ MinY m alpha (zlen q) <= zlen (entry_grams lowr d w)) ->
  exists ix, index_held service' name = Some ix /\
  forall sched, run rb srt ix q m alpha topK sched (start ix q m alpha topK) <> None ->
  zlen sched <= 20 * 2 ^ 26 + 7 /\
  exists more resp, suggest_request L rb srt (ToLower lowr) pf bf ftext etext service' name query tk mt sm (sched ++ more) = Some (Handlers.Sent resp).
Proof.
  intros L rb srt g ord lowr asort chunk chunk' fuel O pf bf ftext etext k k' configPath cs service service' name c query tk mt sm topK m alpha Hs Hsrt Hpf Hd Hconf Hlast Hp Ha d words q Nq Hq Hov Hlong.
  destruct (served L rb srt g ord lowr asort chunk chunk' fuel O k k' configPath cs service service' name c Hs Hsrt Hd Hconf Hlast) as (ix & Hix & Hb & Hdict & _ & Hsu & _). pose proof Hs as (HL & Hrb & Hrw & Hg & Ho).
  assert (1 <= topK) as Hk by (destruct Hp as ([[_ ->]|[_ H]] & _); lia). pose proof (proj1 (P_Handlers.params_config pf tk mt sm topK m alpha query Hpf) Hp) as Hc.
  exists ix. split; [exact Hix|]. intros sched Hrun.
  assert (zlen sched <= 20 * 2 ^ 26 + 7 /\ exists more items, ServiceSuggest rb srt ix words (ToLower lowr) d query alpha m topK (sched ++ more) = Some (Ret items)) as (Hz & more & items & E).
  { destruct Hdict as [Hdict|Hdict]; [exact (C71_suggest_returns_partial rb srt g ord "" lowr d words ix query m alpha topK Hrb Hrw Hg Ho Hsrt Hdict Hb Hq Hov Ha Hk Hlong sched Hrun)|exact (C95_suggest_returns_partial rb srt g ord "" lowr d words ix query m alpha topK Hrb Hrw Hg Ho Hsrt Hdict Hb Hq Hov Ha Hk Hlong sched Hrun)]. }
  split; [exact Hz|]. exists more. unfold suggest_request. rewrite Hc, (Hsu query m alpha topK Nq Hq Hov Ha Hk Hlong). fold d words. rewrite E. cbn [Handlers.when_done Handlers.respond]. destruct (MarshalItems bf ftext items) eqn:Em; unfold Handlers.http_error; eauto; unfold MarshalItems in Em; destruct (forallb _ items); discriminate.
Qed.
Print Assumptions C93_suggest_returns_partial.
(** ... and an autocomplete request. *)
Theorem C93_autocomplete_returns_partial : forall L rb srt g ord lowr asort chunk chunk' fuel O bf ftext etext k k' configPath cs service service' name c query tk limit,
  sound L rb g ord -> sorter_ok srt ->
  deployed L rb g ord lowr asort chunk fuel O k configPath cs k' ->
  configure_service rb g ord (ToLower lowr) asort chunk' fuel k' configPath service = Ret service' ->
  last_named cs name c -> P_Handlers.count_param tk 0 limit ->
  let d := tokenizer_of asort c in
  let words := entries (text_at k (source_path c)) in
  let q := prefix_grams lowr d query in
  NoDup q -> 1 <= zlen q < 2 ^ 32 ->
  exists ix, index_held service' name = Some ix /\
  forall sched, arun rb srt ix q limit sched (astart q limit) <> None ->
  zlen sched <= 5 * 2 ^ 26 + 2 /\
  exists more resp, autocomplete_request L rb srt (ToLower lowr) bf ftext etext service' name query tk (sched ++ more) = Some (Handlers.Sent resp).
Proof.
  intros L rb srt g ord lowr asort chunk chunk' fuel O bf ftext etext k k' configPath cs service service' name c query tk limit Hs Hsrt Hd Hconf Hlast Hp d words q Nq Hq.
  destruct (served L rb srt g ord lowr asort chunk chunk' fuel O k k' configPath cs service service' name c Hs Hsrt Hd Hconf Hlast) as (ix & Hix & Hb & Hdict & _ & _ & Hau). pose proof Hs as (HL & Hrb & Hrw & Hg & Ho).
  assert (0 <= limit) as Hlim by (destruct Hp as [[_ ->]|[_ H]]; lia). apply (C66_topk_param tk defaultTopK limit ltac:(unfold defaultTopK; lia)) in Hp.
  exists ix. split; [exact Hix|]. intros sched Hrun.
  assert (zlen sched <= 5 * 2 ^ 26 + 2 /\ exists more items, ServiceAutocomplete rb srt ix words (ToLower lowr) d query limit (sched ++ more) = Some (Ret items)) as (Hz & more & items & E).
  { destruct Hdict as [Hdict|Hdict]; [exact (C73_autocomplete_returns rb srt g ord "" lowr d words ix query limit Hrb Hrw Hg Ho Hsrt Hdict Hb Nq Hq Hlim sched Hrun)|exact (C95_autocomplete_returns_partial rb srt g ord "" lowr d words ix query limit Hrb Hrw Hg Ho Hsrt Hdict Hb Nq Hq Hlim sched Hrun)]. }
  split; [exact Hz|]. exists more. unfold autocomplete_request, autocomplete_limit. rewrite Hp, (Hau query limit Nq Hq Hlim). fold d words. rewrite E. cbn [Handlers.when_done Handlers.respond]. destruct (MarshalItems bf ftext items) eqn:Em; unfold Handlers.http_error; eauto; unfold MarshalItems in Em; destruct (forallb _ items); discriminate.
Qed.
Print Assumptions C93_autocomplete_returns_partial.

(** ** The hypotheses are met: a source with an entry that repeats an n-gram, under both drivers *)
Definition file96 : bytes := bs "a-a+" ++ [10] ++ bs "ab".
Definition disk96 : disk := put (disk88 file96) (bs "/d/config.json") (CText (text93 "DISC")).
Definition run96 := indexer_command lib74 rb4 gob1 (fun _ m => rev m) (ToLower demo71_low) (fun l => l) (fun _ => 3%nat) 100 out88 [] (bs "/pid") (bs "http://h") (bs "/d/config.json") disk96.
Definition disk96_after : disk := fst (fst run96).
Lemma says96 : config_says disk96 (bs "/d/config.json") [c93 "DISC"; c93_ram].
Proof. destruct (says93 "DISC" (or_introl eq_refl)) as (text & j & E & H). exists text, j. split; [exact E|exact H]. Qed.
Lemma file96_ok : file_ok file96 demo95_words.
Proof.
  split; [vm_compute; reflexivity|]. split; [|split; [|split; vm_compute; reflexivity]].
  - intros l Hl. match type of Hl with In _ ?t => let v := eval vm_compute in t in change t with v in Hl end. destruct Hl as [<-|[<-|[]]]; vm_compute; reflexivity.
  - intros w [<-|[<-|[]]]; vm_compute; discriminate.
Qed.
Lemma source96 c : c = c93 "DISC" \/ c = c93_ram -> disk96 (source_path c) <> None /\ tokenizer_of (fun l => l) c = demo71_conf /\ entries (text_at disk96 (source_path c)) = demo95_words /\ source_ok rb4 gob1 (fun _ m => rev m) demo71_low (fun l => l) 100 (text_at disk96 (source_path c)) c.
Proof.
  intros Hc. assert (text_at disk96 (source_path c) = file96 /\ disk96 (source_path c) <> None /\ tokenizer_of (fun l => l) c = demo71_conf) as (-> & Hn & Ht) by (destruct Hc as [-> | ->]; (split; [vm_compute; reflexivity|]; split; [vm_compute; discriminate|reflexivity])).
  split; [exact Hn|]. split; [exact Ht|]. pose proof file96_ok as Hf. pose proof Hf as (Hw & Hl & _). fold (entries file96) in Hw. split; [symmetry; exact Hw|]. unfold source_ok. rewrite <- Hw, Ht. split; [exact Hl|]. split; [vm_compute; lia|]. split; [right; exact demo95_ok|]. split; [intros _; exact Hf|]. split.
  - intros ops b E Hb.
    assert (match IndexDictionary rb4 gob1 (fun _ m => rev m) ".dl" ".hd" 0 (ToLower demo71_low) demo71_conf demo95_words with Ret ops => match fs_open (fs_run NewFSDirectory ops) ".dl", ram_open (ram_run NewRAMDirectory ops) ".dl" with Some b, Some b' => (zlen b <? 2 ^ 32) && (zlen b' <? 2 ^ 32) | _, _ => false end | _ => false end = true) as H by (vm_compute; reflexivity).
    rewrite E in H. destruct (fs_open (fs_run NewFSDirectory ops) ".dl") as [b1|]; [|discriminate]. destruct (ram_open (ram_run NewRAMDirectory ops) ".dl") as [b2|]; [|discriminate]. apply andb_true_iff in H. destruct Hb as [Hb|Hb]; injection Hb as <-; lia.
  - intros w [<- |[<- |[]]]; (split; [repeat constructor; unfold is_byte; cbn; lia|]); unfold well_formed; match goal with |- Forall _ ?t => let v := eval vm_compute in t in change t with v end; repeat (apply Forall_cons; [intros [H _]; cbn in H; unfold RuneError in H; lia|]); apply Forall_nil.
Qed.
Example C95_deployed_nonvacuous : deployed lib74 rb4 gob1 (fun _ m => rev m) demo71_low (fun l => l) (fun _ => 3%nat) 100 out88 disk96 (bs "/d/config.json") [c93 "DISC"; c93_ram] disk96_after /\
  (forall c, c = c93 "DISC" \/ c = c93_ram -> dictionary_any demo71_low (tokenizer_of (fun l => l) c) (entries (text_at disk96 (source_path c))) /\ ~ dictionary_ok demo71_low (tokenizer_of (fun l => l) c) (entries (text_at disk96 (source_path c)))).
Proof.
  split.
  - destruct run96 as [[k' notes] r] eqn:E. assert (disk96_after = k') as -> by (unfold disk96_after; rewrite E; reflexivity).
    refine (proj2 (C93_succeeds_partial lib74 rb4 gob1 _ demo71_low _ _ 100 out88 (bs "/pid") (bs "http://h") 4711 disk96 (bs "/d/config.json") _ k' notes r _ says96 coherent93 _ _ _ _ E)).
    + split; [exact lib74_ok|]; split; [exact rb4_ok|]; split; [exact rb4_written|]; split; [exact gob1_ok|exact order_rev].
    + intros c Hc. assert (c = c93 "DISC" \/ c = c93_ram) as Hc' by (destruct Hc as [<- |[<- |[]]]; auto). destruct (source96 c Hc') as (H1 & _ & _ & H2). auto.
    + intros d Hd. assert (jobs (fun l => l) [c93 "DISC"; c93_ram] = [job_of (fun l => l) (c93 "DISC")]) as Ej by reflexivity. rewrite Ej in Hd. destruct Hd as [<- |[]]. split; [intros; reflexivity|reflexivity].
    + intros _. split; [reflexivity|]. split; [lia|]. split; [reflexivity|]. intros d Hd. assert (jobs (fun l => l) [c93 "DISC"; c93_ram] = [job_of (fun l => l) (c93 "DISC")]) as Ej by reflexivity. rewrite Ej in Hd. destruct Hd as [<- |[]]. intros H. vm_compute in H. intuition discriminate.
    + intros _. reflexivity.
  - intros c Hc. destruct (source96 c Hc) as (_ & -> & -> & _). split; [exact demo95_ok|exact (proj1 (proj2 C95_nonvacuous))].
Qed.
(** The server deployed like this answers the prefix "a" with the first entry twice, under both
    names and drivers. *)
Definition service96 : res (list (bytes * entry)) := configure_service rb4 gob1 (fun _ m => rev m) (ToLower demo71_low) (fun l => l) (fun _ => 5%nat) 100 disk96_after (bs "/d/config.json") [].
Definition asked96 (name : string) : option Handlers.outcome :=
  match service96 with
  | Ret s => autocomplete_request lib74 rb4 (fun l => l) (ToLower demo71_low) false (fun _ => bs "0") (fun _ => bs "error") s (bs name) (bs "a") (bs "2") demo95_asched
  | _ => None
  end.
Example C95_deployed_answers : let body := bs "[{""Score"":0,""Value"":""a-a+""},{""Score"":0,""Value"":""a-a+""}]" in
  asked96 "x" = Some (Handlers.Sent (Handlers.mkResp 200 (bs "application/json") body)) /\ asked96 "y" = Some (Handlers.Sent (Handlers.mkResp 200 (bs "application/json") body)).
Proof. vm_compute. split; reflexivity. Qed.
