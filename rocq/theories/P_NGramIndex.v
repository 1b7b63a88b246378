(** C71-C73: from a dictionary to the answers, through indexing, committing, reading,
    searching and the dictionary. *)
From Coq Require Import String ZifyBool Permutation Sorted Reals Lra Lia.
From Verif Require Import Base BaseLemmas GoMap Store StoreSpec Postings PostingsSpec PostingsDrive P_PostingsLemmas Merger MergerSpec P_MergerLemmas
  Text TextProofs TextProofs2 Analysis AnalysisSpec AnalysisProofs AnalysisProofs2 P_AnalysisLemmas P_Analysis
  Index IndexSpec IndexProofs IndexProofs2 P_IndexLemmas P_Index
  Float64 Metric MetricSpec MetricProofs FloatProofs MetricFloat MetricFloat2 MetricScore P_Metric TopK TopKSpec TopKProofs Suggest SuggestSpec SuggestProofs SuggestProofs2 P_SuggestLemmas P_Suggest
  Autocomplete AutocompleteSpec AutocompleteProofs P_Autocomplete Mph P_Mph NGramIndex NGramIndexSpec NGramIndexProofs NGramIndexProofs2.
Local Open Scope Z_scope.

(** ** Building *)
Theorem C71_index_builds_partial : forall rb g ord name lowr d words,
  roaring_ok rb -> roaring_written rb -> gob_ok g -> order_ok ord -> dictionary_ok lowr d words ->
  exists ops, IndexDictionary rb g ord (documentListFile name) (headerFile name) 0 (ToLower lowr) d words = Ret ops /\ with_flushes 0 ops ops /\
  ((forall b, ram_open (ram_run NewRAMDirectory ops) (documentListFile name) = Some b -> zlen b < 2 ^ 32) -> exists ix, RAMBuild rb g ord name (ToLower lowr) d words = Ret ix) /\
  (forall ops', with_flushes 0 ops ops' -> (forall b, fs_open (fs_run NewFSDirectory ops') (documentListFile name) = Some b -> zlen b < 2 ^ 32) ->
     exists ix, FSBuild g name (fs_run NewFSDirectory ops') = Ret ix).
Proof.
  intros rb g ord name lowr d words Hrb Hrw Hg Ho Hd. destruct (dict_built rb g ord name lowr d words Hrb Hrw Hg Ho Hd) as (ops & E & Hf & H1 & H2). exists ops. split; [exact E|]. split; [exact Hf|]. split.
  - intros Hs. destruct (H1 Hs) as (ix & Ei & _). eauto.
  - intros ops' Hf' Hs. destruct (H2 ops' Hf' Hs) as (ix & Ei & _). eauto.
Qed.
Print Assumptions C71_index_builds_partial.

(** Which dictionaries these are: any whose entries are written in the alphabet (with the
    wrap symbols, after lower-casing) and have n-grams at all; and likewise the queries. *)
Lemma grams_bounds lowr d text : 1 <= t_n d <= 8 -> let p := Trim (ToLower lowr text) in
  zlen (grams lowr d text) <= Z.max 1 (zlen p) /\ (t_n d <= zlen p -> 1 <= zlen (grams lowr d text)).
Proof.
  intros Hn p. unfold grams. fold p. unfold zlen. rewrite map_length. unfold substrings. pose proof (chars_length_le p) as Hc.
  destruct (Nat.leb_spec (Z.to_nat (t_n d)) (List.length (chars p))) as [H|H].
  - assert (forall l : list bytes, (List.length (first_occurrences l) <= List.length l)%nat /\ (l <> [] -> (1 <= List.length (first_occurrences l))%nat)) as Hf.
    { intros l. induction l as [|x l [IH1 IH2]] using rev_ind; [split; [apply Nat.le_refl|intros E; exfalso; apply E; reflexivity]|]. rewrite fo_app_one, !app_length. cbn [List.length]. destruct (existsb (beqb x) l) eqn:E; cbn [List.length]; split; try lia.
      intros _. destruct l as [|y l]; [discriminate|]. specialize (IH2 ltac:(discriminate)). lia. }
    destruct (Hf (windows (Z.to_nat (t_n d)) (chars p))) as [H1 H2]. unfold windows in H1 at 2. rewrite map_length, seq_length in H1. split; [lia|]. intros _.
    assert (1 <= List.length (first_occurrences (windows (Z.to_nat (t_n d)) (chars p))))%nat; [|lia]. apply H2. unfold windows. replace (List.length (chars p) - Z.to_nat (t_n d) + 1)%nat with (S (List.length (chars p) - Z.to_nat (t_n d))) by lia. discriminate.
  - destruct (Nat.ltb_spec (List.length p) (Z.to_nat (t_n d))); cbn [List.length]; lia.
Qed.
Lemma plain_grams lowr d text : 1 <= t_n d <= 8 -> Forall (fun rb => t_has d (fst rb) = true) (runes (Trim (ToLower lowr text))) -> NoDup (grams lowr d text).
Proof.
  intros Hn H. set (d' := mkTok (t_n d) (t_has d) (t_pad d) [] []). destruct (C29_tokens_distinct_partial lowr d' text Hn) as (ts & E & Hd & _).
  - cbn [d' t_wrap0 t_wrap1 t_has app]. rewrite app_nil_r. exact H.
  - rewrite suggest_grams in E by exact Hn. injection E as <-. unfold entry_grams in Hd. cbn [d' t_wrap0 t_wrap1 app] in Hd. rewrite app_nil_r in Hd. exact Hd.
Qed.
Theorem C71_plain_dictionary : forall lowr d words, 1 <= t_n d <= 8 -> words <> [] -> zlen words < 2 ^ 32 ->
  (forall w, In w words -> let p := Trim (ToLower lowr (t_wrap0 d ++ w ++ t_wrap1 d)) in
     Forall (fun rb => t_has d (fst rb) = true) (runes p) /\ t_n d <= zlen p < 2 ^ 26 - 1) ->
  dictionary_ok lowr d words.
Proof.
  intros lowr d words Hn Hne Hz H. split; [exact Hn|]. split; [exact Hz|]. split.
  - destruct words as [|w ws]; [exfalso; apply Hne; reflexivity|]. exists w, ws. split; [reflexivity|]. destruct (H w (or_introl eq_refl)) as [_ Hp]. destruct (grams_bounds lowr d (t_wrap0 d ++ w ++ t_wrap1 d) Hn) as [_ Hb]. specialize (Hb (proj1 Hp)). intros E. unfold entry_grams in E. rewrite E in Hb. apply Z.le_ngt in Hb. apply Hb. reflexivity.
  - intros w Hw. destruct (H w Hw) as [Hp Hl]. split; [apply plain_grams; assumption|]. destruct (grams_bounds lowr d (t_wrap0 d ++ w ++ t_wrap1 d) Hn) as [Hb _]. unfold entry_grams. cbv zeta in Hl. unfold bytes in *. lia.
Qed.
Print Assumptions C71_plain_dictionary.
Theorem C71_plain_query : forall lowr d query, 1 <= t_n d <= 8 ->
  (let p := Trim (ToLower lowr (t_wrap0 d ++ query ++ t_wrap1 d)) in
     Forall (fun rb => t_has d (fst rb) = true) (runes p) -> t_n d <= zlen p <= 65535 -> NoDup (entry_grams lowr d query) /\ 1 <= zlen (entry_grams lowr d query) <= 65535) /\
  (let p := Trim (ToLower lowr (t_wrap0 d ++ query)) in
     Forall (fun rb => t_has d (fst rb) = true) (runes p) -> t_n d <= zlen p < 2 ^ 32 -> NoDup (prefix_grams lowr d query) /\ 1 <= zlen (prefix_grams lowr d query) < 2 ^ 32).
Proof.
  intros lowr d query Hn. split; intros p Hp Hl; (split; [apply plain_grams; assumption|]).
  - destruct (grams_bounds lowr d (t_wrap0 d ++ query ++ t_wrap1 d) Hn) as [H1 H2]. unfold entry_grams. fold p in H1, H2. unfold bytes in *. specialize (H2 (proj1 Hl)). lia.
  - destruct (grams_bounds lowr d (t_wrap0 d ++ query) Hn) as [H1 H2]. unfold prefix_grams. fold p in H1, H2. unfold bytes in *. specialize (H2 (proj1 Hl)). lia.
Qed.
Print Assumptions C71_plain_query.

Section Searches.
Context (rb : roaring) (srt : list iter -> list iter) (lowr : Z -> Z) (d : tokconf) (words : list bytes) (ix : list (option inverted)).
Notation docs := (docs_of lowr d words).
Hypothesis Hsrt : sorter_ok srt.
Hypothesis Hdict : dictionary_ok lowr d words.
Hypothesis Hok : ix_ok rb docs ix.
Lemma s_docs : docs_ok docs. Proof. apply docs_good. exact Hdict. Qed.
Lemma s_index : index_of rb ix docs. Proof. apply Hok. Qed.
Lemma s_n : 1 <= t_n d <= 8. Proof. apply Hdict. Qed.
Lemma s_len : zlen ix <= 2 ^ 26.
Proof.
  destruct Hok as [_ ->]. unfold ix_size. destruct (fold_max_some docs 0) as [->|(x & Hx & ->)]; [lia|]. destruct (docs_good _ _ _ Hdict) as (_ & _ & Hl & _). rewrite Forall_forall in Hl. specialize (Hl x Hx). lia.
Qed.
Lemma doc_entry x ts : In (x, ts) docs <-> 0 <= x < zlen words /\ ts = entry_grams lowr d (entry_at words x).
Proof.
  unfold docs_of. rewrite docs_from_in. unfold entry_at. split.
  - intros (j & w & Hj & -> & ->). assert (j < length words)%nat by (apply nth_error_Some; rewrite Hj; discriminate). rewrite Z.add_0_l, Nat2Z.id, (nth_error_nth words j [] Hj). unfold zlen. split; [lia|reflexivity].
  - intros [Hx ->]. exists (Z.to_nat x), (nth (Z.to_nat x) words []). unfold zlen in Hx. split; [apply nth_error_nth'; lia|]. split; [lia|reflexivity].
Qed.
Lemma get_entry x : 0 <= x < zlen words -> DictGet words x = entry_at words x.
Proof. intros H. unfold DictGet, entry_at. replace ((x <? 0) || (zlen words <=? x)) with false by lia. apply nth_indep. unfold zlen in H. lia. Qed.
Lemma entry_in x : 0 <= x < zlen words -> In (entry_at words x) words.
Proof. intros H. unfold entry_at. apply nth_In. unfold zlen in H. lia. Qed.
Lemma s_searchable q m alpha : (exists w, In w words /\ MinY m alpha (zlen q) <= zlen (entry_grams lowr d w)) -> searchable ix q m alpha.
Proof.
  intros (w & Hw & Hm). unfold searchable. destruct Hok as [_ ->]. destruct (fold_max_bound docs 0) as [_ H]. apply In_nth_error in Hw. destruct Hw as (j & Hj).
  specialize (H (Z.of_nat j, entry_grams lowr d w)). cbn [snd] in H. unfold ix_size. enough (In (Z.of_nat j, entry_grams lowr d w) docs) by (specialize (H H0); lia). apply docs_from_in. exists j, w. split; [exact Hj|split; [lia|reflexivity]].
Qed.
Lemma cand_score q m x : 0 <= x < zlen words -> cand_of m q (x, entry_grams lowr d (entry_at words x)) = mkCand x (gram_score lowr d m q (entry_at words x)).
Proof. reflexivity. Qed.
Lemma ids_of (q : list bytes) m (l : list cand) : (forall c, In c l -> exists doc, In doc docs /\ c = cand_of m q doc) ->
  (forall i, In i (map Key l) -> 0 <= i < zlen words) /\ l = map (fun i => mkCand i (gram_score lowr d m q (entry_at words i))) (map Key l)
  /\ map (fun c => (Sc c, DictGet words (Key c))) l = map (fun i => (gram_score lowr d m q (entry_at words i), entry_at words i)) (map Key l).
Proof.
  intros H. induction l as [|c l IH]; [split; [intros i []|split; reflexivity]|]. destruct IH as (H1 & H2 & H3); [intros c' Hc'; apply H; right; exact Hc'|].
  destruct (H c (or_introl eq_refl)) as ((x & ts) & Hd & ->). apply doc_entry in Hd. destruct Hd as [Hx ->]. rewrite (cand_score q m x Hx). split; [|split].
  - intros i [<-|Hi]; [exact Hx|apply H1; exact Hi].
  - cbn [map Key]. f_equal. exact H2.
  - cbn [map Key Sc]. rewrite (get_entry x Hx). f_equal. exact H3.
Qed.
End Searches.

(** ** C71 *)
(** Suggest, for a dictionary with distinct n-grams per entry.  The answers are entries with
    their scores, at most topK, best first; each is similar enough; each entry that is
    similar enough is among them unless there are topK with no smaller score (similarities
    and scores up to the rounding of binary64). *)
Theorem C71_suggest_partial : forall rb srt g ord name lowr d words ix query m alpha topK,
  roaring_ok rb -> roaring_written rb -> gob_ok g -> order_ok ord -> sorter_ok srt ->
  dictionary_ok lowr d words -> index_built rb g ord name lowr d words ix ->
  let q := entry_grams lowr d query in
  NoDup q -> 1 <= zlen q <= 65535 -> (m = Overlap -> zlen q <= 32767) -> alpha_ok alpha -> 1 <= topK ->
  (exists w, In w words /\ MinY m alpha (zlen q) <= zlen (entry_grams lowr d w)) ->
  forall sched r, ServiceSuggest rb srt ix words (ToLower lowr) d query alpha m topK sched = Some r ->
  let score := fun i => gram_score lowr d m q (entry_at words i) in
  let sim := fun i => gram_similarity lowr d m q (entry_at words i) in
  exists ids, r = Ret (map (fun i => (score i, entry_at words i)) ids) /\
    zlen ids <= topK /\ NoDup ids /\ (forall i, In i ids -> 0 <= i < zlen words) /\ best_first score ids /\
    (forall i, In i ids -> (sim i >= val alpha * (1 - / 2 ^ 46))%R) /\
    (forall i, 0 <= i < zlen words -> 1 <= zlen (entry_grams lowr d (entry_at words i)) -> (m = Overlap -> zlen (entry_grams lowr d (entry_at words i)) <= 32767) ->
       (sim i >= val alpha * (1 + / 2 ^ 46))%R ->
       In i ids \/ (zlen ids = topK /\ forall j, In j ids -> (sim i <= val (score j) * (1 + / 2 ^ 46) + / 2 ^ 50)%R)).
Proof.
  intros rb srt g ord name lowr d words ix query m alpha topK Hrb Hrw Hg Ho Hsrt Hdict Hb q Nq Hq1 Hq2 Ha Hk Hlong sched r Hr score sim.
  pose proof (dict_index rb g ord name lowr d words Hrb Hrw Hg Ho Hdict ix Hb) as Hok.
  assert (query_ok ix q m alpha topK) as Hq by (split; [exact Ha|]; split; [exact Nq|]; split; [exact Hq1|]; split; [eapply s_len; eassumption|]; split; assumption).
  pose proof (s_searchable rb lowr d words ix Hok q m alpha Hlong) as Hse. pose proof (s_docs lowr d words Hdict) as Hd. pose proof (s_index rb lowr d words ix Hok) as Hi.
  unfold ServiceSuggest in Hr. rewrite suggest_grams in Hr by (apply Hdict). fold q in Hr.
  destruct (run rb srt ix q m alpha topK sched (start ix q m alpha topK)) as [[s|r0|]|] eqn:Er; try discriminate.
  2:{ exfalso. destruct (C42_returns_partial rb srt ix _ q m alpha topK sched _ Hq Hse Hd Hi Hsrt Er) as [(l & E)|(s & c & p' & E & _)]; discriminate. }
  injection Hr as <-. destruct (C41_every_schedule_partial rb srt ix _ q m alpha topK sched r0 Hq Hse Hd Hi Hsrt Er) as (l & -> & Hl & Hsort & Hnd & Hsound & Hcomp). cbn [bind].
  destruct (ids_of lowr d words q m l) as (I1 & I2 & I3); [intros c Hc; destruct (Hsound c Hc) as (doc & H1 & H2 & _); eauto|].
  exists (map Key l). rewrite I3. split; [reflexivity|]. split; [unfold zlen in *; rewrite map_length; exact Hl|]. split; [exact Hnd|]. split; [exact I1|]. split; [|split].
  - clear - I2 Hsort. unfold best_first. set (ids := map Key l) in *. clearbody ids. subst l. induction ids as [|i ids IH]; [constructor|]. cbn [map] in Hsort. inversion_clear Hsort. constructor; [apply IH; assumption|].
    apply Forall_forall. intros j Hj. rewrite Forall_forall in H0. specialize (H0 _ (in_map _ _ _ Hj)). unfold worse in H0. cbn [Sc Key] in H0. fold (score i) in H0. fold (score j) in H0.
    split; [destruct (flt (score i) (score j)) eqn:E; [exfalso; apply H0; left; reflexivity|reflexivity]|]. intros E. destruct (Z.le_gt_cases i j); [assumption|exfalso; apply H0; right; split; [exact E|lia]].
  - intros i Hin. apply in_map_iff in Hin. destruct Hin as (c & <- & Hc). destruct (Hsound c Hc) as ((x & ts) & H1 & -> & H2). apply (doc_entry lowr d words) in H1. destruct H1 as [_ ->]. cbn [cand_of Key fst]. exact H2.
  - intros i Hin H1 Hov Hs. destruct (Hcomp (i, entry_grams lowr d (entry_at words i))) as [Hc|[H2 H3]]; [apply (doc_entry lowr d words); split; [exact Hin|reflexivity]|exact H1|exact Hov|exact Hs| |].
    + left. apply (in_map Key) in Hc. exact Hc.
    + right. split; [unfold zlen in *; rewrite map_length; exact H2|]. intros j Hj. apply in_map_iff in Hj. destruct Hj as (c & <- & Hc). rewrite I2 in Hc. apply in_map_iff in Hc. destruct Hc as (x & <- & Hx). cbn [Key]. apply (H3 (mkCand x (score x))).
      rewrite I2. apply in_map_iff. exists x. split; [reflexivity|exact Hx].
Qed.
Print Assumptions C71_suggest_partial.
(** A query with repeated n-grams (C29: characters outside the alphabet produce them): the
    score counts a repeated n-gram every time and is no similarity (C41_score_above_one_refuted),
    but the answers are still entries with their scores, at most topK, each once, best first. *)
Theorem C71_repeated_grams_partial : forall rb srt g ord name lowr d words ix query m alpha topK,
  roaring_ok rb -> roaring_written rb -> gob_ok g -> order_ok ord -> sorter_ok srt ->
  dictionary_ok lowr d words -> index_built rb g ord name lowr d words ix ->
  let q := entry_grams lowr d query in
  1 <= zlen q <= 65535 -> (m = Overlap -> zlen q <= 32767) -> alpha_ok alpha -> 1 <= topK ->
  (exists w, In w words /\ MinY m alpha (zlen q) <= zlen (entry_grams lowr d w)) ->
  forall sched r, ServiceSuggest rb srt ix words (ToLower lowr) d query alpha m topK sched = Some r ->
  let score := fun i => gram_score lowr d m q (entry_at words i) in
  exists ids, r = Ret (map (fun i => (score i, entry_at words i)) ids) /\
    zlen ids <= topK /\ NoDup ids /\ (forall i, In i ids -> 0 <= i < zlen words) /\ best_first score ids.
Proof.
  intros rb srt g ord name lowr d words ix query m alpha topK Hrb Hrw Hg Ho Hsrt Hdict Hb q Hq1 Hq2 Ha Hk Hlong sched r Hr score.
  pose proof (dict_index rb g ord name lowr d words Hrb Hrw Hg Ho Hdict ix Hb) as Hok.
  assert (query_any ix q m alpha topK) as Hq by (split; [exact Ha|]; split; [exact Hq1|]; split; [eapply s_len; eassumption|]; split; assumption).
  pose proof (s_searchable rb lowr d words ix Hok q m alpha Hlong) as Hse. pose proof (s_docs lowr d words Hdict) as Hd. pose proof (s_index rb lowr d words ix Hok) as Hi.
  unfold ServiceSuggest in Hr. rewrite suggest_grams in Hr by (apply Hdict). fold q in Hr.
  destruct (run rb srt ix q m alpha topK sched (start ix q m alpha topK)) as [[s|r0|]|] eqn:Er; try discriminate.
  2:{ exfalso. destruct (C42_returns_partial rb srt ix _ q m alpha topK sched _ Hq Hse Hd Hi Hsrt Er) as [(l & E)|(s & c & p' & E & _)]; discriminate. }
  injection Hr as <-. destruct (C41_repeated_tokens_partial rb srt ix _ q m alpha topK sched r0 Hq Hse Hd Hi Hsrt Er) as (l & -> & Hl & Hsort & Hnd & Hsound & _). cbn [bind].
  destruct (ids_of lowr d words q m l) as (I1 & I2 & I3); [intros c Hc; destruct (Hsound c Hc) as (doc & H1 & H2 & _); eauto|].
  exists (map Key l). rewrite I3. split; [reflexivity|]. split; [unfold zlen in *; rewrite map_length; exact Hl|]. split; [exact Hnd|]. split; [exact I1|].
  clear - I2 Hsort. unfold best_first. set (ids := map Key l) in *. clearbody ids. subst l. induction ids as [|i ids IH]; [constructor|]. cbn [map] in Hsort. inversion_clear Hsort. constructor; [apply IH; assumption|].
  apply Forall_forall. intros j Hj. rewrite Forall_forall in H0. specialize (H0 _ (in_map _ _ _ Hj)). unfold worse in H0. cbn [Sc Key] in H0. fold (score i) in H0. fold (score j) in H0.
  split; [destruct (flt (score i) (score j)) eqn:E; [exfalso; apply H0; left; reflexivity|reflexivity]|]. intros E. destruct (Z.le_gt_cases i j); [assumption|exfalso; apply H0; right; split; [exact E|lia]].
Qed.
Print Assumptions C71_repeated_grams_partial.
(** And it returns: no schedule goes on for ever, and whatever was scheduled so far, the call
    can be completed; the result is then a list of entries (C71_suggest_partial). *)
Theorem C71_suggest_returns_partial : forall rb srt g ord name lowr d words ix query m alpha topK,
  roaring_ok rb -> roaring_written rb -> gob_ok g -> order_ok ord -> sorter_ok srt ->
  dictionary_ok lowr d words -> index_built rb g ord name lowr d words ix ->
  let q := entry_grams lowr d query in
  1 <= zlen q <= 65535 -> (m = Overlap -> zlen q <= 32767) -> alpha_ok alpha -> 1 <= topK ->
  (exists w, In w words /\ MinY m alpha (zlen q) <= zlen (entry_grams lowr d w)) ->
  forall sched, run rb srt ix q m alpha topK sched (start ix q m alpha topK) <> None ->
  zlen sched <= 20 * 2 ^ 26 + 7 /\
  exists more items, ServiceSuggest rb srt ix words (ToLower lowr) d query alpha m topK (sched ++ more) = Some (Ret items).
Proof.
  intros rb srt g ord name lowr d words ix query m alpha topK Hrb Hrw Hg Ho Hsrt Hdict Hb q Hq1 Hq2 Ha Hk Hlong sched Hr.
  pose proof (dict_index rb g ord name lowr d words Hrb Hrw Hg Ho Hdict ix Hb) as Hok. pose proof (s_len rb lowr d words ix Hdict Hok) as Hlen.
  assert (query_any ix q m alpha topK) as Hq by (split; [exact Ha|]; split; [exact Hq1|]; split; [exact Hlen|]; split; assumption).
  pose proof (s_searchable rb lowr d words ix Hok q m alpha Hlong) as Hse. pose proof (s_docs lowr d words Hdict) as Hd. pose proof (s_index rb lowr d words ix Hok) as Hi.
  assert (forall s p, run rb srt ix q m alpha topK s (start ix q m alpha topK) = Some p -> zlen s <= 20 * 2 ^ 26 + 7) as Hbound.
  { intros s p E. pose proof (C42_terminates_partial rb srt ix q m alpha topK s p Hq E) as H. pose proof (q_min ix q m alpha topK Hq) as H1. rewrite (q_bmax ix q m alpha topK Hq) in H. unfold bMin, sizeA in H. lia. }
  assert (forall a b p, run rb srt ix q m alpha topK (a ++ b) p = match run rb srt ix q m alpha topK a p with Some p' => run rb srt ix q m alpha topK b p' | None => None end) as Happ.
  { induction a as [|c a IH]; intros b p; [reflexivity|]. cbn [app run]. destruct (exec rb srt ix q m alpha topK c p); [apply IH|reflexivity]. }
  destruct (run rb srt ix q m alpha topK sched (start ix q m alpha topK)) as [p|] eqn:E; [|congruence]. split; [apply (Hbound _ _ E)|].
  assert (forall n s p, (Z.to_nat (20 * 2 ^ 26 + 8) - length s <= n)%nat -> run rb srt ix q m alpha topK s (start ix q m alpha topK) = Some p -> exists more l, run rb srt ix q m alpha topK (s ++ more) (start ix q m alpha topK) = Some (Finished (Ret l))) as Hgo.
  { clear Hr E p. induction n as [|n IH]; intros s p Hn Es; [exfalso; pose proof (Hbound _ _ Es) as Hz; unfold zlen in Hz; lia|].
    destruct (C42_returns_partial rb srt ix _ q m alpha topK s p Hq Hse Hd Hi Hsrt Es) as [(l & ->)|(st & c & p' & -> & Ec)]; [exists [], l; rewrite app_nil_r; exact Es|].
    destruct (IH (s ++ [c]) p') as (more & l & El); [rewrite app_length; cbn [length]; pose proof (Hbound _ _ Es) as Hz; unfold zlen in Hz; lia|rewrite Happ, Es; cbn [run]; rewrite Ec; reflexivity|].
    exists (c :: more), l. rewrite <- app_assoc in El. exact El. }
  destruct (Hgo _ sched p (Nat.le_refl _) E) as (more & l & El). exists more. unfold ServiceSuggest. rewrite suggest_grams by (apply Hdict). fold q. rewrite El. cbn [bind]. eauto.
Qed.
Print Assumptions C71_suggest_returns_partial.

(** ** C72 *)
(** Looking an entry up (under any spelling with the same n-grams) finds it, for every
    metric, every similarity from 1/32768 to 1 and every topK from 1: the first answer has
    score 1, and the entry is among the answers unless these are topK earlier entries, all
    with score 1 and, but for the overlap metric, the same n-grams. *)
Theorem C72_lookup_partial : forall rb srt g ord name lowr d words ix query m alpha topK e,
  roaring_ok rb -> roaring_written rb -> gob_ok g -> order_ok ord -> sorter_ok srt ->
  dictionary_ok lowr d words -> index_built rb g ord name lowr d words ix ->
  0 <= e < zlen words -> let q := entry_grams lowr d query in q = entry_grams lowr d (entry_at words e) ->
  1 <= zlen q <= 65535 -> (m = Overlap -> zlen q <= 32767) -> alpha_ok alpha -> 1 <= topK ->
  forall sched r, ServiceSuggest rb srt ix words (ToLower lowr) d query alpha m topK sched = Some r ->
  let score := fun i => gram_score lowr d m q (entry_at words i) in
  exists ids, r = Ret (map (fun i => (score i, entry_at words i)) ids) /\
    (exists first others, ids = first :: others /\ score first = f_one) /\
    (In e ids \/ (zlen ids = topK /\ forall j, In j ids -> 0 <= j < e /\ score j = f_one /\
                    (m <> Overlap -> forall t, In t q <-> In t (entry_grams lowr d (entry_at words j))))).
Proof.
  intros rb srt g ord name lowr d words ix query m alpha topK e Hrb Hrw Hg Ho Hsrt Hdict Hb He q Eq Hq1 Hq2 Ha Hk sched r Hr score.
  pose proof (dict_index rb g ord name lowr d words Hrb Hrw Hg Ho Hdict ix Hb) as Hok. pose proof (s_len rb lowr d words ix Hdict Hok) as Hlen.
  assert (forall i, 0 <= i < zlen words -> NoDup (entry_grams lowr d (entry_at words i)) /\ zlen (entry_grams lowr d (entry_at words i)) + 1 < 2 ^ 26) as Hent.
  { intros i Hi. destruct Hdict as (_ & _ & _ & H). apply H. apply entry_in. exact Hi. }
  assert (NoDup q) as Nq by (rewrite Eq; apply Hent; exact He).
  assert (query_ok ix q m alpha topK) as Hq by (split; [exact Ha|]; split; [exact Nq|]; split; [exact Hq1|]; split; [exact Hlen|]; split; assumption).
  assert (size_ok (zlen q)) as Hsz by (unfold size_ok; lia).
  assert (searchable ix q m alpha) as Hse.
  { eapply s_searchable; [exact Hok|]. exists (entry_at words e). split; [apply entry_in; exact He|]. rewrite <- Eq. apply (identical_passes m alpha (zlen q) Ha Hsz Hq2). }
  pose proof (s_docs lowr d words Hdict) as Hd. pose proof (s_index rb lowr d words ix Hok) as Hi.
  unfold ServiceSuggest in Hr. rewrite suggest_grams in Hr by (apply Hdict). fold q in Hr.
  destruct (run rb srt ix q m alpha topK sched (start ix q m alpha topK)) as [[s|r0|]|] eqn:Er; try discriminate.
  2:{ exfalso. destruct (C42_returns_partial rb srt ix _ q m alpha topK sched _ Hq Hse Hd Hi Hsrt Er) as [(l & E)|(s & c & p' & E & _)]; discriminate. }
  injection Hr as <-. destruct (q_returns_distinct rb srt ix _ q m alpha topK Hq Hd Hi Hsrt sched r0 Hse Er) as (l & -> & Hgood). cbn [bind].
  assert (forall c, In c l -> exists doc, In doc (docs_of lowr d words) /\ c = cand_of m q doc /\ (sim_of m q doc >= val alpha * (1 - delta))%R) as Hsound by (intros c Hc; eapply sound; eassumption).
  destruct (ids_of lowr d words q m l) as (I1 & I2 & I3); [intros c Hc; destruct (Hsound c Hc) as (doc & H1 & H2 & _); eauto|].
  assert (In (e, q) (docs_of lowr d words)) as Hin by (apply doc_entry; split; [exact He|exact Eq]).
  pose proof (self_found rb ix _ q m alpha topK Hq Hi l e Hgood Hin) as Hself. pose proof Hgood as (_ & _ & _ & Hsort & _).
  assert (score e = f_one) as Ese. { unfold score, gram_score. rewrite <- Eq. change (common q q) with (overlap_of q q). rewrite self_overlap. apply self_score. exact Hsz. }
  assert (forall j, In j (map Key l) -> 0 <= j < zlen words /\ In (mkCand j (score j)) l) as Hmem.
  { intros j Hj. split; [apply I1; exact Hj|]. rewrite I2. apply in_map_iff. exists j. split; [reflexivity|exact Hj]. }
  exists (map Key l). rewrite I3. split; [reflexivity|]. split.
  - destruct l as [|c l]. { exfalso. destruct Hself as [[]|[Hz _]]. unfold zlen in Hz. cbn [length] in Hz. lia. }
    exists (Key c), (map Key l). split; [reflexivity|]. cbn [map] in I2. injection I2 as Ec _.
    destruct Hself as [Hc|[_ Hall]]; [|destruct (Hall c (or_introl eq_refl)) as [_ H]; rewrite Ec in H; cbn [Sc] in H; exact H].
    destruct Hc as [Hc|Hc]; [rewrite Ec in Hc; cbn [Key]; assert (Key c = e) as -> by (injection Hc; auto); exact Ese|].
    inversion_clear Hsort. rewrite Forall_forall in H0. specialize (H0 _ Hc). unfold worse in H0. cbn [cand_of Sc snd] in H0. rewrite self_overlap, self_score in H0 by exact Hsz. rewrite Ec in H0. cbn [Sc] in H0. fold (score (Key c)) in H0.
    destruct (Hmem (Key c) (or_introl eq_refl)) as [Hr1 _]. destruct (Hsound c (or_introl eq_refl)) as ((x & ts) & Hx & Ecx & _). assert (x = Key c) as -> by (rewrite Ecx; reflexivity).
    pose proof (proj1 (doc_entry lowr d words _ _) Hx) as [_ Ets]. subst ts.
    assert (fin (score (Key c)) /\ (0 <= val (score (Key c)) <= 1)%R) as [Fs Vs].
    { destruct (Z_le_gt_dec 1 (zlen (entry_grams lowr d (entry_at words (Key c))))) as [H1|H1].
      - destruct (d_sizes rb ix _ q m alpha topK Hq Hi _ Hx H1) as ((Z1 & Z2 & Z3) & _ & Hl2). cbn [snd] in *. apply (score_fin ix q m Hsz Hlen Hq2); unfold common, overlap_of in *; lia.
      - exfalso. destruct Hgood as (sims & _ & _ & _ & rest & Hp & _). assert (In c (answers m alpha sims q (docs_of lowr d words))) as Ha' by (apply (Permutation_in _ (Permutation_sym Hp)), in_app_iff; left; left; reflexivity).
        unfold answers in Ha'. apply in_map_iff in Ha'. destruct Ha' as ((y & ts) & Ey & Hy). apply filter_In in Hy. destruct Hy as [Hy Ely]. pose proof (elig_size ix q m alpha topK Hq _ _ Ely) as Hs1. apply doc_entry in Hy. destruct Hy as [_ ->].
        assert (y = Key c) as -> by (rewrite <- Ey; reflexivity). cbn [snd] in Hs1. lia. }
    destruct val_one as [F1 V1]. apply val_inj; [exact Fs|exact F1| |]; destruct (Rlt_or_le (val (score (Key c))) 1) as [Hl|Hl]; try lra; exfalso; apply H0; left; apply flt_val; auto; lra.
  - destruct Hself as [Hc|[Hz Hall]]; [left; apply (in_map Key) in Hc; exact Hc|].
    destruct (in_dec Z.eq_dec e (map Key l)) as [Hie|Hie]; [left; exact Hie|right]. split; [unfold zlen in *; rewrite map_length; exact Hz|].
    intros j Hj. destruct (Hmem j Hj) as [Hjr Hjc]. destruct (Hall _ Hjc) as [H1 H2]. cbn [Key Sc] in H1, H2. split; [assert (j <> e) by (intros ->; contradiction); lia|]. split; [exact H2|].
    intros Hm. destruct (Hsound _ Hjc) as ((x & ts) & Hx & Ex & Hsim). assert (x = j) as -> by (injection Ex; auto). pose proof (proj1 (doc_entry lowr d words _ _) Hx) as [_ Ets]. subst ts.
    destruct (Hent j Hjr) as [Nj Hlj]. set (h := entry_grams lowr d (entry_at words j)) in *.
    assert (1 <= zlen h) as Hh1.
    { destruct (Z_le_gt_dec 1 (zlen h)) as [H|H]; [exact H|exfalso]. assert (h = []) as E0 by (destruct h; [reflexivity|rewrite zlen_cons in H; pose proof (zlen_nonneg h); lia]).
      clear - E0 Hgood Hjc Hq H1 lowr d words. destruct Hgood as (sims & _ & _ & _ & rest & Hp & _). assert (In (mkCand j (score j)) (answers m alpha sims q (docs_of lowr d words))) as Ha' by (apply (Permutation_in _ (Permutation_sym Hp)), in_app_iff; left; exact Hjc).
      unfold answers in Ha'. apply in_map_iff in Ha'. destruct Ha' as ((y & ts) & Ey & Hy). apply filter_In in Hy. destruct Hy as [Hy Ely]. pose proof (elig_size ix q m alpha topK Hq _ _ Ely) as Hs1. apply doc_entry in Hy. destruct Hy as [_ ->].
      assert (y = j) as -> by (injection Ey; auto). cbn [snd] in Hs1. fold h in Hs1. rewrite E0 in Hs1. unfold zlen in Hs1. cbn [length] in Hs1. lia. }
    destruct (d_sizes rb ix _ q m alpha topK Hq Hi _ Hx Hh1) as ((Z1 & Z2 & Z3) & HBs & _). cbn [snd] in *. change (overlap_of q h) with (common q h) in *.
    assert (common q h = zlen q /\ common q h = zlen h) as [C1 C2].
    { destruct (metric_eq_dec m Exact) as [Ee|Ne].
      - unfold sim_of in Hsim. cbn [snd] in Hsim. change (overlap_of q h) with (common q h) in Hsim. rewrite Ee in Hsim. cbn [similarity] in Hsim. destruct Ha as [_ Hav]. unfold delta in Hsim. destruct ((zlen q =? zlen h) && (common q h =? zlen q)) eqn:Eb; [lia|exfalso; lra].
      - apply (score_one_same m (common q h) (zlen q) (zlen h) Ne Hm Hq1 HBs); [lia|lia|lia|exact H2]. }
    apply all_common; [exact Nq|exact Nj|exact C1|lia].
Qed.
Print Assumptions C72_lookup_partial.

(** ** C73 *)
(** Autocomplete: the first [limit] entries, in the order of the dictionary, that have all
    n-grams of the query. *)
Theorem C73_autocomplete_partial : forall rb srt g ord name lowr d words ix query limit,
  roaring_ok rb -> roaring_written rb -> gob_ok g -> order_ok ord -> sorter_ok srt ->
  dictionary_ok lowr d words -> index_built rb g ord name lowr d words ix ->
  let q := prefix_grams lowr d query in
  NoDup q -> 1 <= zlen q < 2 ^ 32 -> 0 <= limit ->
  forall sched r, ServiceAutocomplete rb srt ix words (ToLower lowr) d query limit sched = Some r ->
  r = Ret (map (fun i => (of_int 0, entry_at words i)) (firstn (Z.to_nat limit) (matches lowr d q words))).
Proof.
  intros rb srt g ord name lowr d words ix query limit Hrb Hrw Hg Ho Hsrt Hdict Hb q Nq Hq Hl sched r Hr.
  pose proof (dict_index rb g ord name lowr d words Hrb Hrw Hg Ho Hdict ix Hb) as Hok. pose proof (s_docs lowr d words Hdict) as Hd. pose proof (s_index rb lowr d words ix Hok) as Hi.
  unfold ServiceAutocomplete in Hr. rewrite auto_grams in Hr by (apply Hdict). fold q in Hr.
  destruct (arun rb srt ix q limit sched (astart q limit)) as [[s|r0|]|] eqn:Er; try discriminate.
  2:{ exfalso. exact (C43_no_panic rb srt ix _ q limit sched Hd Hi Hsrt Nq Hq Hl Er). }
  injection Hr as <-. rewrite (C43_first_matches rb srt ix _ q limit sched r0 Hd Hi Hsrt Nq Hq Hl Er). cbn [bind]. f_equal. unfold first_matches, matches. rewrite map_map.
  assert (forall i ws, (forall j, (j < length ws)%nat -> entry_at words (i + Z.of_nat j) = nth j ws []) -> i >= 0 -> i + zlen ws <= zlen words ->
    forall n, map (fun x => (of_int 0, DictGet words (Key (answer_of x)))) (firstn n (filter (has_all q) (docs_from lowr d i ws))) =
      map (fun j => (of_int 0, entry_at words j)) (firstn n (filter (fun j => forallb (fun t => existsb (beqb t) (entry_grams lowr d (entry_at words j))) q) (map (fun k => i + Z.of_nat k) (seq 0 (length ws)))))) as Hgen.
  { intros i ws. revert i. induction ws as [|w ws IH]; intros i Hnth Hi0 Hlen n; [unfold docs_from; cbn [length seq combine map filter]; rewrite !firstn_nil; reflexivity|]. rewrite docs_from_cons. cbn [length seq map filter].
    pose proof (Hnth O ltac:(cbn [length]; lia)) as H0. cbn [nth] in H0. rewrite Z.add_0_r in *. rewrite zlen_cons in Hlen. pose proof (zlen_nonneg ws).
    replace (map (fun k => i + Z.of_nat k) (seq 1 (length ws))) with (map (fun k => i + 1 + Z.of_nat k) (seq 0 (length ws))) by (rewrite <- seq_shift, map_map; apply map_ext; intros; lia).
    assert (forall n, map (fun x => (of_int 0, DictGet words (Key (answer_of x)))) (firstn n (filter (has_all q) (docs_from lowr d (i + 1) ws))) =
      map (fun j => (of_int 0, entry_at words j)) (firstn n (filter (fun j => forallb (fun t => existsb (beqb t) (entry_grams lowr d (entry_at words j))) q) (map (fun k => i + 1 + Z.of_nat k) (seq 0 (length ws)))))) as IH'.
    { apply IH; [|lia|lia]. intros j Hj. specialize (Hnth (S j) ltac:(cbn [length]; lia)). cbn [nth] in Hnth. rewrite <- Hnth. f_equal. lia. }
    unfold has_all at 1. cbn [snd]. rewrite H0. destruct (forallb _ q); [|apply IH']. destruct n as [|n]; [reflexivity|]. cbn [firstn map]. f_equal; [|apply IH'].
    cbn [answer_of Key fst]. rewrite get_entry by lia. rewrite H0. reflexivity. }
  apply (Hgen 0 words); [intros j Hj; unfold entry_at; rewrite Z.add_0_l, Nat2Z.id; reflexivity|lia|apply Z.le_refl].
Qed.
Print Assumptions C73_autocomplete_partial.
(** Among them is every entry that starts with the query, if the query (with the wrap in
    front) has as many characters as the n-grams. *)
Theorem C73_prefixes_match : forall lowr d words query rest e,
  1 <= t_n d <= 8 -> well_formed (t_wrap0 d ++ query) -> t_n d <= zlen (chars (Trim (ToLower lowr (t_wrap0 d ++ query)))) ->
  0 <= e < zlen words -> entry_at words e = query ++ rest ->
  In e (matches lowr d (prefix_grams lowr d query) words) /\ prefix_grams lowr d query <> [].
Proof.
  intros lowr d words query rest e Hn Hw Hl He Ee. destruct (C34_prefix_tokens_partial lowr d query rest Hn Hw Hl) as (qs & es & Eq & Es & Hi & Hne). rewrite auto_grams in Eq by exact Hn. rewrite suggest_grams in Es by exact Hn. injection Eq as <-. injection Es as <-.
  split; [|exact Hne]. unfold matches. apply filter_In. split; [apply in_map_iff; exists (Z.to_nat e); split; [lia|]; apply in_seq; unfold zlen in He; lia|].
  rewrite Ee. apply forallb_forall. intros t Ht. apply existsb_exists. exists t. split; [apply Hi; exact Ht|apply (eqb_refl _ beqb_ok)].
Qed.
Print Assumptions C73_prefixes_match.
Theorem C73_autocomplete_returns : forall rb srt g ord name lowr d words ix query limit,
  roaring_ok rb -> roaring_written rb -> gob_ok g -> order_ok ord -> sorter_ok srt ->
  dictionary_ok lowr d words -> index_built rb g ord name lowr d words ix ->
  let q := prefix_grams lowr d query in
  NoDup q -> 1 <= zlen q < 2 ^ 32 -> 0 <= limit ->
  forall sched, arun rb srt ix q limit sched (astart q limit) <> None ->
  zlen sched <= 5 * 2 ^ 26 + 2 /\
  exists more items, ServiceAutocomplete rb srt ix words (ToLower lowr) d query limit (sched ++ more) = Some (Ret items).
Proof.
  intros rb srt g ord name lowr d words ix query limit Hrb Hrw Hg Ho Hsrt Hdict Hb q Nq Hq Hl sched Hr.
  pose proof (dict_index rb g ord name lowr d words Hrb Hrw Hg Ho Hdict ix Hb) as Hok. pose proof (s_len rb lowr d words ix Hdict Hok) as Hlen. pose proof (s_docs lowr d words Hdict) as Hd. pose proof (s_index rb lowr d words ix Hok) as Hi.
  assert (forall s p, arun rb srt ix q limit s (astart q limit) = Some p -> zlen s <= 5 * 2 ^ 26 + 2) as Hbound.
  { intros s p E. pose proof (C43_terminates rb srt ix q limit s p E) as H. lia. }
  assert (forall a b p, arun rb srt ix q limit (a ++ b) p = match arun rb srt ix q limit a p with Some p' => arun rb srt ix q limit b p' | None => None end) as Happ.
  { induction a as [|c a IH]; intros b p; [reflexivity|]. cbn [app arun]. destruct (aexec rb srt ix q limit c p); [apply IH|reflexivity]. }
  destruct (arun rb srt ix q limit sched (astart q limit)) as [p|] eqn:E; [|congruence]. split; [apply (Hbound _ _ E)|].
  assert (forall n s p, (Z.to_nat (5 * 2 ^ 26 + 3) - length s <= n)%nat -> arun rb srt ix q limit s (astart q limit) = Some p -> exists more l, arun rb srt ix q limit (s ++ more) (astart q limit) = Some (AFinished (Ret l))) as Hgo.
  { clear Hr E p. induction n as [|n IH]; intros s p Hn Es; [exfalso; pose proof (Hbound _ _ Es) as Hz; unfold zlen in Hz; lia|].
    destruct p as [st|r|].
    - destruct (C43_no_deadlock rb srt ix q limit s st Es) as (c & p' & Ec).
      destruct (IH (s ++ [c]) p') as (more & l & El); [rewrite app_length; cbn [length]; pose proof (Hbound _ _ Es) as Hz; unfold zlen in Hz; lia|rewrite Happ, Es; cbn [arun]; rewrite Ec; reflexivity|].
      exists (c :: more), l. rewrite <- app_assoc in El. exact El.
    - pose proof (C43_first_matches rb srt ix _ q limit s r Hd Hi Hsrt Nq Hq Hl Es) as ->. exists []. eexists. rewrite app_nil_r. exact Es.
    - exfalso. exact (C43_no_panic rb srt ix _ q limit s Hd Hi Hsrt Nq Hq Hl Es). }
  destruct (Hgo _ sched p (Nat.le_refl _) E) as (more & l & El). exists more. unfold ServiceAutocomplete. rewrite auto_grams by (apply Hdict). fold q. rewrite El. cbn [bind]. eauto.
Qed.
Print Assumptions C73_autocomplete_returns.

(** the hypotheses are met: three entries, 2-grams, an index committed to disc *)
Definition demo71_conf : tokconf := mkTok 2 (Has (AComposite [English; ASimple [36]])) (bs "$") (bs "$") (bs "$").
Definition demo71_low (c : Z) : Z := if (65 <=? c) && (c <=? 90) then c + 32 else c.
Definition demo71_words : list bytes := [bs "b"; bs "Abc"; bs "ab"; bs "abd"].
Definition demo71_ops : list dop := match IndexDictionary rb4 gob1 (fun _ m => rev m) (documentListFile "x") (headerFile "x") 0 (ToLower demo71_low) demo71_conf demo71_words with Ret o => o | _ => [] end.
Definition demo71_index : list (option inverted) := match FSBuild gob1 "x" (fs_run NewFSDirectory demo71_ops) with Ret i => i | _ => [] end.
Fixpoint sauto71 (fuel : nat) tokens alpha k (p : proc) : list choice :=
  match fuel with
  | O => []
  | S f => match List.find (fun c => match exec rb4 (fun l => l) demo71_index tokens Cosine alpha k c p with Some _ => true | None => false end) (CProd :: map CWork (List.seq 0 9)) with
           | Some c => match exec rb4 (fun l => l) demo71_index tokens Cosine alpha k c p with Some p' => c :: sauto71 f tokens alpha k p' | None => [] end
           | None => []
           end
  end.
Fixpoint aauto71 (fuel : nat) terms k (p : aproc) : list achoice :=
  match fuel with
  | O => []
  | S f => match List.find (fun c => match aexec rb4 (fun l => l) demo71_index terms k c p with Some _ => true | None => false end) (AProd :: map AWork (List.seq 0 9)) with
           | Some c => match aexec rb4 (fun l => l) demo71_index terms k c p with Some p' => c :: aauto71 f terms k p' | None => [] end
           | None => []
           end
  end.
Definition demo71_sched (q : bytes) : list choice := let g := entry_grams demo71_low demo71_conf q in sauto71 300 g quarter 2 (start demo71_index g Cosine quarter 2).
Definition demo73_sched (q : bytes) : list achoice := let g := prefix_grams demo71_low demo71_conf q in aauto71 100 g 2 (astart g 2).
Lemma demo71_ok : dictionary_ok demo71_low demo71_conf demo71_words.
Proof.
  split; [cbn; lia|]. split; [vm_compute; reflexivity|]. split; [exists (bs "b"), [bs "Abc"; bs "ab"; bs "abd"]; split; [reflexivity|vm_compute; discriminate]|].
  intros w [<-|[<-|[<-|[<-|[]]]]];
  (split; [match goal with |- NoDup ?t => let v := eval vm_compute in t in change t with v end; repeat apply NoDup_cons; try apply NoDup_nil; cbn; intuition discriminate|vm_compute; reflexivity]).
Qed.
Lemma demo71_built : index_built rb4 gob1 (fun _ m => rev m) "x" demo71_low demo71_conf demo71_words demo71_index.
Proof.
  exists demo71_ops. split; [vm_compute; reflexivity|]. right. exists demo71_ops.
  destruct (C71_index_builds_partial rb4 gob1 (fun _ m => rev m) "x" demo71_low demo71_conf demo71_words) as (ops & E & Hf & _);
    [apply C24_nonvacuous_codecs|apply C24_nonvacuous_codecs|apply C24_nonvacuous_codecs|intros c m; apply Permutation_rev|exact demo71_ok|].
  assert (ops = demo71_ops) as -> by (unfold demo71_ops; rewrite E; reflexivity). split; [exact Hf|]. split; [vm_compute; reflexivity|].
  intros b Hb. match type of Hb with ?t = _ => let v := eval vm_compute in t in change t with v in Hb end. injection Hb as <-. vm_compute. reflexivity.
Qed.
Example C71_plain_nonvacuous : forall w, In w [bs "banana"; bs "Ann"] -> let d := demo71_conf in let p := Trim (ToLower demo71_low (t_wrap0 d ++ w ++ t_wrap1 d)) in
  Forall (fun rb => t_has d (fst rb) = true) (runes p) /\ t_n d <= zlen p < 2 ^ 26 - 1.
Proof. intros w [<-|[<-|[]]]; (split; [apply Forall_forall; intros rb Hrb; match type of Hrb with In _ ?l => assert (forallb (fun rb => t_has demo71_conf (fst rb)) l = true) as Hf by (vm_compute; reflexivity) end; rewrite forallb_forall in Hf; apply Hf; exact Hrb|vm_compute; split; [discriminate|reflexivity]]). Qed.
Example C71_nonvacuous : let q := entry_grams demo71_low demo71_conf (bs "aBc") in
  NoDup q /\ 1 <= zlen q <= 65535 /\ alpha_ok quarter /\
  (exists w, In w demo71_words /\ MinY Cosine quarter (zlen q) <= zlen (entry_grams demo71_low demo71_conf w)) /\
  q = entry_grams demo71_low demo71_conf (entry_at demo71_words 1) /\
  exists half, ServiceSuggest rb4 (fun l => l) demo71_index demo71_words (ToLower demo71_low) demo71_conf (bs "aBc") quarter Cosine 2 (demo71_sched (bs "aBc"))
    = Some (Ret [(f_one, bs "Abc"); (half, bs "ab")]).
Proof.
  cbn zeta. split; [match goal with |- NoDup ?t => let v := eval vm_compute in t in change t with v end; repeat apply NoDup_cons; try apply NoDup_nil; cbn; intuition discriminate|].
  split; [split; vm_compute; discriminate|]. split; [exact alpha_quarter|]. split; [exists (bs "Abc"); split; [right; left; reflexivity|vm_compute; discriminate]|]. split; [vm_compute; reflexivity|].
  eexists. vm_compute. reflexivity.
Qed.
Example C73_nonvacuous : let q := prefix_grams demo71_low demo71_conf (bs "A") in
  NoDup q /\ 1 <= zlen q < 2 ^ 32 /\ matches demo71_low demo71_conf q demo71_words = [1; 2; 3] /\
  ServiceAutocomplete rb4 (fun l => l) demo71_index demo71_words (ToLower demo71_low) demo71_conf (bs "A") 2 (demo73_sched (bs "A")) = Some (Ret [(of_int 0, bs "Abc"); (of_int 0, bs "ab")]).
Proof.
  cbn zeta. split; [match goal with |- NoDup ?t => let v := eval vm_compute in t in change t with v end; repeat apply NoDup_cons; try apply NoDup_nil; cbn; intuition discriminate|].
  split; [split; vm_compute; [discriminate|reflexivity]|]. split; vm_compute; reflexivity.
Qed.
Example C73_prefixes_nonvacuous : well_formed (t_wrap0 demo71_conf ++ bs "a") /\ t_n demo71_conf <= zlen (chars (Trim (ToLower demo71_low (t_wrap0 demo71_conf ++ bs "a")))) /\
  entry_at demo71_words 2 = bs "a" ++ bs "b".
Proof.
  split; [|split; [vm_compute; discriminate|vm_compute; reflexivity]].
  unfold well_formed. match goal with |- Forall _ ?t => let v := eval vm_compute in t in change t with v end. repeat (apply Forall_cons; [intros [H _]; cbn in H; unfold RuneError in H; lia|]). apply Forall_nil.
Qed.
