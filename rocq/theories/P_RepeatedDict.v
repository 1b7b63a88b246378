(** C95: dictionaries with any entries, from the dictionary to the answers (pkg/suggest,
    pkg/index, pkg/merger): also entries that repeat n-grams after the characters outside the
    alphabet are replaced. *)
From Coq Require Import String ZifyBool Permutation Sorted Reals Lra Lia.
From Verif Require Import Base BaseLemmas GoMap Store StoreSpec Postings PostingsSpec PostingsDrive P_PostingsLemmas Merger MergerSpec MergerAnySpec MergerAny P_MergerLemmas
  Text TextProofs TextProofs2 Analysis AnalysisSpec AnalysisProofs AnalysisProofs2 P_AnalysisLemmas P_Analysis
  Index IndexSpec IndexProofs IndexProofs2 P_IndexLemmas P_Index SearchAny
  Float64 Metric MetricSpec MetricProofs FloatProofs MetricFloat MetricFloat2 MetricScore P_Metric TopK TopKSpec TopKProofs Suggest SuggestSpec SuggestProofs SuggestProofs2 P_SuggestLemmas P_Suggest SuggestAnySpec SuggestAny P_Repeated
  Autocomplete AutocompleteSpec AutocompleteProofs AutocompleteAnySpec AutocompleteAny P_Autocomplete Mph P_Mph NGramIndex NGramIndexSpec NGramIndexProofs NGramIndexProofs2 P_NGramIndex NGramIndexAnySpec NGramIndexAny.
Local Open Scope Z_scope.
Local Notation length := List.length.

Lemma repeats_bound t ts : (token_times t ts <= repeats ts)%nat.
Proof.
  assert (forall l, (forall x, In x l -> In x ts) -> In t l -> (token_times t ts <= fold_right (fun u n => Nat.max (token_times u ts) n) 0%nat l)%nat) as H.
  { induction l as [|x l IH]; intros Hl Ht; [destruct Ht|]. cbn [fold_right]. destruct Ht as [->|Ht]; [lia|]. specialize (IH (fun y Hy => Hl y (or_intror Hy)) Ht). lia. }
  destruct (in_dec (list_eq_dec Z.eq_dec) t ts) as [Ht|Ht]; [apply H; auto|]. assert (token_times t ts = 0%nat) as ->; [|lia]. unfold token_times. clear H. induction ts as [|x l IH]; [reflexivity|]. cbn [filter].
  destruct (beqb t x) eqn:E; [apply beqb_ok in E; subst x; destruct Ht; left; reflexivity|]. apply IH. intros H. apply Ht. right. exact H.
Qed.
Section S.
Context (rb : roaring) (lowr : Z -> Z) (d : tokconf) (words : list bytes) (ix : list (option inverted)).
Notation docs := (docs_of lowr d words).
Hypothesis Hdict : dictionary_any lowr d words.
Hypothesis Hok : ix_any rb docs ix.
Lemma any_len : zlen ix <= 2 ^ 26.
Proof.
  destruct Hok as [_ ->]. unfold ix_size. destruct (fold_max_some docs 0) as [->|(x & Hx & ->)]; [lia|]. destruct (docs_good_any _ _ _ Hdict) as (_ & _ & Hl & _). rewrite Forall_forall in Hl. specialize (Hl x Hx). lia.
Qed.
Lemma any_searchable q m alpha : (exists w, In w words /\ MinY m alpha (zlen q) <= zlen (entry_grams lowr d w)) -> searchable ix q m alpha.
Proof.
  intros (w & Hw & Hm). unfold searchable. destruct Hok as [_ ->]. destruct (fold_max_bound docs 0) as [_ H]. apply In_nth_error in Hw. destruct Hw as (j & Hj).
  specialize (H (Z.of_nat j, entry_grams lowr d w)). cbn [snd] in H. unfold ix_size. enough (In (Z.of_nat j, entry_grams lowr d w) docs) by (specialize (H H0); lia). apply docs_from_in. exists j, w. split; [exact Hj|split; [lia|reflexivity]].
Qed.
End S.

(** ** Building *)
(** Every dictionary can be indexed, in memory and on disc, whatever its entries. *)
Theorem C95_index_builds_partial : forall rb g ord name lowr d words,
  roaring_ok rb -> roaring_written rb -> gob_ok g -> order_ok ord -> dictionary_any lowr d words ->
  exists ops, IndexDictionary rb g ord (documentListFile name) (headerFile name) 0 (ToLower lowr) d words = Ret ops /\ with_flushes 0 ops ops /\
  ((forall b, ram_open (ram_run NewRAMDirectory ops) (documentListFile name) = Some b -> zlen b < 2 ^ 32) ->
     exists ix, RAMBuild rb g ord name (ToLower lowr) d words = Ret ix /\ index_any rb ix (docs_of lowr d words)) /\
  (forall ops', with_flushes 0 ops ops' -> (forall b, fs_open (fs_run NewFSDirectory ops') (documentListFile name) = Some b -> zlen b < 2 ^ 32) ->
     exists ix, FSBuild g name (fs_run NewFSDirectory ops') = Ret ix /\ index_any rb ix (docs_of lowr d words)).
Proof.
  intros rb g ord name lowr d words H1 H2 H3 H4 H5. destruct (dict_built_any rb g ord name lowr d words H1 H2 H3 H4 H5) as (ops & E & Hf & A & B). exists ops. split; [exact E|]. split; [exact Hf|]. split.
  - intros Hs. destruct (A Hs) as (ix & Er & Hi & _). eauto.
  - intros ops' Hf' Hs. destruct (B ops' Hf' Hs) as (ix & Er & Hi & _). eauto.
Qed.
Print Assumptions C95_index_builds_partial.

(** ** Suggest *)
(** The answers, as pairs of a position and the number of common n-grams the answer was scored
    with: no error; at most topK, best first; each is an entry that is similar enough, scored
    with at most its number of common n-grams - and with exactly that number if its n-grams
    are distinct; no entry is there more often than it repeats an n-gram; every entry that is
    similar enough is there with its own score unless there are topK answers with no smaller
    score. *)
Theorem C95_suggest_partial : forall rb srt g ord name lowr d words ix query m alpha topK,
  roaring_ok rb -> roaring_written rb -> gob_ok g -> order_ok ord -> sorter_ok srt ->
  dictionary_any lowr d words -> index_built rb g ord name lowr d words ix ->
  let q := entry_grams lowr d query in
  NoDup q -> 1 <= zlen q <= 65535 -> (m = Overlap -> zlen q <= 32767) -> alpha_ok alpha -> 1 <= topK ->
  (exists w, In w words /\ MinY m alpha (zlen q) <= zlen (entry_grams lowr d w)) ->
  forall sched r, ServiceSuggest rb srt ix words (ToLower lowr) d query alpha m topK sched = Some r ->
  let of := fun i => entry_grams lowr d (entry_at words i) in
  let score := fun a : Z * Z => Score m (snd a) (zlen q) (zlen (of (fst a))) in
  let sim := fun i => gram_similarity lowr d m q (entry_at words i) in
  exists ans, r = Ret (map (fun a => (score a, entry_at words (fst a))) ans) /\
    zlen ans <= topK /\
    StronglySorted (fun a b => flt (score a) (score b) = false /\ (feq (score a) (score b) = true -> fst a <= fst b)) ans /\
    (forall i n, In (i, n) ans -> 0 <= i < zlen words /\ 1 <= n <= common q (of i) /\ (NoDup (of i) -> score (i, n) = score (i, common q (of i))) /\
       (sim i >= val alpha * (1 - / 2 ^ 46))%R) /\
    (forall i, 0 <= i < zlen words -> (copies i ans <= repeats (of i))%nat) /\
    (forall i, 0 <= i < zlen words -> 1 <= zlen (of i) -> (m = Overlap -> zlen (of i) <= 32767) -> (sim i >= val alpha * (1 + / 2 ^ 46))%R ->
       (exists n, In (i, n) ans /\ score (i, n) = score (i, common q (of i))) \/
       (zlen ans = topK /\ forall a, In a ans -> (sim i <= val (score a) * (1 + / 2 ^ 46) + / 2 ^ 50)%R)).
Proof.
  intros rb srt g ord name lowr d words ix query m alpha topK Hrb Hrw Hg Ho Hsrt Hdict Hb q Nq Hq1 Hq2 Ha Hk Hlong sched r Hr of score sim.
  pose proof (dict_index_any rb g ord name lowr d words Hrb Hrw Hg Ho Hdict ix Hb) as Hok.
  assert (query_ok ix q m alpha topK) as Hq by (split; [exact Ha|]; split; [exact Nq|]; split; [exact Hq1|]; split; [eapply any_len; eassumption|]; split; assumption).
  pose proof (any_searchable rb lowr d words ix Hok q m alpha Hlong) as Hse. destruct (docs_good_any lowr d words Hdict) as (Hd & _). pose proof (proj1 Hok) as Hi.
  unfold ServiceSuggest in Hr. rewrite suggest_grams in Hr by (apply Hdict). fold q in Hr.
  destruct (run rb srt ix q m alpha topK sched (start ix q m alpha topK)) as [[s|r0|]|] eqn:Er; try discriminate.
  2:{ exfalso. destruct (C94_suggest_returns rb srt ix _ q m alpha topK sched _ Hq Hse Hd Hi Hsrt Er) as [(l & E)|(s & c & p' & E & _)]; discriminate. }
  injection Hr as <-. destruct (C94_suggest_partial rb srt ix _ q m alpha topK sched r0 Hq Hse Hd Hi Hsrt Er) as (l & -> & Hl & Hsort & Hsound & Hdist & Hcop & Hcomp). cbn [bind].
  assert (forall l', (forall c, In c l' -> In c l) -> exists ans, l' = map (fun a => mkCand (fst a) (score a)) ans /\ (forall i n, In (i, n) ans -> 0 <= i < zlen words /\ 1 <= n <= common q (of i) /\ (sim i >= val alpha * (1 - / 2 ^ 46))%R)) as Hans.
  { induction l' as [|c l' IH]; intros Hin; [exists []; split; [reflexivity|intros i n []]|]. destruct (IH (fun c' Hc' => Hin c' (or_intror Hc'))) as (ans & E & H).
    destruct (Hsound c (Hin c (or_introl eq_refl))) as ([x ts] & n & H1 & H2 & H3 & H4). apply (doc_entry lowr d words) in H1. destruct H1 as [Hx ->]. cbn [fst snd] in *. exists ((x, n) :: ans). split.
    - cbn [map fst]. rewrite E, H2. reflexivity.
    - intros i k [E'|Hk']; [|apply H; exact Hk']. injection E' as <- <-. split; [exact Hx|]. split; [exact H3|exact H4]. }
  destruct (Hans l (fun c Hc => Hc)) as (ans & E & Hall). clear Hans. exists ans. split; [|split; [|split; [|split; [|split]]]].
  - f_equal. rewrite E, map_map. apply map_ext_in. intros [i n] Hin. cbn [Sc Key fst]. rewrite get_entry by (apply (Hall i n Hin)). reflexivity.
  - rewrite E in Hl. unfold zlen in *. rewrite map_length in Hl. exact Hl.
  - rewrite E in Hsort. clear - Hsort. induction ans as [|a ans IH]; [constructor|]. cbn [map] in Hsort. inversion_clear Hsort. constructor; [apply IH; assumption|]. apply Forall_forall. intros b Hb. rewrite Forall_forall in H0. specialize (H0 _ (in_map _ _ _ Hb)).
    unfold worse in H0. cbn [Sc Key] in H0. split; [destruct (flt (score a) (score b)) eqn:E; [exfalso; apply H0; left; reflexivity|reflexivity]|]. intros E. destruct (Z.le_gt_cases (fst a) (fst b)); [assumption|exfalso; apply H0; right; split; [exact E|lia]].
  - intros i n Hin. destruct (Hall i n Hin) as (H1 & H2 & H3). split; [exact H1|]. split; [exact H2|]. split; [|exact H3]. intros Hn.
    assert (In (i, of i) (docs_of lowr d words)) as Hdoc by (apply (doc_entry lowr d words); split; [exact H1|reflexivity]).
    assert (mkCand i (score (i, n)) = cand_of m q (i, of i)) as Ec. { apply Hdist; [exact Hdoc|exact Hn| |reflexivity]. rewrite E. apply in_map_iff. exists (i, n). split; [reflexivity|exact Hin]. }
    injection Ec as Ec. exact Ec.
  - intros i Hi0.
    assert (In (i, of i) (docs_of lowr d words)) as Hdoc by (apply (doc_entry lowr d words); split; [exact Hi0|reflexivity]). specialize (Hcop _ (repeats (of i)) Hdoc (fun t => repeats_bound t (of i))). cbn [fst] in Hcop.
    enough (copies i ans = key_times i l) by lia. rewrite E. unfold copies, key_times. clear. induction ans as [|a ans IH]; [reflexivity|]. cbn [map filter Key]. destruct (fst a =? i); cbn [length]; rewrite IH; reflexivity.
  - intros i Hin H1 Hov Hs. destruct (Hcomp (i, of i)) as [Hc|[H2 H3]]; [apply (doc_entry lowr d words); split; [exact Hin|reflexivity]|exact H1|exact Hov|exact Hs| |].
    + left. rewrite E in Hc. apply in_map_iff in Hc. destruct Hc as ([j n] & Ec & Hc). cbn [fst] in Ec. pose proof (f_equal Key Ec) as E1. pose proof (f_equal Sc Ec) as E2. cbn [Key cand_of fst] in E1. subst j. exists n. split; [exact Hc|exact E2].
    + right. split; [rewrite E in H2; unfold zlen in *; rewrite map_length in H2; exact H2|]. intros a Ha'. apply (H3 (mkCand (fst a) (score a))). rewrite E. apply in_map_iff. exists a. split; [reflexivity|exact Ha'].
Qed.
Print Assumptions C95_suggest_partial.
(** Every call returns. *)
Theorem C95_suggest_returns_partial : forall rb srt g ord name lowr d words ix query m alpha topK,
  roaring_ok rb -> roaring_written rb -> gob_ok g -> order_ok ord -> sorter_ok srt ->
  dictionary_any lowr d words -> index_built rb g ord name lowr d words ix ->
  let q := entry_grams lowr d query in
  1 <= zlen q <= 65535 -> (m = Overlap -> zlen q <= 32767) -> alpha_ok alpha -> 1 <= topK ->
  (exists w, In w words /\ MinY m alpha (zlen q) <= zlen (entry_grams lowr d w)) ->
  forall sched, run rb srt ix q m alpha topK sched (start ix q m alpha topK) <> None ->
  zlen sched <= 20 * 2 ^ 26 + 7 /\
  exists more items, ServiceSuggest rb srt ix words (ToLower lowr) d query alpha m topK (sched ++ more) = Some (Ret items).
Proof.
  intros rb srt g ord name lowr d words ix query m alpha topK Hrb Hrw Hg Ho Hsrt Hdict Hb q Hq1 Hq2 Ha Hk Hlong sched Hr.
  pose proof (dict_index_any rb g ord name lowr d words Hrb Hrw Hg Ho Hdict ix Hb) as Hok. pose proof (any_len rb lowr d words ix Hdict Hok) as Hlen.
  assert (query_any ix q m alpha topK) as Hq by (split; [exact Ha|]; split; [exact Hq1|]; split; [exact Hlen|]; split; assumption).
  pose proof (any_searchable rb lowr d words ix Hok q m alpha Hlong) as Hse. destruct (docs_good_any lowr d words Hdict) as (Hd & _). pose proof (proj1 Hok) as Hi.
  assert (forall s p, run rb srt ix q m alpha topK s (start ix q m alpha topK) = Some p -> zlen s <= 20 * 2 ^ 26 + 7) as Hbound.
  { intros s p E. pose proof (C42_terminates_partial rb srt ix q m alpha topK s p Hq E) as H. pose proof (q_min ix q m alpha topK Hq) as H1. rewrite (q_bmax ix q m alpha topK Hq) in H. unfold bMin, sizeA in H. lia. }
  assert (forall a b p, run rb srt ix q m alpha topK (a ++ b) p = match run rb srt ix q m alpha topK a p with Some p' => run rb srt ix q m alpha topK b p' | None => None end) as Happ.
  { induction a as [|c a IH]; intros b p; [reflexivity|]. cbn [app run]. destruct (exec rb srt ix q m alpha topK c p); [apply IH|reflexivity]. }
  destruct (run rb srt ix q m alpha topK sched (start ix q m alpha topK)) as [p|] eqn:E; [|congruence]. split; [apply (Hbound _ _ E)|].
  assert (forall n s p, (Z.to_nat (20 * 2 ^ 26 + 8) - length s <= n)%nat -> run rb srt ix q m alpha topK s (start ix q m alpha topK) = Some p -> exists more l, run rb srt ix q m alpha topK (s ++ more) (start ix q m alpha topK) = Some (Finished (Ret l))) as Hgo.
  { clear Hr E p. induction n as [|n IH]; intros s p Hn Es; [exfalso; pose proof (Hbound _ _ Es) as Hz; unfold zlen in Hz; lia|].
    destruct (C94_suggest_returns rb srt ix _ q m alpha topK s p Hq Hse Hd Hi Hsrt Es) as [(l & ->)|(st & c & p' & -> & Ec)]; [exists [], l; rewrite app_nil_r; exact Es|].
    destruct (IH (s ++ [c]) p') as (more & l & El); [rewrite app_length; cbn [length]; pose proof (Hbound _ _ Es) as Hz; unfold zlen in Hz; lia|rewrite Happ, Es; cbn [run]; rewrite Ec; reflexivity|].
    exists (c :: more), l. rewrite <- app_assoc in El. exact El. }
  destruct (Hgo _ sched p (Nat.le_refl _) E) as (more & l & El). exists more. unfold ServiceSuggest. rewrite suggest_grams by (apply Hdict). fold q. rewrite El. cbn [bind]. eauto.
Qed.
Print Assumptions C95_suggest_returns_partial.

(** ** Autocomplete *)
(** Of the list of the entries with all n-grams of the query, in the order of the dictionary,
    each entry at least once and no more often than it repeats an n-gram, the first [limit]. *)
Theorem C95_autocomplete_partial : forall rb srt g ord name lowr d words ix query limit,
  roaring_ok rb -> roaring_written rb -> gob_ok g -> order_ok ord -> sorter_ok srt ->
  dictionary_any lowr d words -> index_built rb g ord name lowr d words ix ->
  let q := prefix_grams lowr d query in
  NoDup q -> 1 <= zlen q < 2 ^ 32 -> 0 <= limit ->
  forall sched r, ServiceAutocomplete rb srt ix words (ToLower lowr) d query limit sched = Some r ->
  exists X, r = Ret (map (fun i => (of_int 0, entry_at words i)) (firstn (Z.to_nat limit) X)) /\
    StronglySorted Z.le X /\ (forall i, In i X <-> In i (matches lowr d q words)) /\
    (forall i, In i X -> (times i X <= repeats (entry_grams lowr d (entry_at words i)))%nat).
Proof.
  intros rb srt g ord name lowr d words ix query limit Hrb Hrw Hg Ho Hsrt Hdict Hb q Nq Hq Hl sched r Hr.
  pose proof (dict_index_any rb g ord name lowr d words Hrb Hrw Hg Ho Hdict ix Hb) as Hok. destruct (docs_good_any lowr d words Hdict) as (Hd & _). pose proof (proj1 Hok) as Hi.
  unfold ServiceAutocomplete in Hr. rewrite auto_grams in Hr by (apply Hdict). fold q in Hr.
  destruct (arun rb srt ix q limit sched (astart q limit)) as [p|] eqn:Er; [|discriminate]. pose proof (autocomplete_any rb srt ix _ q limit Hd Hi Hsrt Hq Nq Hl sched p Er) as HG. destruct p as [s|r0|]; [discriminate| |destruct HG].
  destruct HG as (X & (HX & Hin & Hx) & ->). injection Hr as <-. cbn [bind]. exists X.
  assert (forall i, In i X <-> In i (matches lowr d q words)) as Hm.
  { intros i. rewrite Hin. unfold matches. rewrite filter_In, in_map_iff. split.
    - intros (ts & Hdoc & Hall). apply (doc_entry lowr d words) in Hdoc. destruct Hdoc as [Hi0 ->]. split; [exists (Z.to_nat i); split; [lia|]; apply in_seq; unfold zlen in Hi0; lia|exact Hall].
    - intros [(k & <- & Hk) Hall]. apply in_seq in Hk. exists (entry_grams lowr d (entry_at words (Z.of_nat k))). split; [apply (doc_entry lowr d words); split; [unfold zlen; lia|reflexivity]|exact Hall]. }
  split; [|split; [exact HX|split; [exact Hm|]]].
  - f_equal. rewrite map_map. apply map_ext_in. intros i Hi'. unfold acand. cbn [Key]. rewrite get_entry; [reflexivity|].
    assert (In i X) as HiX by (rewrite <- (firstn_skipn (Z.to_nat limit) X); apply in_app_iff; left; exact Hi'). apply Hin in HiX. destruct HiX as (ts & Hdoc & _). apply (doc_entry lowr d words) in Hdoc. apply Hdoc.
  - intros i HiX. apply Hin in HiX. destruct HiX as (ts & Hdoc & _). apply (Hx i ts); [exact Hdoc|]. apply (doc_entry lowr d words) in Hdoc. destruct Hdoc as [_ ->]. intros t. apply repeats_bound.
Qed.
Print Assumptions C95_autocomplete_partial.
(** Fewer than [limit] answers: every entry with all n-grams of the query is among them. *)
Theorem C95_autocomplete_complete : forall rb srt g ord name lowr d words ix query limit,
  roaring_ok rb -> roaring_written rb -> gob_ok g -> order_ok ord -> sorter_ok srt ->
  dictionary_any lowr d words -> index_built rb g ord name lowr d words ix ->
  let q := prefix_grams lowr d query in
  NoDup q -> 1 <= zlen q < 2 ^ 32 -> 0 <= limit ->
  forall sched items, ServiceAutocomplete rb srt ix words (ToLower lowr) d query limit sched = Some (Ret items) -> zlen items < limit ->
  forall i, In i (matches lowr d q words) -> In (of_int 0, entry_at words i) items.
Proof.
  intros rb srt g ord name lowr d words ix query limit Hrb Hrw Hg Ho Hsrt Hdict Hb q Nq Hq Hl sched items Hr Hlt i Hi.
  destruct (C95_autocomplete_partial rb srt g ord name lowr d words ix query limit Hrb Hrw Hg Ho Hsrt Hdict Hb Nq Hq Hl sched _ Hr) as (X & E & _ & Hm & _). injection E as ->.
  apply Hm in Hi. apply in_map_iff. exists i. split; [reflexivity|]. unfold zlen in Hlt. rewrite map_length, firstn_length in Hlt. rewrite firstn_all2 by lia. exact Hi.
Qed.
Print Assumptions C95_autocomplete_complete.
Theorem C95_autocomplete_returns_partial : forall rb srt g ord name lowr d words ix query limit,
  roaring_ok rb -> roaring_written rb -> gob_ok g -> order_ok ord -> sorter_ok srt ->
  dictionary_any lowr d words -> index_built rb g ord name lowr d words ix ->
  let q := prefix_grams lowr d query in
  NoDup q -> 1 <= zlen q < 2 ^ 32 -> 0 <= limit ->
  forall sched, arun rb srt ix q limit sched (astart q limit) <> None ->
  zlen sched <= 5 * 2 ^ 26 + 2 /\
  exists more items, ServiceAutocomplete rb srt ix words (ToLower lowr) d query limit (sched ++ more) = Some (Ret items).
Proof.
  intros rb srt g ord name lowr d words ix query limit Hrb Hrw Hg Ho Hsrt Hdict Hb q Nq Hq Hl sched Hr.
  pose proof (dict_index_any rb g ord name lowr d words Hrb Hrw Hg Ho Hdict ix Hb) as Hok. pose proof (any_len rb lowr d words ix Hdict Hok) as Hlen. destruct (docs_good_any lowr d words Hdict) as (Hd & _). pose proof (proj1 Hok) as Hi.
  assert (forall s p, arun rb srt ix q limit s (astart q limit) = Some p -> zlen s <= 5 * 2 ^ 26 + 2) as Hbound.
  { intros s p E. pose proof (C43_terminates rb srt ix q limit s p E) as H. lia. }
  assert (forall a b p, arun rb srt ix q limit (a ++ b) p = match arun rb srt ix q limit a p with Some p' => arun rb srt ix q limit b p' | None => None end) as Happ.
  { induction a as [|c a IH]; intros b p; [reflexivity|]. cbn [app arun]. destruct (aexec rb srt ix q limit c p); [apply IH|reflexivity]. }
  destruct (arun rb srt ix q limit sched (astart q limit)) as [p|] eqn:E; [|congruence]. split; [apply (Hbound _ _ E)|].
  assert (forall n s p, (Z.to_nat (5 * 2 ^ 26 + 3) - length s <= n)%nat -> arun rb srt ix q limit s (astart q limit) = Some p -> exists more l, arun rb srt ix q limit (s ++ more) (astart q limit) = Some (AFinished (Ret l))) as Hgo.
  { clear Hr E p. induction n as [|n IH]; intros s p Hn Es; [exfalso; pose proof (Hbound _ _ Es) as Hz; unfold zlen in Hz; lia|].
    pose proof (autocomplete_any rb srt ix _ q limit Hd Hi Hsrt Hq Nq Hl s p Es) as HG. destruct p as [st|r|].
    - destruct (C43_no_deadlock rb srt ix q limit s st Es) as (c & p' & Ec).
      destruct (IH (s ++ [c]) p') as (more & l & El); [rewrite app_length; cbn [length]; pose proof (Hbound _ _ Es) as Hz; unfold zlen in Hz; lia|rewrite Happ, Es; cbn [arun]; rewrite Ec; reflexivity|].
      exists (c :: more), l. rewrite <- app_assoc in El. exact El.
    - destruct HG as (X & _ & ->). exists []. eexists. rewrite app_nil_r. exact Es.
    - destruct HG. }
  destruct (Hgo _ sched p (Nat.le_refl _) E) as (more & l & El). exists more. unfold ServiceAutocomplete. rewrite auto_grams by (apply Hdict). fold q. rewrite El. cbn [bind]. eauto.
Qed.
Print Assumptions C95_autocomplete_returns_partial.

(** ** "Autocomplete returns [limit] different entries when there are as many" is false *)
Definition demo95_words : list bytes := [bs "a-a+"; bs "ab"].
Definition demo95_ops : list dop := match IndexDictionary rb4 gob1 (fun _ m => rev m) (documentListFile "x") (headerFile "x") 0 (ToLower demo71_low) demo71_conf demo95_words with Ret o => o | _ => [] end.
Definition demo95_index : list (option inverted) := match FSBuild gob1 "x" (fs_run NewFSDirectory demo95_ops) with Ret i => i | _ => [] end.
Fixpoint aauto95 (fuel : nat) terms k (p : aproc) : list achoice :=
  match fuel with
  | O => []
  | S f => match List.find (fun c => match aexec rb4 (fun l => l) demo95_index terms k c p with Some _ => true | None => false end) (AProd :: map AWork (List.seq 0 9)) with
           | Some c => match aexec rb4 (fun l => l) demo95_index terms k c p with Some p' => c :: aauto95 f terms k p' | None => [] end
           | None => []
           end
  end.
Fixpoint sauto95 (fuel : nat) tokens alpha k (p : proc) : list choice :=
  match fuel with
  | O => []
  | S f => match List.find (fun c => match exec rb4 (fun l => l) demo95_index tokens Cosine alpha k c p with Some _ => true | None => false end) (CProd :: map CWork (List.seq 0 9)) with
           | Some c => match exec rb4 (fun l => l) demo95_index tokens Cosine alpha k c p with Some p' => c :: sauto95 f tokens alpha k p' | None => [] end
           | None => []
           end
  end.
Definition demo95_asched : list achoice := let g := prefix_grams demo71_low demo71_conf (bs "a") in aauto95 100 g 2 (astart g 2).
Definition demo95_sched : list choice := let g := entry_grams demo71_low demo71_conf (bs "ab") in sauto95 300 g quarter 2 (start demo95_index g Cosine quarter 2).
Lemma demo95_ok : dictionary_any demo71_low demo71_conf demo95_words.
Proof.
  split; [cbn; lia|]. split; [vm_compute; reflexivity|]. split; [vm_compute; reflexivity|]. split; [exists (bs "a-a+"), [bs "ab"]; split; [reflexivity|vm_compute; discriminate]|].
  intros w [<-|[<-|[]]]; vm_compute; reflexivity.
Qed.
Lemma demo95_built : index_built rb4 gob1 (fun _ m => rev m) "x" demo71_low demo71_conf demo95_words demo95_index.
Proof.
  exists demo95_ops. split; [vm_compute; reflexivity|]. right. exists demo95_ops.
  destruct (C95_index_builds_partial rb4 gob1 (fun _ m => rev m) "x" demo71_low demo71_conf demo95_words) as (ops & E & Hf & _);
    [apply C24_nonvacuous_codecs|apply C24_nonvacuous_codecs|apply C24_nonvacuous_codecs|intros c m; apply Permutation_rev|exact demo95_ok|].
  assert (ops = demo95_ops) as -> by (unfold demo95_ops; rewrite E; reflexivity). split; [exact Hf|]. split; [vm_compute; reflexivity|].
  intros b Hb. match type of Hb with ?t = _ => let v := eval vm_compute in t in change t with v in Hb end. injection Hb as <-. vm_compute. reflexivity.
Qed.
(** For the prefix "a" and the limit 2, with the dictionary "a-a+", "ab" the first entry is
    returned twice and the second, which has the prefix too, not at all. *)
Theorem C95_different_refuted : matches demo71_low demo71_conf (prefix_grams demo71_low demo71_conf (bs "a")) demo95_words = [0; 1] /\
  ServiceAutocomplete rb4 (fun l => l) demo95_index demo95_words (ToLower demo71_low) demo71_conf (bs "a") 2 demo95_asched = Some (Ret [(of_int 0, bs "a-a+"); (of_int 0, bs "a-a+")]).
Proof. split; vm_compute; reflexivity. Qed.
Print Assumptions C95_different_refuted.
(** the hypotheses are met *)
Example C95_nonvacuous : dictionary_any demo71_low demo71_conf demo95_words /\ ~ dictionary_ok demo71_low demo71_conf demo95_words /\
  index_built rb4 gob1 (fun _ m => rev m) "x" demo71_low demo71_conf demo95_words demo95_index /\
  (let q := prefix_grams demo71_low demo71_conf (bs "a") in NoDup q /\ 1 <= zlen q < 2 ^ 32) /\
  (let q := entry_grams demo71_low demo71_conf (bs "ab") in NoDup q /\ 1 <= zlen q <= 65535 /\ exists w, In w demo95_words /\ MinY Cosine quarter (zlen q) <= zlen (entry_grams demo71_low demo71_conf w)) /\
  exists a b, ServiceSuggest rb4 (fun l => l) demo95_index demo95_words (ToLower demo71_low) demo71_conf (bs "ab") quarter Cosine 2 demo95_sched = Some (Ret [(a, bs "ab"); (b, bs "a-a+")]).
Proof.
  split; [exact demo95_ok|]. split.
  { intros (_ & _ & _ & H). destruct (H (bs "a-a+") (or_introl eq_refl)) as [Hn _]. match type of Hn with NoDup ?t => let v := eval vm_compute in t in change t with v in Hn end. inversion_clear Hn. apply H0. right. left. reflexivity. }
  split; [exact demo95_built|]. split; [|split].
  - cbn zeta. split; [match goal with |- NoDup ?t => let v := eval vm_compute in t in change t with v end; repeat apply NoDup_cons; try apply NoDup_nil; cbn; intuition discriminate|]. split; vm_compute; [discriminate|reflexivity].
  - cbn zeta. split; [match goal with |- NoDup ?t => let v := eval vm_compute in t in change t with v end; repeat apply NoDup_cons; try apply NoDup_nil; cbn; intuition discriminate|]. split; [split; vm_compute; discriminate|]. exists (bs "ab"). split; [right; left; reflexivity|vm_compute; discriminate].
  - eexists. eexists. vm_compute. reflexivity.
Qed.
