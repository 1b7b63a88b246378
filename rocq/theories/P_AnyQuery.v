(** C99: every query is answered, whatever its characters (pkg/suggest): also queries that
    repeat n-grams after the characters outside the alphabet are replaced, and queries
    without any n-gram. *)
From Coq Require Import String ZifyBool Permutation Sorted Reals Lra Lia.
From Verif Require Import Base BaseLemmas GoMap Store StoreSpec Postings PostingsSpec PostingsDrive P_PostingsLemmas Merger MergerSpec MergerAnySpec MergerAny P_MergerLemmas
  Text TextProofs TextProofs2 Analysis AnalysisSpec AnalysisProofs AnalysisProofs2 P_AnalysisLemmas P_Analysis
  Index IndexSpec IndexProofs IndexProofs2 P_IndexLemmas P_Index SearchAny
  Float64 Metric MetricSpec MetricProofs FloatProofs MetricFloat MetricFloat2 MetricScore P_Metric TopK TopKSpec TopKProofs Suggest SuggestSpec SuggestProofs SuggestProofs2 P_SuggestLemmas P_Suggest SuggestAnySpec SuggestAny P_Repeated
  Autocomplete AutocompleteSpec AutocompleteProofs AutocompleteAnySpec AutocompleteAny P_Autocomplete Mph P_Mph NGramIndex NGramIndexSpec NGramIndexProofs NGramIndexProofs2 P_NGramIndex NGramIndexAnySpec NGramIndexAny P_RepeatedDict.
Local Open Scope Z_scope.
Local Notation length := List.length.

(** ** Autocomplete *)
(** Of the list of the entries with all n-grams of the query and at least as many n-grams as
    the query, in the order of the dictionary, each entry at least once and no more often
    than it repeats an n-gram, the first [limit]. *)
Theorem C99_autocomplete_partial : forall rb srt g ord name lowr d words ix query limit,
  roaring_ok rb -> roaring_written rb -> gob_ok g -> order_ok ord -> sorter_ok srt ->
  dictionary_any lowr d words -> index_built rb g ord name lowr d words ix ->
  let q := prefix_grams lowr d query in
  zlen q < 2 ^ 32 -> 0 <= limit ->
  forall sched r, ServiceAutocomplete rb srt ix words (ToLower lowr) d query limit sched = Some r ->
  exists X, r = Ret (map (fun i => (of_int 0, entry_at words i)) (firstn (Z.to_nat limit) X)) /\
    StronglySorted Z.le X /\
    (forall i, In i X <-> q <> [] /\ In i (matches lowr d q words) /\ zlen q <= zlen (entry_grams lowr d (entry_at words i))) /\
    (forall i, In i X -> (times i X <= repeats (entry_grams lowr d (entry_at words i)))%nat).
Proof.
  intros rb srt g ord name lowr d words ix query limit Hrb Hrw Hg Ho Hsrt Hdict Hb q Hq Hl sched r Hr.
  pose proof (dict_index_any rb g ord name lowr d words Hrb Hrw Hg Ho Hdict ix Hb) as Hok. destruct (docs_good_any lowr d words Hdict) as (Hd & _). pose proof (proj1 Hok) as Hi.
  unfold ServiceAutocomplete in Hr. rewrite auto_grams in Hr by (apply Hdict). fold q in Hr.
  destruct (arun rb srt ix q limit sched (astart q limit)) as [p|] eqn:Er; [|discriminate].
  pose proof (autocomplete_every rb srt ix _ q limit Hd Hi Hsrt (conj (zlen_nonneg q) Hq) Hl sched p Er) as HG. destruct p as [s|r0|]; [discriminate| |destruct HG].
  destruct HG as (X & (HX & Hin & Hx) & ->). injection Hr as <-. cbn [bind]. exists X.
  assert (forall i, In i X <-> q <> [] /\ In i (matches lowr d q words) /\ zlen q <= zlen (entry_grams lowr d (entry_at words i))) as Hm.
  { intros i. rewrite Hin. unfold matches. rewrite filter_In, in_map_iff. split.
    - intros (Hne & ts & Hdoc & Hall & Hlen). apply (doc_entry lowr d words) in Hdoc. destruct Hdoc as [Hi0 ->]. split; [exact Hne|]. split; [|exact Hlen]. split; [exists (Z.to_nat i); split; [lia|]; apply in_seq; unfold zlen in Hi0; lia|exact Hall].
    - intros (Hne & [(k & <- & Hk) Hall] & Hlen). apply in_seq in Hk. split; [exact Hne|]. exists (entry_grams lowr d (entry_at words (Z.of_nat k))). split; [apply (doc_entry lowr d words); split; [unfold zlen; lia|reflexivity]|split; [exact Hall|exact Hlen]]. }
  split; [|split; [exact HX|split; [exact Hm|]]].
  - f_equal. rewrite map_map. apply map_ext_in. intros i Hi'. unfold acand. cbn [Key]. rewrite get_entry; [reflexivity|].
    assert (In i X) as HiX by (rewrite <- (firstn_skipn (Z.to_nat limit) X); apply in_app_iff; left; exact Hi'). apply Hin in HiX. destruct HiX as (_ & ts & Hdoc & _). apply (doc_entry lowr d words) in Hdoc. apply Hdoc.
  - intros i HiX. apply Hin in HiX. destruct HiX as (_ & ts & Hdoc & _). apply (Hx i ts); [exact Hdoc|]. apply (doc_entry lowr d words) in Hdoc. destruct Hdoc as [_ ->]. intros t. apply repeats_bound.
Qed.
Print Assumptions C99_autocomplete_partial.

(** the n-grams of a prefix are not more than those of the entry *)
Lemma windows_prefix n cs t : (n <= length cs)%nat -> incl (windows n cs) (windows n (cs ++ t)).
Proof.
  intros Hn x Hx. unfold windows in *. apply in_map_iff in Hx. destruct Hx as (k & <- & Hk). apply in_seq in Hk. apply in_map_iff. exists k. split; [rewrite firstn_skipn_app by lia; reflexivity|]. apply in_seq. rewrite app_length. lia.
Qed.
Lemma prefix_fewer lowr d q r : 1 <= t_n d <= 8 -> well_formed (t_wrap0 d ++ q) -> t_n d <= zlen (chars (Trim (ToLower lowr (t_wrap0 d ++ q)))) ->
  zlen (prefix_grams lowr d q) <= zlen (entry_grams lowr d (q ++ r)).
Proof.
  intros Hn Hw Hl. unfold prefix_grams, entry_grams, grams, zlen. rewrite !map_length. rewrite !prepared_text. rewrite prepared_text in Hl.
  assert (t_n d <= zlen (prepared lowr (t_wrap0 d ++ q))) as Hl' by (rewrite <- prepared_chars, prepared_text; exact Hl).
  assert (exists t, prepared lowr (t_wrap0 d ++ (q ++ r) ++ t_wrap1 d) = prepared lowr (t_wrap0 d ++ q) ++ t) as [t Et].
  { unfold prepared. replace (t_wrap0 d ++ (q ++ r) ++ t_wrap1 d) with ((t_wrap0 d ++ q) ++ (r ++ t_wrap1 d)) by (rewrite <- !app_assoc; reflexivity).
    rewrite runes_app by exact Hw. rewrite map_app.
    destruct (ttrim_app (map (fun rb => lowr (fst rb)) (runes (t_wrap0 d ++ q))) (map (fun rb => lowr (fst rb)) (runes (r ++ t_wrap1 d)))) as [t Ht].
    exists t. apply Ht. unfold prepared in Hl'. intros E. rewrite E in Hl'. cbn in Hl'. lia. }
  rewrite Et. set (p := prepared lowr (t_wrap0 d ++ q)) in *.
  assert (chars (enc (p ++ t)) = chars (enc p) ++ chars (enc t)) as Ec.
  { rewrite !chars_enc. apply map_app. }
  unfold substrings. rewrite Ec, app_length. unfold zlen in Hl. replace (Z.to_nat (t_n d) <=? length (chars (enc p)))%nat with true by lia. replace (Z.to_nat (t_n d) <=? length (chars (enc p)) + length (chars (enc t)))%nat with true by lia.
  apply inj_le. apply NoDup_incl_length; [apply fo_NoDup|]. intros x Hx. apply fo_In. apply (proj1 (fo_In _ _)) in Hx. apply windows_prefix; [lia|exact Hx].
Qed.

(** Every entry that starts with the query - valid UTF-8 and, with the wrap in front, at least
    as long as the n-grams - is returned if fewer than [limit] entries are, whatever characters
    are in the query. *)
Theorem C99_prefix_completes : forall rb srt g ord name lowr d words ix query rest limit,
  roaring_ok rb -> roaring_written rb -> gob_ok g -> order_ok ord -> sorter_ok srt ->
  dictionary_any lowr d words -> index_built rb g ord name lowr d words ix ->
  well_formed (t_wrap0 d ++ query) -> t_n d <= zlen (chars (Trim (ToLower lowr (t_wrap0 d ++ query)))) ->
  In (query ++ rest) words -> 0 <= limit ->
  forall sched items, ServiceAutocomplete rb srt ix words (ToLower lowr) d query limit sched = Some (Ret items) -> zlen items < limit ->
  In (of_int 0, query ++ rest) items.
Proof.
  intros rb srt g ord name lowr d words ix query rest limit Hrb Hrw Hg Ho Hsrt Hdict Hb Hw Hc Hin Hl sched items Hr Hlt. pose proof Hdict as (Hn & _ & _ & _ & Hlen).
  pose proof (prefix_fewer lowr d query rest Hn Hw Hc) as Hf. pose proof (Hlen _ Hin) as Hlw.
  destruct (C99_autocomplete_partial rb srt g ord name lowr d words ix query limit Hrb Hrw Hg Ho Hsrt Hdict Hb ltac:(cbv zeta; lia) Hl sched _ Hr) as (X & E & _ & Hm & _). injection E as ->.
  apply In_nth_error in Hin. destruct Hin as (j & Hj). assert (entry_at words (Z.of_nat j) = query ++ rest) as Ej by (unfold entry_at; rewrite Nat2Z.id; apply nth_error_nth; exact Hj).
  assert (0 <= Z.of_nat j < zlen words) as Hjl by (assert (j < length words)%nat by (apply nth_error_Some; intros C; pose proof (eq_trans (eq_sym C) Hj) as C'; discriminate C'); unfold zlen; lia).
  destruct (C73_prefixes_match lowr d words query rest (Z.of_nat j) Hn Hw Hc Hjl Ej) as [Hmat Hne].
  assert (In (Z.of_nat j) X) as HX by (apply Hm; split; [exact Hne|split; [exact Hmat|rewrite Ej; exact Hf]]).
  apply in_map_iff. exists (Z.of_nat j). rewrite Ej. split; [reflexivity|]. unfold zlen in Hlt. rewrite map_length, firstn_length in Hlt. rewrite firstn_all2 by lia. exact HX.
Qed.
Print Assumptions C99_prefix_completes.

(** Every call returns. *)
Theorem C99_autocomplete_returns : forall rb srt g ord name lowr d words ix query limit,
  roaring_ok rb -> roaring_written rb -> gob_ok g -> order_ok ord -> sorter_ok srt ->
  dictionary_any lowr d words -> index_built rb g ord name lowr d words ix ->
  let q := prefix_grams lowr d query in
  zlen q < 2 ^ 32 -> 0 <= limit ->
  forall sched, arun rb srt ix q limit sched (astart q limit) <> None ->
  zlen sched <= 5 * 2 ^ 26 + 2 /\
  exists more items, ServiceAutocomplete rb srt ix words (ToLower lowr) d query limit (sched ++ more) = Some (Ret items).
Proof.
  intros rb srt g ord name lowr d words ix query limit Hrb Hrw Hg Ho Hsrt Hdict Hb q Hq Hl sched Hr.
  pose proof (dict_index_any rb g ord name lowr d words Hrb Hrw Hg Ho Hdict ix Hb) as Hok. pose proof (any_len rb lowr d words ix Hdict Hok) as Hlen. destruct (docs_good_any lowr d words Hdict) as (Hd & _). pose proof (proj1 Hok) as Hi.
  assert (forall s p, arun rb srt ix q limit s (astart q limit) = Some p -> zlen s <= 5 * 2 ^ 26 + 2) as Hbound.
  { intros s p E. pose proof (C43_terminates rb srt ix q limit s p E) as H. pose proof (zlen_nonneg q). lia. }
  assert (forall a b p, arun rb srt ix q limit (a ++ b) p = match arun rb srt ix q limit a p with Some p' => arun rb srt ix q limit b p' | None => None end) as Happ.
  { induction a as [|c a IH]; intros b p; [reflexivity|]. cbn [app arun]. destruct (aexec rb srt ix q limit c p); [apply IH|reflexivity]. }
  destruct (arun rb srt ix q limit sched (astart q limit)) as [p|] eqn:E; [|congruence]. split; [apply (Hbound _ _ E)|].
  assert (forall n s p, (Z.to_nat (5 * 2 ^ 26 + 3) - length s <= n)%nat -> arun rb srt ix q limit s (astart q limit) = Some p -> exists more l, arun rb srt ix q limit (s ++ more) (astart q limit) = Some (AFinished (Ret l))) as Hgo.
  { clear Hr E p. induction n as [|n IH]; intros s p Hn Es; [exfalso; pose proof (Hbound _ _ Es) as Hz; unfold zlen in Hz; lia|].
    pose proof (autocomplete_every rb srt ix _ q limit Hd Hi Hsrt (conj (zlen_nonneg q) Hq) Hl s p Es) as HG. destruct p as [st|r|].
    - destruct (C43_no_deadlock rb srt ix q limit s st Es) as (c & p' & Ec).
      destruct (IH (s ++ [c]) p') as (more & l & El); [rewrite app_length; cbn [length]; pose proof (Hbound _ _ Es) as Hz; unfold zlen in Hz; lia|rewrite Happ, Es; cbn [arun]; rewrite Ec; reflexivity|].
      exists (c :: more), l. rewrite <- app_assoc in El. exact El.
    - destruct HG as (X & _ & ->). exists []. eexists. rewrite app_nil_r. exact Es.
    - destruct HG. }
  destruct (Hgo _ sched p (Nat.le_refl _) E) as (more & l & El). exists more. unfold ServiceAutocomplete. rewrite auto_grams by (apply Hdict). fold q. rewrite El. cbn [bind]. eauto.
Qed.
Print Assumptions C99_autocomplete_returns.

(** ** Queries without n-grams *)
Lemma short_grams lowr d text : 1 <= t_n d -> zlen (Trim (ToLower lowr text)) < t_n d -> grams lowr d text = [].
Proof.
  intros Hn Hs. unfold grams, substrings. pose proof (chars_zlen_le (Trim (ToLower lowr text))) as Hc. unfold zlen in *.
  replace (Z.to_nat (t_n d) <=? length (chars (Trim (ToLower lowr text))))%nat with false by lia. replace (length (Trim (ToLower lowr text)) <? Z.to_nat (t_n d))%nat with true by lia. reflexivity.
Qed.
(** A query shorter than the n-grams (in bytes, with the wraps, without surrounding blanks)
    has no suggestions, no completions and no error. *)
Theorem C99_short_suggest : forall rb srt lowr d words ix query m alpha topK, 1 <= t_n d <= 8 ->
  zlen (Trim (ToLower lowr (t_wrap0 d ++ query ++ t_wrap1 d))) < t_n d ->
  ServiceSuggest rb srt ix words (ToLower lowr) d query alpha m topK [] = Some (Ret []) /\
  forall sched r, ServiceSuggest rb srt ix words (ToLower lowr) d query alpha m topK sched = Some r -> r = Ret [].
Proof.
  intros rb srt lowr d words ix query m alpha topK Hn Hs. unfold ServiceSuggest. rewrite suggest_grams by exact Hn. unfold entry_grams. rewrite short_grams by (try exact Hs; lia).
  assert (forall ix' a k, start ix' [] m a k = Finished (Ret [])) as Hst by reflexivity. rewrite !Hst. split; [reflexivity|].
  intros [|c sched] r; cbn [run exec]; [intros E; injection E as <-; reflexivity|]. destruct c; discriminate.
Qed.
Print Assumptions C99_short_suggest.
Theorem C99_short_autocomplete : forall rb srt g ord name lowr d words ix query limit,
  roaring_ok rb -> roaring_written rb -> gob_ok g -> order_ok ord -> sorter_ok srt ->
  dictionary_any lowr d words -> index_built rb g ord name lowr d words ix -> 0 <= limit ->
  zlen (Trim (ToLower lowr (t_wrap0 d ++ query))) < t_n d ->
  forall sched r, ServiceAutocomplete rb srt ix words (ToLower lowr) d query limit sched = Some r -> r = Ret [].
Proof.
  intros rb srt g ord name lowr d words ix query limit Hrb Hrw Hg Ho Hsrt Hdict Hb Hl Hs sched r Hr. pose proof (proj1 Hdict) as Hn.
  assert (prefix_grams lowr d query = []) as E by (apply short_grams; [lia|exact Hs]).
  destruct (C99_autocomplete_partial rb srt g ord name lowr d words ix query limit Hrb Hrw Hg Ho Hsrt Hdict Hb ltac:(cbv zeta; rewrite E; reflexivity) Hl sched _ Hr) as (X & -> & _ & Hm & _).
  destruct X as [|i X]; [rewrite firstn_nil; reflexivity|]. destruct (proj1 (Hm i) (or_introl eq_refl)) as [H _]. congruence.
Qed.
Print Assumptions C99_short_autocomplete.

(** ** Suggest *)
(** The answers, as pairs of a position and the number of common n-grams the answer was scored
    with (a repeated n-gram of the query counts every time): no error; at most topK, best
    first; each is an entry, scored with at most its number of common n-grams - and with exactly
    that number if its n-grams are distinct; no entry is there more often than it repeats an
    n-gram.  If there are fewer than topK answers, they are the entries that are similar enough,
    among those that have no more n-grams in common with the query than they have n-grams. *)
Theorem C99_suggest_partial : forall rb srt g ord name lowr d words ix query m alpha topK,
  roaring_ok rb -> roaring_written rb -> gob_ok g -> order_ok ord -> sorter_ok srt ->
  dictionary_any lowr d words -> index_built rb g ord name lowr d words ix ->
  let q := entry_grams lowr d query in
  1 <= zlen q <= 65535 -> (m = Overlap -> zlen q <= 32767) -> alpha_ok alpha -> 1 <= topK ->
  (exists w, In w words /\ MinY m alpha (zlen q) <= zlen (entry_grams lowr d w)) ->
  forall sched r, ServiceSuggest rb srt ix words (ToLower lowr) d query alpha m topK sched = Some r ->
  let of := fun i => entry_grams lowr d (entry_at words i) in
  let score := fun a : Z * Z => Score m (snd a) (zlen q) (zlen (of (fst a))) in
  let sim := fun i => gram_similarity lowr d m q (entry_at words i) in
  exists ans, r = Ret (map (fun a => (score a, entry_at words (fst a))) ans) /\
    zlen ans <= topK /\
    StronglySorted (fun a b => flt (score a) (score b) = false /\ (feq (score a) (score b) = true -> fst a <= fst b)) ans /\
    (forall i n, In (i, n) ans -> 0 <= i < zlen words /\ 1 <= n <= common q (of i) /\ (NoDup (of i) -> score (i, n) = score (i, common q (of i)))) /\
    (forall i, 0 <= i < zlen words -> (copies i ans <= repeats (of i))%nat) /\
    (zlen ans < topK ->
       (forall i n, In (i, n) ans -> common q (of i) <= zlen (of i) -> (sim i >= val alpha * (1 - / 2 ^ 46))%R) /\
       (forall i, 0 <= i < zlen words -> 1 <= zlen (of i) -> (m = Overlap -> zlen (of i) <= 32767) -> common q (of i) <= zlen (of i) -> (sim i >= val alpha * (1 + / 2 ^ 46))%R ->
          exists n, In (i, n) ans /\ score (i, n) = score (i, common q (of i)))).
Proof.
  intros rb srt g ord name lowr d words ix query m alpha topK Hrb Hrw Hg Ho Hsrt Hdict Hb q Hq1 Hq2 Ha Hk Hlong sched r Hr of score sim.
  pose proof (dict_index_any rb g ord name lowr d words Hrb Hrw Hg Ho Hdict ix Hb) as Hok. pose proof (any_len rb lowr d words ix Hdict Hok) as Hlen.
  assert (query_any ix q m alpha topK) as Hq by (split; [exact Ha|]; split; [exact Hq1|]; split; [exact Hlen|]; split; assumption).
  pose proof (any_searchable rb lowr d words ix Hok q m alpha Hlong) as Hse. destruct (docs_good_any lowr d words Hdict) as (Hd & _). pose proof (proj1 Hok) as Hi.
  assert (forall i, 0 <= i < zlen words -> In (i, of i) (docs_of lowr d words)) as Hdoc by (intros i Hi0; apply (doc_entry lowr d words); split; [exact Hi0|reflexivity]).
  unfold ServiceSuggest in Hr. rewrite suggest_grams in Hr by (apply Hdict). fold q in Hr.
  destruct (run rb srt ix q m alpha topK sched (start ix q m alpha topK)) as [[s|r0|]|] eqn:Er; try discriminate.
  2:{ exfalso. destruct (C94_suggest_returns rb srt ix _ q m alpha topK sched _ Hq Hse Hd Hi Hsrt Er) as [(l & E)|(s & c & p' & E & _)]; discriminate. }
  injection Hr as <-. destruct (any_returns rb srt ix _ q m alpha topK Hq Hd Hi Hsrt sched r0 Hse Er) as (l & -> & Hg'). pose proof Hg' as (sims & L & Hsm & HL & Hbt). pose proof Hbt as (Hl & Hsort & rest & Hp & Hrest). cbn [bind].
  assert (forall c, In c l -> In c L) as Hsub by (intros c Hc; apply (Permutation_in _ (Permutation_sym Hp)), in_app_iff; left; exact Hc).
  assert (forall l', (forall c, In c l' -> In c l) -> exists ans, l' = map (fun a => mkCand (fst a) (score a)) ans /\ (forall i n, In (i, n) ans -> 0 <= i < zlen words /\ 1 <= n <= common q (of i) /\ MinY m alpha (zlen q) <= zlen (of i) <= MaxY m alpha (zlen q) /\ Threshold m (sims (zlen (of i))) (zlen q) (zlen (of i)) <= n)) as Hans.
  { induction l' as [|c l' IH]; intros Hin; [exists []; split; [reflexivity|intros i n []]|]. destruct (IH (fun c' Hc' => Hin c' (or_intror Hc'))) as (ans & E & H).
    destruct (proj1 (proj2 HL) c (Hsub c (Hin c (or_introl eq_refl)))) as ([x ts] & n & H1 & H2 & H3 & H4 & H5 & _). apply (doc_entry lowr d words) in H1. destruct H1 as [Hx ->]. cbn [fst snd] in *. exists ((x, n) :: ans). split.
    - cbn [map fst]. rewrite E, H2. reflexivity.
    - intros i k [E'|Hk']; [|apply H; exact Hk']. injection E' as <- <-. split; [exact Hx|]. split; [exact H4|]. split; [exact H3|exact H5]. }
  destruct (Hans l (fun c Hc => Hc)) as (ans & E & Hall). clear Hans. exists ans. split; [|split; [|split; [|split; [|split]]]].
  - f_equal. rewrite E, map_map. apply map_ext_in. intros [i n] Hin. cbn [Sc Key fst]. rewrite get_entry by (apply (Hall i n Hin)). reflexivity.
  - assert (length l = length ans) as El by (rewrite E, map_length; reflexivity). unfold zlen. lia.
  - rewrite E in Hsort. clear - Hsort. induction ans as [|a ans IH]; [constructor|]. cbn [map] in Hsort. inversion_clear Hsort. constructor; [apply IH; assumption|]. apply Forall_forall. intros b Hb. rewrite Forall_forall in H0. specialize (H0 _ (in_map _ _ _ Hb)).
    unfold worse in H0. cbn [Sc Key] in H0. split; [destruct (flt (score a) (score b)) eqn:E; [exfalso; apply H0; left; reflexivity|reflexivity]|]. intros E. destruct (Z.le_gt_cases (fst a) (fst b)); [assumption|exfalso; apply H0; right; split; [exact E|lia]].
  - intros i n Hin. destruct (Hall i n Hin) as (H1 & H2 & _). split; [exact H1|]. split; [exact H2|]. intros Hn.
    assert (In (mkCand i (score (i, n))) l) as Hc by (rewrite E; apply in_map_iff; exists (i, n); split; [reflexivity|exact Hin]).
    assert (mkCand i (score (i, n)) = cand_of m q (i, of i)) as Ec by (eapply distinct_exact; try eassumption; [apply Hdoc; exact H1|apply Hsub; exact Hc|reflexivity]).
    injection Ec as Ec. exact Ec.
  - intros i Hi0. assert (key_times i l <= repeats (of i))%nat as Hcop by (change i with (fst (i, of i)) at 1; eapply copies_in_result; [..|exact HL|exact Hbt|apply Hdoc; exact Hi0|intros t; apply repeats_bound]).
    enough (copies i ans = key_times i l) by lia. rewrite E. unfold copies, key_times. clear. induction ans as [|a ans IH]; [reflexivity|]. cbn [map filter Key]. destruct (fst a =? i); cbn [length]; rewrite IH; reflexivity.
  - intros Hfew. assert (length l = length ans) as El by (rewrite E, map_length; reflexivity).
    assert (forall B, sims B = alpha) as Hsa.
    { intros B. destruct (Hsm B) as [Hs|(_ & _ & Hs & _)]; [exact Hs|]. pose proof (Permutation_length Hp) as Hpl. rewrite app_length in Hpl. destruct rest as [|x t]; [|unfold zlen in Hfew; cbn [length] in Hpl; lia]. unfold zlen in *. cbn [length] in Hpl. lia. }
    assert (forall w, In w words -> zlen (entry_grams lowr d w) + 1 < 2 ^ 26) as Hsz by (apply Hdict). assert (1 <= zlen q <= 65535 -> size_ok (zlen q)) as Hszq by (unfold size_ok; lia).
    assert (forall g h : list bytes, 0 <= common g h <= zlen g) as Hov1 by (intros g0 h0; unfold common; split; [apply zlen_nonneg|unfold zlen; apply inj_le; clear; induction g0 as [|x g0 IH]; cbn [filter]; [lia|destruct (existsb (beqb x) h0); cbn [length]; lia]]).
    split.
    + intros i n Hin Hov. destruct (Hall i n Hin) as (H1 & H2 & H3 & H4). rewrite Hsa in H4. replace (/ 2 ^ 46)%R with delta by (unfold delta; lra).
      pose proof (Hov1 q (of i)) as Ho1. pose proof (q_min ix q m alpha topK Hq) as Hmin. assert (In (entry_at words i) words) as Hiw by (apply nth_In; unfold zlen in H1; lia). assert (zlen (of i) + 1 < 2 ^ 26) as Hsi by exact (Hsz _ Hiw).
      apply (no_gain alpha (zlen q) (zlen (of i)) Ha (Hszq Hq1) ltac:(unfold size_ok; lia) m (common q (of i))); [unfold MetricSpec.sizes_ok; lia|exact H3|lia].
    + intros i Hi0 H1 Hov Hcm Hs. replace (/ 2 ^ 46)%R with delta in Hs by (unfold delta; lra).
      assert (In (cand_of m q (i, of i)) l) as Hc.
      { eapply (C94_fewer_than_k rb srt ix _ q m alpha topK sched l (i, of i)); try eassumption; [unfold zlen in *; lia|apply Hdoc; exact Hi0|].
        pose proof (Hov1 q (of i)) as Ho1. assert (In (entry_at words i) words) as Hiw by (apply nth_In; unfold zlen in Hi0; lia). assert (zlen (of i) + 1 < 2 ^ 26) as Hsi by exact (Hsz _ Hiw).
        destruct (no_loss alpha (zlen q) (zlen (of i)) Ha (Hszq Hq1) ltac:(unfold size_ok; lia) m (common q (of i)) Hov ltac:(unfold MetricSpec.sizes_ok; lia) Hs) as [G1 G2].
        unfold eligible_any, eligible. cbn zeta. cbn [snd]. change (overlap_of q (of i)) with (common q (of i)). lia. }
      rewrite E in Hc. apply in_map_iff in Hc. destruct Hc as ([j n] & Ec & Hc). cbn [fst] in Ec. pose proof (f_equal Key Ec) as E1. pose proof (f_equal Sc Ec) as E2. cbn [Key cand_of fst] in E1. subst j. exists n. split; [exact Hc|exact E2].
Qed.
Print Assumptions C99_suggest_partial.

(** ** "The entry that is the query comes first" is false for queries with repeated n-grams *)
Definition demo99_words : list bytes := [bs "-"; bs "-+"; bs "ab"].
Definition demo99_ops : list dop := match IndexDictionary rb4 gob1 (fun _ m => rev m) (documentListFile "x") (headerFile "x") 0 (ToLower demo71_low) demo71_conf demo99_words with Ret o => o | _ => [] end.
Definition demo99_index : list (option inverted) := match FSBuild gob1 "x" (fs_run NewFSDirectory demo99_ops) with Ret i => i | _ => [] end.
Fixpoint aauto99 (fuel : nat) terms k (p : aproc) : list achoice :=
  match fuel with
  | O => []
  | S f => match List.find (fun c => match aexec rb4 (fun l => l) demo99_index terms k c p with Some _ => true | None => false end) (AProd :: map AWork (List.seq 0 9)) with
           | Some c => match aexec rb4 (fun l => l) demo99_index terms k c p with Some p' => c :: aauto99 f terms k p' | None => [] end
           | None => []
           end
  end.
Fixpoint sauto99 (fuel : nat) tokens m alpha k (p : proc) : list choice :=
  match fuel with
  | O => []
  | S f => match List.find (fun c => match exec rb4 (fun l => l) demo99_index tokens m alpha k c p with Some _ => true | None => false end) (CProd :: map CWork (List.seq 0 9)) with
           | Some c => match exec rb4 (fun l => l) demo99_index tokens m alpha k c p with Some p' => c :: sauto99 f tokens m alpha k p' | None => [] end
           | None => []
           end
  end.
Definition demo99_asched : list achoice := let g := prefix_grams demo71_low demo71_conf (bs "-+") in aauto99 100 g 5 (astart g 5).
Definition demo99_sched : list choice := let g := entry_grams demo71_low demo71_conf (bs "-+") in sauto99 300 g Jaccard quarter 9 (start demo99_index g Jaccard quarter 9).
Lemma demo99_ok : dictionary_any demo71_low demo71_conf demo99_words.
Proof.
  split; [cbn; lia|]. split; [vm_compute; reflexivity|]. split; [vm_compute; reflexivity|]. split; [exists (bs "-"), [bs "-+"; bs "ab"]; split; [reflexivity|vm_compute; discriminate]|].
  intros w [<-|[<-|[<-|[]]]]; vm_compute; reflexivity.
Qed.
Lemma demo99_built : index_built rb4 gob1 (fun _ m => rev m) "x" demo71_low demo71_conf demo99_words demo99_index.
Proof.
  exists demo99_ops. split; [vm_compute; reflexivity|]. right. exists demo99_ops.
  destruct (C95_index_builds_partial rb4 gob1 (fun _ m => rev m) "x" demo71_low demo71_conf demo99_words) as (ops & E & Hf & _);
    [apply P_Index.C24_nonvacuous_codecs|apply P_Index.C24_nonvacuous_codecs|apply P_Index.C24_nonvacuous_codecs|intros c m; apply Permutation_rev|exact demo99_ok|].
  assert (ops = demo99_ops) as -> by (unfold demo99_ops; rewrite E; reflexivity). split; [exact Hf|]. split; [vm_compute; reflexivity|].
  intros b Hb. match type of Hb with ?t = _ => let v := eval vm_compute in t in change t with v in Hb end. injection Hb as <-. vm_compute. reflexivity.
Qed.
(** The dictionary "-", "-+", "ab" (2-grams, "$" for the characters outside the alphabet), the
    query "-+": the entry "-" comes first, with a score above 1. *)
Theorem C99_exact_first_refuted : exists sched sc1 sc2 more, In (bs "-+") demo99_words /\
  ServiceSuggest rb4 (fun l => l) demo99_index demo99_words (ToLower demo71_low) demo71_conf (bs "-+") quarter Jaccard 9 sched = Some (Ret ((sc1, bs "-") :: more)) /\
  In (sc2, bs "-+") more /\ flt sc2 sc1 = true /\ flt (of_int 1) sc1 = true.
Proof.
  exists demo99_sched, (fdiv (of_int 3) (of_int 2)), (of_int 1).
  exists [(fdiv (of_int 3) (of_int 2), bs "-"); (of_int 1, bs "-+"); (of_int 1, bs "-+"); (of_int 1, bs "-+")].
  split; [right; left; reflexivity|]. split; [vm_compute; reflexivity|]. split; [right; left; reflexivity|]. split; vm_compute; reflexivity.
Qed.
Print Assumptions C99_exact_first_refuted.
(** the hypotheses are met *)
Example C99_nonvacuous : dictionary_any demo71_low demo71_conf demo99_words /\
  index_built rb4 gob1 (fun _ m => rev m) "x" demo71_low demo71_conf demo99_words demo99_index /\
  (let q := prefix_grams demo71_low demo71_conf (bs "-+") in ~ NoDup q /\ zlen q = 2) /\
  (let q := entry_grams demo71_low demo71_conf (bs "-+") in zlen q = 3 /\ exists w, In w demo99_words /\ MinY Jaccard quarter (zlen q) <= zlen (entry_grams demo71_low demo71_conf w)) /\
  (well_formed (t_wrap0 demo71_conf ++ bs "-") /\ t_n demo71_conf <= zlen (chars (Trim (ToLower demo71_low (t_wrap0 demo71_conf ++ bs "-"))))) /\
  ServiceAutocomplete rb4 (fun l => l) demo99_index demo99_words (ToLower demo71_low) demo71_conf (bs "-+") 5 demo99_asched =
    Some (Ret [(of_int 0, bs "-"); (of_int 0, bs "-"); (of_int 0, bs "-+"); (of_int 0, bs "-+"); (of_int 0, bs "-+")]) /\
  zlen (Trim (ToLower demo71_low (t_wrap0 demo71_conf ++ bs ""))) < t_n demo71_conf.
Proof.
  split; [exact demo99_ok|]. split; [exact demo99_built|]. split; [|split; [|split; [|split]]].
  - cbn zeta. split; [|vm_compute; reflexivity]. intros Hn. match type of Hn with NoDup ?t => let v := eval vm_compute in t in change t with v in Hn end. inversion_clear Hn. apply H. left. reflexivity.
  - cbn zeta. split; [vm_compute; reflexivity|]. exists (bs "-+"). split; [right; left; reflexivity|vm_compute; discriminate].
  - split; [|vm_compute; discriminate]. unfold well_formed. vm_compute (runes _). repeat (apply Forall_cons; [intros [H _]; cbn in H; unfold RuneError in H; lia|]). apply Forall_nil.
  - vm_compute. reflexivity.
  - vm_compute. reflexivity.
Qed.
