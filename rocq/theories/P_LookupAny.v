(** C107: looking an entry of the dictionary up, for dictionaries whose entries may repeat
    n-grams - before or after the characters outside the alphabet are replaced. *)
From Coq Require Import String ZifyBool Permutation Sorted Reals Lra Lia.
From Flocq Require Import Core.Raux.
From Verif Require Import Base BaseLemmas GoMap Store StoreSpec Postings PostingsSpec PostingsDrive P_PostingsLemmas Merger MergerSpec MergerAnySpec MergerAny P_MergerLemmas
  Text TextProofs TextProofs2 Analysis AnalysisSpec AnalysisProofs AnalysisProofs2 P_AnalysisLemmas P_Analysis
  Index IndexSpec IndexProofs IndexProofs2 P_IndexLemmas P_Index SearchAny
  Float64 Metric MetricSpec MetricProofs FloatProofs MetricFloat MetricFloat2 MetricScore MetricWide P_Metric TopK TopKSpec TopKProofs Suggest SuggestSpec SuggestProofs SuggestProofs2 P_SuggestLemmas P_Suggest SuggestAnySpec SuggestAny P_Repeated
  Autocomplete AutocompleteSpec AutocompleteProofs AutocompleteAnySpec AutocompleteAny P_Autocomplete Mph P_Mph NGramIndex NGramIndexSpec NGramIndexProofs NGramIndexProofs2 P_NGramIndex NGramIndexAnySpec NGramIndexAny P_RepeatedDict P_AnyQuery P_FullAnswer.
Local Open Scope Z_scope.
Local Notation length := List.length.

Lemma feq_not_above x y : x <> S754_nan -> y <> S754_nan -> feq x y = true -> flt y x = false.
Proof.
  intros Hx Hy H. rewrite feq_rank in H by assumption. rewrite flt_rank by assumption. destruct (rank x) as [[a b] c], (rank y) as [[a' b'] c']. cbn [eq3 lt3] in *. lia.
Qed.

Section Self.
Context (rb : roaring) (ix : list (option inverted)) (docs : list (Z * list term)) (tokens : list term) (d : metric) (alpha : f64) (k : Z).
Context (Hq : query_any ix tokens d alpha k) (Hix : index_any rb ix docs).
(** An entry with the n-grams of the query is among the answers, with score 1, unless k answers
    are there that none of is worse. *)
Lemma self_any r i : good_copies ix docs tokens d alpha k r -> In (i, tokens) docs ->
  In (mkCand i f_one) r \/ (zlen r = k /\ forall c, In c r -> flt (Sc c) f_one = false /\ (feq (Sc c) f_one = true -> Key c <= i)).
Proof.
  intros (sims & L & Hs & (G1 & G2 & _) & Hlen & _ & rest & Hp & Hr) Hin.
  pose proof (q_alpha _ _ _ _ _ Hq) as Ha. pose proof (q_size _ _ _ _ _ Hq) as HA. pose proof (q_A _ _ _ _ _ Hq) as HA2. pose proof (q_min _ _ _ _ _ Hq) as Hmin.
  destruct val_one as [F1 V1].
  assert (cand_of d tokens (i, tokens) = mkCand i f_one) as Ec. { unfold cand_of. cbn [fst snd]. rewrite self_overlap, self_score by exact HA. reflexivity. }
  assert (forall c, In c r -> fin (Sc c)) as Hfr.
  { intros c Hc. assert (In c L) as Hi by (apply (Permutation_in _ (Permutation_sym Hp)), in_app_iff; left; exact Hc). destruct (G2 c Hi) as (doc' & m' & Hd' & -> & Hb' & Hm' & _). assert (1 <= zlen (snd doc')) as Hs1 by lia.
    destruct (full_sizes rb ix docs tokens d alpha k Hq Hix doc' m' Hd' Hs1 ltac:(lia)) as (X1 & X2 & X3). cbn [Sc]. apply score_wide; try assumption; lia. }
  destruct (eligible_any d alpha sims tokens (i, tokens)) eqn:E.
  - assert (In (cand_of d tokens (i, tokens)) (r ++ rest)) as Hi.
    { apply (Permutation_in _ Hp). apply G1; [exact Hin|exact E]. }
    rewrite Ec in Hi. apply in_app_iff in Hi. destruct Hi as [Hi|Hi]; [left; exact Hi|right]. split.
    { pose proof (Permutation_length Hp) as Hl. rewrite app_length in Hl. destruct rest as [|z rest]; [destruct Hi|]. cbn [length] in Hl. unfold zlen. lia. }
    intros c Hc. specialize (Hr c _ Hc Hi). unfold worse in Hr. cbn [Sc Key] in Hr. split.
    + destruct (flt (Sc c) f_one); [exfalso; apply Hr; left; reflexivity|reflexivity].
    + intros Ee. destruct (Z.le_gt_cases (Key c) i); [assumption|exfalso; apply Hr; right; split; [exact Ee|lia]].
  - right. unfold eligible_any, eligible in E. cbn zeta in E. cbn [snd] in E. rewrite self_overlap in E.
    destruct (identical_passes d alpha (zlen tokens) Ha HA (q_ov _ _ _ _ _ Hq)) as [I1 I2].
    assert (zlen tokens < Threshold d (sims (zlen tokens)) (zlen tokens) (zlen tokens)) as Hpr by lia. clear E.
    destruct (Hs (zlen tokens)) as [Eb|(H2 & H3 & Hrk & Hall)]; [rewrite Eb in Hpr; lia|]. split; [exact Hrk|].
    assert (fin (sims (zlen tokens))) as Fs.
    { destruct H3 as (m' & B' & M1 & _ & M2 & ->). apply score_wide; [exact HA| |exact M1|lia]. pose proof (q_ix _ _ _ _ _ Hq). unfold size_ok. lia. }
    apply (flt_val _ _ (proj1 Ha) Fs) in H2. destruct Ha as [Fa Va].
    assert (1 < val (sims (zlen tokens)))%R as Hw.
    { destruct (Rle_or_lt (val (sims (zlen tokens))) 1) as [Hs1|Hs1]; [exfalso|exact Hs1]. assert (alpha_ok (sims (zlen tokens))) as Hsb by (split; [exact Fs|lra]).
      destruct (identical_passes d _ (zlen tokens) Hsb HA (q_ov _ _ _ _ _ Hq)) as [_ I3]. lia. }
    intros c Hc. rewrite Forall_forall in Hall. specialize (Hall c Hc). pose proof (Hfr c Hc) as Fc. apply (fle_val _ _ Fs Fc) in Hall. split.
    + destruct (flt (Sc c) f_one) eqn:El; [exfalso; apply (flt_val _ _ Fc F1) in El; lra|reflexivity].
    + intros Ee. exfalso. assert (flt f_one (Sc c) = true) as H by (apply flt_val; [exact F1|exact Fc|lra]). rewrite feq_not_above in H; [discriminate| |discriminate|exact Ee]. intros En. rewrite En in Fc. destruct Fc as [_ Fc]. discriminate Fc.
Qed.
End Self.

(** Looking an entry up, under any spelling with the same n-grams, for every metric, every
    similarity from 1/32768 to 1 and every topK from 1: the entry is among the answers with score
    1, unless topK answers are there with no smaller scores, those with score 1 being
    the entry itself or earlier ones; and the first answer's score is not below 1. *)
Theorem C107_lookup : forall rb srt g ord name lowr d words ix query m alpha topK e,
  roaring_ok rb -> roaring_written rb -> gob_ok g -> order_ok ord -> sorter_ok srt ->
  dictionary_any lowr d words -> index_built rb g ord name lowr d words ix ->
  0 <= e < zlen words -> let q := entry_grams lowr d query in q = entry_grams lowr d (entry_at words e) ->
  1 <= zlen q <= 65535 -> (m = Overlap -> zlen q <= 32767) -> alpha_ok alpha -> 1 <= topK ->
  forall sched r, ServiceSuggest rb srt ix words (ToLower lowr) d query alpha m topK sched = Some r ->
  exists ans, r = Ret (map (fun a => (snd a, entry_at words (fst a))) ans) /\ zlen ans <= topK /\
    (forall a, In a ans -> 0 <= fst a < zlen words /\ fin (snd a)) /\
    (exists first others, ans = first :: others /\ flt (snd first) f_one = false) /\
    (In (e, f_one) ans \/ (zlen ans = topK /\ forall a, In a ans -> flt (snd a) f_one = false /\ (feq (snd a) f_one = true -> fst a <= e))).
Proof.
  intros rb srt g ord name lowr d words ix query m alpha topK e Hrb Hrw Hg Ho Hsrt Hdict Hb He q Eq Hq1 Hq2 Ha Hk sched r Hr.
  pose proof (dict_index_any rb g ord name lowr d words Hrb Hrw Hg Ho Hdict ix Hb) as Hok. pose proof (any_len rb lowr d words ix Hdict Hok) as Hlen.
  assert (query_any ix q m alpha topK) as Hq by (split; [exact Ha|]; split; [exact Hq1|]; split; [exact Hlen|]; split; assumption).
  assert (size_ok (zlen q)) as Hsz by (unfold size_ok; lia).
  assert (searchable ix q m alpha) as Hse.
  { eapply any_searchable; [exact Hok|]. exists (entry_at words e). split; [apply entry_in; exact He|]. rewrite <- Eq. apply (identical_passes m alpha (zlen q) Ha Hsz Hq2). }
  destruct (docs_good_any lowr d words Hdict) as (Hd & _). pose proof (proj1 Hok) as Hi.
  unfold ServiceSuggest in Hr. rewrite suggest_grams in Hr by (apply Hdict). fold q in Hr.
  destruct (run rb srt ix q m alpha topK sched (start ix q m alpha topK)) as [[s|r0|]|] eqn:Er; try discriminate.
  2:{ exfalso. destruct (C94_suggest_returns rb srt ix _ q m alpha topK sched _ Hq Hse Hd Hi Hsrt Er) as [(l & E)|(s & c & p' & E & _)]; discriminate. }
  injection Hr as <-. destruct (any_returns rb srt ix _ q m alpha topK Hq Hd Hi Hsrt sched r0 Hse Er) as (l & -> & Hg'). pose proof Hg' as (sims & L & Hsm & HL & Hbt). pose proof Hbt as (Hl & Hsort & rest & Hp & _). cbn [bind].
  assert (In (e, q) (docs_of lowr d words)) as Hin by (apply (doc_entry lowr d words); split; [exact He|exact Eq]).
  pose proof (self_any rb ix _ q m alpha topK Hq Hi l e Hg' Hin) as Hself.
  exists (map (fun c => (Key c, Sc c)) l).
  assert (forall c, In c l -> 0 <= Key c < zlen words /\ fin (Sc c)) as Hrange.
  { intros c Hc. assert (In c L) as HcL by (apply (Permutation_in _ (Permutation_sym Hp)), in_app_iff; left; exact Hc). destruct (proj1 (proj2 HL) c HcL) as ([x ts] & n & H1 & -> & H2 & H3 & _). cbn [Key Sc]. split; [apply (doc_entry lowr d words) in H1; apply H1|].
    pose proof (q_min _ _ _ _ _ Hq) as Hmin. assert (1 <= zlen (snd (x, ts))) as Hs1 by lia. destruct (full_sizes rb ix _ q m alpha topK Hq Hi (x, ts) n H1 Hs1 ltac:(lia)) as (X1 & X2 & X3). apply score_wide; try assumption; lia. }
  split; [|split; [|split; [|split]]].
  - f_equal. rewrite map_map. apply map_ext_in. intros c Hc. cbn [fst snd]. rewrite get_entry by (apply Hrange; exact Hc). reflexivity.
  - unfold zlen. rewrite map_length. lia.
  - intros a Hin'. apply in_map_iff in Hin'. destruct Hin' as (c & <- & Hc). apply Hrange. exact Hc.
  - destruct l as [|c l]. { exfalso. destruct Hself as [[]|[Hz _]]. unfold zlen in Hz. cbn [length] in Hz. lia. }
    exists (Key c, Sc c), (map (fun c => (Key c, Sc c)) l). split; [reflexivity|]. cbn [snd].
    destruct Hself as [[->|Hc]|[_ Hall]]; [reflexivity| |apply (Hall c (or_introl eq_refl))].
    inversion_clear Hsort. rewrite Forall_forall in H0. specialize (H0 _ Hc). unfold worse in H0. cbn [Sc Key] in H0. destruct (flt (Sc c) f_one); [exfalso; apply H0; left; reflexivity|reflexivity].
  - destruct Hself as [Hc|[Hz Hall]]; [left; apply in_map_iff; exists (mkCand e f_one); split; [reflexivity|exact Hc]|right]. split; [unfold zlen in *; rewrite map_length; exact Hz|].
    intros a Hin'. apply in_map_iff in Hin'. destruct Hin' as (c & <- & Hc). exact (Hall c Hc).
Qed.
Print Assumptions C107_lookup.

(** The hypotheses are met, by an entry that repeats an n-gram under a spelling it is not
    written in, and the similarity 1. *)
Definition look107_query : list bytes := entry_grams demo71_low demo71_conf (bs "+-").
Definition look107_sched (k : Z) : list choice := sauto99 300 look107_query Jaccard f_one k (Suggest.start demo99_index look107_query Jaccard f_one k).
Example C107_nonvacuous : dictionary_any demo71_low demo71_conf demo99_words /\
  index_built rb4 gob1 (fun _ m => rev m) "x" demo71_low demo71_conf demo99_words demo99_index /\
  look107_query = entry_grams demo71_low demo71_conf (entry_at demo99_words 1) /\ ~ NoDup look107_query /\ 1 <= zlen look107_query <= 65535 /\ alpha_ok f_one /\
  ServiceSuggest rb4 (fun l => l) demo99_index demo99_words (ToLower demo71_low) demo71_conf (bs "+-") f_one Jaccard 2 (look107_sched 2) = Some (Ret [(f_one, bs "-+"); (f_one, bs "-+")]) /\
  ServiceSuggest rb4 (fun l => l) demo99_index demo99_words (ToLower demo71_low) demo71_conf (bs "+-") f_one Jaccard 1 (look107_sched 1) = Some (Ret [(f_one, bs "-+")]).
Proof.
  split; [exact demo99_ok|]. split; [exact demo99_built|]. split; [vm_compute; reflexivity|]. split; [|split; [|split; [|split]]].
  - intros Hn. match type of Hn with NoDup ?t => let v := eval vm_compute in t in change t with v in Hn end.
    repeat match goal with H : NoDup (_ :: _) |- _ => inversion_clear H end. cbn in *. intuition discriminate.
  - vm_compute. split; intros H; discriminate H.
  - split; [exact (proj1 val_one)|rewrite (proj2 val_one); lra].
  - vm_compute. reflexivity.
  - vm_compute. reflexivity.
Qed.
