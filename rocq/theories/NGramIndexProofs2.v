(** Proofs for C72: identical sets are found with score 1. *)
From Coq Require Import String ZifyBool Permutation Sorted Reals Lra Lia.
From Flocq Require Import Core.Raux.
From Verif Require Import Base BaseLemmas GoMap Store StoreSpec Postings PostingsSpec PostingsDrive P_PostingsLemmas Merger MergerSpec P_MergerLemmas
  Text TextProofs TextProofs2 Analysis AnalysisSpec AnalysisProofs AnalysisProofs2 P_AnalysisLemmas P_Analysis
  Index IndexSpec IndexProofs IndexProofs2 P_IndexLemmas P_Index
  Float64 Metric MetricSpec MetricProofs FloatProofs MetricFloat MetricFloat2 MetricScore P_Metric TopK TopKSpec TopKProofs Suggest SuggestSpec SuggestProofs SuggestProofs2 P_SuggestLemmas P_Suggest
  Autocomplete AutocompleteSpec AutocompleteProofs P_Autocomplete Mph NGramIndex NGramIndexSpec NGramIndexProofs.
Local Open Scope Z_scope.

(** ** identical sets *)
Lemma self_overlap (ts : list term) : overlap_of ts ts = zlen ts.
Proof.
  unfold overlap_of. f_equal. assert (forall l, incl l ts -> filter (fun t => existsb (beqb t) ts) l = l) as H; [|apply H; intros x; auto].
  induction l as [|x l IH]; intros Hi; [reflexivity|]. cbn [filter]. replace (existsb (beqb x) ts) with true; [f_equal; apply IH; intros y Hy; apply Hi; right; exact Hy|].
  symmetry. apply existsb_exists. exists x. split; [apply Hi; left; reflexivity|apply (eqb_refl _ beqb_ok)].
Qed.
Lemma self_score d A : size_ok A -> Score d A A A = f_one.
Proof.
  intros HA. destruct (metric_eq_dec d Exact) as [->|Hd]; [vm_compute; reflexivity|]. pose proof (size_R A HA) as HAr. pose proof HA as HA'. unfold size_ok in HA'.
  destruct (quot_val d A A A Hd HA HA) as (q & -> & Fq & Vq & Hq & H1 & H2 & Es); [lia|lia|lia|].
  assert (rnd (den d A A A) = den d A A A) as Ed.
  { destruct d; cbn [den]; try congruence.
    - rewrite sqrt_square by lra. apply rnd_fmt, fmt_A. exact HA.
    - apply rnd_fmt. rewrite <- plus_IZR. apply fmt_int. lia.
    - apply rnd_fmt. replace (IZR A + IZR A - IZR A)%R with (IZR A) by ring. apply fmt_A. exact HA.
    - replace (Rmin (IZR A) (IZR A)) with (IZR A) by (unfold Rmin; destruct (Rle_dec _ _); reflexivity). apply rnd_fmt, fmt_A. exact HA. }
  assert (MetricScore.num d A / den d A A A = 1)%R as E1.
  { destruct d; cbn [den MetricScore.num]; try congruence.
    - rewrite sqrt_square by lra. field. lra.
    - field. lra.
    - field. lra.
    - replace (Rmin (IZR A) (IZR A)) with (IZR A) by (unfold Rmin; destruct (Rle_dec _ _); reflexivity). field. lra. }
  rewrite Ed, E1 in Vq. rewrite (rnd_fmt 1 fmt_1) in Vq. destruct (score_of q Fq ltac:(lra)) as [Fs Vs].
  destruct val_one as [F1 V1]. assert (val (fsub f_one (fsub f_one q)) = 1)%R as V.
  { rewrite Vs, Vq. replace (1 - 1)%R with 0%R by ring. assert (rnd 0 = 0)%R as -> by (apply rnd_fmt; apply (fmt_int 0); lia). replace (1 - 0)%R with 1%R by ring. apply rnd_fmt, fmt_1. }
  apply val_inj; [exact Fs|exact F1|lra|lra].
Qed.
(* score 1: the same set, except for the overlap metric *)
Lemma score_one_same d m A B : d <> Exact -> d <> Overlap -> (1 <= A <= 65535)%Z -> size_ok B -> (0 <= m)%Z -> (m <= A)%Z -> (m <= B)%Z -> Score d m A B = f_one -> m = A /\ m = B.
Proof.
  intros Hd Hov HA HB H0 H1 H2 E. assert (size_ok A) as HsA by (unfold size_ok; lia). destruct (score_accurate d m A B Hd HsA HB H0 H1 H2) as (_ & _ & Ha). rewrite E, (proj2 val_one) in Ha. apply Rabs_le_inv in Ha. unfold eps in Ha.
  pose proof (size_R B HB) as HBr. assert (1 <= IZR A <= 65535)%R as HAr by (split; apply IZR_le; lia). assert (0 <= IZR m <= IZR A)%R as Hm1 by (split; apply IZR_le; lia). assert (IZR m <= IZR B)%R as Hm2 by (apply IZR_le; lia).
  destruct d; try congruence; cbn [similarity] in Ha.
  - (* cosine *)
    set (a := IZR A) in *. set (b := IZR B) in *. set (x := IZR m) in *.
    assert (0 < sqrt (a * b))%R as Hsq by (apply sqrt_lt_R0; nra). assert (sqrt (a * b) * sqrt (a * b) = a * b)%R as Hss by (apply sqrt_sqrt; nra). set (s := sqrt (a * b)) in *.
    assert (x >= s * (1 - / 1125899906842624))%R as Hx. { assert (x / s >= 1 - / 1125899906842624)%R as H by lra. apply Rge_le in H. apply (Rmult_le_compat_r s) in H; [|lra]. unfold Rdiv in H. rewrite Rmult_assoc, Rinv_l, Rmult_1_r in H by lra. lra. }
    assert (x * x >= a * b * (1 - / 281474976710656))%R as Hxx. { assert (s * (1 - / 1125899906842624) * (s * (1 - / 1125899906842624)) <= x * x)%R by (apply Rmult_le_compat; nra). nra. }
    assert (a * b < 4398046511104)%R as Hab by nra.
    assert (A * B < m * m + 1)%Z as Hz. { apply lt_IZR. rewrite plus_IZR, !mult_IZR. fold a b x. lra. }
    assert (1 <= B)%Z by (unfold size_ok in HB; lia). clear - Hz HA H0 H1 H2 H. assert (m * m <= m * B)%Z by (apply Z.mul_le_mono_nonneg_l; lia). assert (m * m <= A * m)%Z by (apply Z.mul_le_mono_nonneg_r; lia).
    split; [destruct (Z.eq_dec m A); [assumption|exfalso]; assert ((m + 1) * B <= A * B)%Z by (apply Z.mul_le_mono_nonneg_r; lia); lia|].
    destruct (Z.eq_dec m B); [assumption|exfalso]; assert (A * (m + 1) <= A * B)%Z by (apply Z.mul_le_mono_nonneg_l; lia); lia.
  - set (a := IZR A) in *. set (b := IZR B) in *. set (x := IZR m) in *.
    assert (2 * x / (a + b) >= 1 - / 1125899906842624)%R as H by lra. apply Rge_le in H. apply (Rmult_le_compat_r (a + b)) in H; [|lra]. unfold Rdiv in H. rewrite Rmult_assoc, Rinv_l, Rmult_1_r in H by lra.
    assert (A + B < 2 * m + 1)%Z as Hz. { apply lt_IZR. rewrite !plus_IZR, mult_IZR. fold a b x. lra. } lia.
  - set (a := IZR A) in *. set (b := IZR B) in *. set (x := IZR m) in *.
    assert (x / (a + b - x) >= 1 - / 1125899906842624)%R as H by lra. apply Rge_le in H. apply (Rmult_le_compat_r (a + b - x)) in H; [|lra]. unfold Rdiv in H. rewrite Rmult_assoc, Rinv_l, Rmult_1_r in H by lra.
    assert (A + B - m < m + 1)%Z as Hz. { apply lt_IZR. rewrite minus_IZR, !plus_IZR. fold a b x. lra. } lia.
Qed.
Lemma all_common (q h : list bytes) : NoDup q -> NoDup h -> common q h = zlen q -> zlen q = zlen h -> forall t, In t q <-> In t h.
Proof.
  intros Nq Nh Hc Hz. assert (incl q h) as Hi.
  { intros t Ht. unfold common in Hc. assert (Forall (fun t => existsb (beqb t) h = true) q) as Hf.
    { clear - Hc. induction q as [|x q IH]; [constructor|]. cbn [filter] in Hc. destruct (existsb (beqb x) h) eqn:E; [constructor; [exact E|]; apply IH; rewrite !zlen_cons in Hc; lia|].
      exfalso. rewrite zlen_cons in Hc. assert (forall l, zlen (filter (fun t => existsb (beqb t) h) l) <= zlen l) as Hl by (induction l as [|y l IHl]; cbn [filter]; [lia|]; destruct (existsb (beqb y) h); rewrite ?zlen_cons; lia). specialize (Hl q). lia. }
    rewrite Forall_forall in Hf. specialize (Hf t Ht). apply existsb_exists in Hf. destruct Hf as (y & Hy & E). apply beqb_ok in E. subst. exact Hy. }
  intros t. split; [apply Hi|]. apply (NoDup_length_incl Nq); [unfold zlen in Hz; lia|exact Hi].
Qed.
Section Self.
Context (rb : roaring) (srt : list iter -> list iter) (ix : list (option inverted)) (docs : list (Z * list term)) (tokens : list term) (d : metric) (alpha : f64) (k : Z).
Context (Hq : query_ok ix tokens d alpha k) (Hdocs : docs_ok docs) (Hix : index_of rb ix docs).
Lemma self_found r i : good ix docs tokens d alpha k r -> In (i, tokens) docs ->
  In (cand_of d tokens (i, tokens)) r \/ (zlen r = k /\ forall c, In c r -> Key c <= i /\ Sc c = f_one).
Proof.
  intros (sims & Hs & Hlen & _ & rest & Hp & Hr) Hin. pose proof (q_alpha _ _ _ _ _ Hq) as Ha. pose proof (q_size _ _ _ _ _ Hq) as HA. pose proof (q_A _ _ _ _ _ Hq) as HA1.
  assert (sim_like ix tokens d alpha (sims (zlen tokens))) as Hsl by (destruct (Hs (zlen tokens)) as [->|(H2 & H3 & _)]; [left; reflexivity|right; split; assumption]).
  assert (alpha_ok (sims (zlen tokens))) as Hsb by (apply (sim_alpha_ok ix tokens d alpha Ha HA (q_ix _ _ _ _ _ Hq) (q_ov _ _ _ _ _ Hq) _ (q_nodup _ _ _ _ _ Hq)); exact Hsl).
  assert (eligible d alpha sims tokens (i, tokens) = true) as E.
  { unfold eligible. cbn [snd]. cbn zeta. rewrite self_overlap. destruct (identical_passes d alpha (zlen tokens) Ha HA (q_ov _ _ _ _ _ Hq)) as [H1 _]. destruct (identical_passes d _ (zlen tokens) Hsb HA (q_ov _ _ _ _ _ Hq)) as [_ H2]. lia. }
  assert (In (cand_of d tokens (i, tokens)) (r ++ rest)) as Hi by (apply (Permutation_in _ Hp); unfold answers; apply in_map, filter_In; split; assumption).
  apply in_app_iff in Hi. destruct Hi as [Hi|Hi]; [left; exact Hi|right]. split.
  { pose proof (Permutation_length Hp) as Hl. rewrite app_length in Hl. destruct rest as [|z rest]; [destruct Hi|]. cbn [length] in Hl. unfold zlen. lia. }
  intros c Hc. specialize (Hr c _ Hc Hi). unfold worse in Hr. cbn [cand_of Sc Key fst snd] in Hr. rewrite self_overlap, self_score in Hr by exact HA.
  assert (In c (answers d alpha sims tokens docs)) as Hi' by (apply (Permutation_in _ (Permutation_sym Hp)), in_app_iff; left; exact Hc).
  apply in_map_iff in Hi'. destruct Hi' as (doc' & <- & Hi'). apply filter_In in Hi'. destruct Hi' as [Hi' E']. destruct (d_sizes rb ix docs tokens d alpha k Hq Hix doc' Hi' (elig_size ix tokens d alpha k Hq _ _ E')) as ((Z1 & Z2 & Z3) & HB' & Hlt').
  destruct (score_fin ix tokens d HA (q_ix _ _ _ _ _ Hq) (q_ov _ _ _ _ _ Hq) (overlap_of tokens (snd doc')) (zlen (snd doc'))) as [Fs Vs]; [lia..|]. cbn [cand_of Sc Key] in *.
  destruct val_one as [F1 V1]. set (s := Score d (overlap_of tokens (snd doc')) (zlen tokens) (zlen (snd doc'))) in *. clearbody s.
  assert (s = f_one) as ->.
  { apply val_inj; [exact Fs|exact F1| |]; destruct (Rlt_or_le (val s) 1) as [Hl|Hl]; try lra; exfalso; apply Hr; left; apply flt_val; auto; lra. }
  split; [|reflexivity]. destruct (Z.le_gt_cases (fst doc') i); [assumption|exfalso]. apply Hr. right. split; [vm_compute; reflexivity|lia].
Qed.
End Self.
