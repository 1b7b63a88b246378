(** The computed filters are monotone in the similarity, but for Jaccard's threshold. *)
From Coq Require Import ZifyBool Reals Lra Lia Psatz.
From Flocq Require Import Core BinarySingleNaN Relative Mult_error.
From Verif Require Import Base BaseLemmas Float64 Metric MetricSpec MetricProofs FloatProofs MetricFloat MetricFloat2.
Local Open Scope R_scope.

Section S.
Variables (alpha beta : f64) (A B : Z).
Hypothesis Ha : alpha_ok alpha.
Hypothesis Hb : alpha_ok beta.
Hypothesis Hab : val alpha <= val beta.
Hypothesis HA : size_ok A.
Hypothesis HB : size_ok B.
Let a := val alpha.
Let b := val beta.
Lemma ceil_le x y : x <= y -> (Zceil x <= Zceil y)%Z. Proof. apply Zceil_le. Qed.
Lemma floor_le x y : x <= y -> (Zfloor x <= Zfloor y)%Z. Proof. apply Zfloor_le. Qed.
Lemma ranges : / 32768 <= a <= 1 /\ / 32768 <= b <= 1 /\ a <= b /\ 1 <= IZR A /\ 1 <= IZR B.
Proof. pose proof (size_R A HA). pose proof (size_R B HB). pose proof (proj2 Ha). pose proof (proj2 Hb). unfold a, b. lra. Qed.
Lemma div_le x y z w : 0 <= x <= z -> 0 < w <= y -> x / y <= z / w.
Proof. intros [H1 H2] [H3 H4]. apply Rmult_le_compat; try lra; [left; apply Rinv_0_lt_compat; lra|]. apply Rinv_le; lra. Qed.
Lemma min_mono d : (MinY d alpha A <= MinY d beta A)%Z.
Proof.
  destruct ranges as (Ra & Rb & Rab & RA & RB). destruct d.
  - destruct (min_cos alpha A B Ha HA HB) as (-> & _). destruct (min_cos beta A B Hb HA HB) as (-> & _). fold a b. apply ceil_le, rnd_le, Rmult_le_compat_r; [lra|]. apply rnd_le. nra.
  - destruct (min_dice alpha A B Ha HA HB) as (-> & _). destruct (min_dice beta A B Hb HA HB) as (-> & _). fold a b. apply ceil_le, rnd_le, Rmult_le_compat_r; [lra|]. apply rnd_le.
    pose proof (two_minus_le alpha A B Ha HA HB) as H1. pose proof (two_minus_le beta A B Hb HA HB) as H2. fold a in H1. fold b in H2. apply div_le; [lra|]. split; [lra|]. apply rnd_le. lra.
  - cbn [MinY]. lia.
  - destruct (min_jac alpha A B Ha HA HB) as (-> & _). destruct (min_jac beta A B Hb HA HB) as (-> & _). fold a b. apply ceil_le, rnd_le, Rmult_le_compat_r; lra.
  - cbn [MinY]. lia.
Qed.
Lemma max_mono d : (MaxY d beta A <= MaxY d alpha A)%Z.
Proof.
  destruct ranges as (Ra & Rb & Rab & RA & RB). destruct d.
  - destruct (max_cos alpha A B Ha HA HB) as (-> & _). destruct (max_cos beta A B Hb HA HB) as (-> & _). fold a b. apply floor_le, rnd_le.
    pose proof (sq_le alpha A B Ha HA HB) as H1. pose proof (sq_le beta A B Hb HA HB) as H2. fold a in H1. fold b in H2. apply div_le; [lra|]. split; [lra|]. apply rnd_le. nra.
  - destruct (max_dice alpha A B Ha HA HB) as (-> & _). destruct (max_dice beta A B Hb HA HB) as (-> & _). fold a b. apply floor_le, rnd_le, Rmult_le_compat_r; [lra|]. apply rnd_le.
    pose proof (two_minus_le beta A B Hb HA HB) as H2. fold b in H2. apply div_le; [|lra]. split; [lra|]. apply rnd_le. lra.
  - cbn [MaxY]. lia.
  - destruct (max_jac alpha A B Ha HA HB) as (-> & _). destruct (max_jac beta A B Hb HA HB) as (-> & _). fold a b. apply floor_le, rnd_le. apply div_le; lra.
  - cbn [MaxY]. lia.
Qed.
Lemma thr_mono d : d <> Jaccard -> (Threshold d alpha A B <= Threshold d beta A B)%Z.
Proof.
  intros Hd. destruct ranges as (Ra & Rb & Rab & RA & RB). destruct d; try congruence.
  - destruct (thr_cos alpha A B Ha HA HB) as (-> & _). destruct (thr_cos beta A B Hb HA HB) as (-> & _). fold a b. apply ceil_le, rnd_le, Rmult_le_compat_r; [|lra].
    apply rnd_ge_fmt; [apply (fmt_int 0); lia|apply sqrt_pos].
  - destruct (thr_dice alpha A B Ha HA HB) as (-> & _). destruct (thr_dice beta A B Hb HA HB) as (-> & _). fold a b. apply ceil_le, rnd_le, Rmult_le_compat_r; [lra|]. apply rnd_le. lra.
  - cbn [Threshold]. lia.
  - destruct (thr_ov alpha A B Ha HA HB) as (-> & _). destruct (thr_ov beta A B Hb HA HB) as (-> & _). fold a b. apply ceil_le, rnd_le, Rmult_le_compat_r; [|lra]. unfold Rmin. destruct (Rle_dec _ _); lra.
Qed.
(** apart by a relative 2^-45, the same for Jaccard *)
Lemma thr_mono_apart d : a * (1 + / 2 ^ 45) <= b -> (Threshold d alpha A B <= Threshold d beta A B)%Z.
Proof.
  intros Hd. destruct ranges as (Ra & Rb & Rab & RA & RB). assert (d <> Jaccard \/ d = Jaccard) as [H| ->] by (destruct d; auto; left; discriminate); [apply thr_mono; exact H|].
  destruct (thr_jac alpha A B Ha HA HB) as (-> & _ & _ & H1). destruct (thr_jac beta A B Hb HA HB) as (-> & _ & H2 & _). fold a in H1. fold b in H2. apply ceil_le.
  eapply Rle_trans; [exact H1|]. eapply Rle_trans; [|exact H2]. assert (u = / 9007199254740992) as Hu by reflexivity.
  set (s := IZR A + IZR B) in *. assert (2 <= s) by (unfold s; lra).
  assert (a * (1 + 10 * u) * (1 + b) <= b * (1 - 10 * u) * (1 + a)) as Hc by (rewrite Hu; nra).
  replace (a * s / (1 + a) * (1 + 10 * u)) with (s * (a * (1 + 10 * u) / (1 + a))) by (field; lra).
  replace (b * s / (1 + b) * (1 - 10 * u)) with (s * (b * (1 - 10 * u) / (1 + b))) by (field; lra). apply Rmult_le_compat_l; [lra|].
  apply div_le_iff; [lra|]. replace (b * (1 - 10 * u) / (1 + b) * (1 + a)) with (b * (1 - 10 * u) * (1 + a) / (1 + b)) by (field; lra). apply le_div_iff; [lra|]. exact Hc.
Qed.
End S.

(** ** The filters of the metrics at the same similarity *)
Section N.
Variables (alpha : f64) (A B : Z).
Hypothesis Ha : alpha_ok alpha.
Hypothesis HA : size_ok A.
Hypothesis HB : size_ok B.
Let a := val alpha.
Lemma nranges : / 32768 <= a <= 1 /\ 1 <= IZR A <= 67108864 /\ 1 <= IZR B <= 67108864.
Proof. pose proof (size_R A HA). pose proof (size_R B HB). pose proof (proj2 Ha). unfold a. lra. Qed.
Lemma fmt_half x : fmt x -> / 32768 <= x -> fmt (/ 2 * x).
Proof.
  intros Hx Hl. replace (/ 2 * x) with (x * bpow radix2 (-1)) by (cbn; lra). apply (mult_bpow_exact_FLT radix2 (-1074) 53); [exact Hx|].
  assert (-14 <= mag radix2 x)%Z; [|lia]. apply mag_ge_bpow. rewrite Rabs_pos_eq by lra. change (bpow radix2 (-14 - 1)) with (/ IZR (Z.pow_pos 2 15)). change (Z.pow_pos 2 15) with 32768%Z. exact Hl.
Qed.
Lemma ceil_between x y : IZR (Zceil y) - 1 < x -> (Zceil y <= Zceil x)%Z.
Proof. intros H. enough (Zceil y - 1 < Zceil x)%Z by lia. apply lt_IZR. rewrite minus_IZR. pose proof (Zceil_ub x). lra. Qed.
Lemma thr_ov_cos : (Threshold Overlap alpha A B <= Threshold Cosine alpha A B)%Z.
Proof.
  destruct nranges as (Ra & RA & RB). destruct (thr_ov alpha A B Ha HA HB) as (-> & _). destruct (thr_cos alpha A B Ha HA HB) as (-> & _). fold a. apply Zceil_le, rnd_le, Rmult_le_compat_l; [lra|].
  apply rnd_ge_fmt; [unfold Rmin; destruct (Rle_dec _ _); [apply fmt_int; destruct HA; lia|apply fmt_int; destruct HB; lia]|].
  rewrite <- (sqrt_square (Rmin (IZR A) (IZR B))) by (unfold Rmin; destruct (Rle_dec _ _); lra). apply sqrt_le_1_alt. unfold Rmin. destruct (Rle_dec _ _); nra.
Qed.
Lemma thr_cos_dice : (Threshold Cosine alpha A B <= Threshold Dice alpha A B)%Z.
Proof.
  destruct nranges as (Ra & RA & RB). destruct (thr_cos alpha A B Ha HA HB) as (-> & _). destruct (thr_dice alpha A B Ha HA HB) as (-> & _). fold a. apply Zceil_le, rnd_le.
  rewrite (rnd_fmt (/ 2 * a)) by (apply fmt_half; [apply fin_fmt, Ha|lra]). replace (/ 2 * a * (IZR A + IZR B)) with (a * (/ 2 * (IZR A + IZR B))) by ring. apply Rmult_le_compat_l; [lra|].
  apply rnd_le_fmt; [apply fmt_half; [rewrite <- plus_IZR; apply fmt_int; destruct HA, HB; lia|lra]|].
  rewrite <- (sqrt_square (/ 2 * (IZR A + IZR B))) by lra. apply sqrt_le_1_alt. assert (0 <= (IZR A - IZR B) * (IZR A - IZR B)) by (apply Rle_0_sqr). nra.
Qed.
Lemma thr_dice_jac : (Threshold Dice alpha A B <= Threshold Jaccard alpha A B)%Z.
Proof.
  destruct nranges as (Ra & RA & RB). assert (u = / 9007199254740992) as Hu by reflexivity.
  destruct (thr_dice alpha A B Ha HA HB) as (-> & _ & _ & H1). destruct (thr_jac alpha A B Ha HA HB) as (-> & _ & H2 & _). fold a in H1, H2 |- *. set (s := IZR A + IZR B) in *. assert (2 <= s <= 134217728) as Hs by (unfold s; lra).
  set (v := rnd (rnd (a * s) / rnd (1 + a))) in *.
  destruct (Rle_or_lt a (1 - 64 * u)) as [Hc|Hc].
  - apply Zceil_le. eapply Rle_trans; [exact H1|]. eapply Rle_trans; [|exact H2]. replace (a * s / (1 + a) * (1 - 10 * u)) with (a * s * (1 - 10 * u) / (1 + a)) by (field; lra). apply le_div_iff; [lra|].
    replace (/ 2 * a * s * (1 + 4 * u) * (1 + a)) with (a * s * (/ 2 * (1 + 4 * u) * (1 + a))) by ring. apply Rmult_le_compat_l; [nra|]. rewrite Hu in *. nra.
  - assert (rnd (rnd (/ 2 * a) * s) <= / 2 * s) as H3.
    { apply rnd_le_fmt; [apply fmt_half; [unfold s; rewrite <- plus_IZR; apply fmt_int; destruct HA, HB; lia|lra]|]. apply Rmult_le_compat_r; [lra|].
      rewrite (rnd_fmt (/ 2 * a)) by (apply fmt_half; [apply fin_fmt, Ha|lra]). lra. }
    apply Z.le_trans with (Zceil (/ 2 * s)); [apply Zceil_le; exact H3|]. apply ceil_between.
    assert (IZR (Zceil (/ 2 * s)) <= / 2 * s + / 2) as H4.
    { assert (exists n, s = IZR n) as (n & En) by (exists (A + B)%Z; unfold s; rewrite plus_IZR; reflexivity). rewrite En. replace (/ 2 * IZR n + / 2) with (IZR (n + 1) / 2) by (rewrite plus_IZR; lra).
      assert (Zceil (/ 2 * IZR n) <= (n + 1) / 2)%Z as H5.
      { apply Zceil_glb. assert (n <= 2 * ((n + 1) / 2))%Z as H6 by (pose proof (Z.div_mod (n + 1) 2 ltac:(lia)); pose proof (Z.mod_pos_bound (n + 1) 2 ltac:(lia)); lia). apply IZR_le in H6. rewrite mult_IZR in H6. lra. }
      assert (2 * Zceil (/ 2 * IZR n) <= n + 1)%Z as H7 by (pose proof (Z.div_mod (n + 1) 2 ltac:(lia)); pose proof (Z.mod_pos_bound (n + 1) 2 ltac:(lia)); lia). apply IZR_le in H7. rewrite mult_IZR in H7. lra. }
    assert (/ 2 * s * (1 - 256 * u) <= a * s / (1 + a) * (1 - 10 * u)) as H5.
    { replace (a * s / (1 + a) * (1 - 10 * u)) with (s * (a * (1 - 10 * u) / (1 + a))) by (field; lra). replace (/ 2 * s * (1 - 256 * u)) with (s * (/ 2 * (1 - 256 * u))) by ring. apply Rmult_le_compat_l; [lra|]. apply le_div_iff; [lra|]. rewrite Hu in *. nra. }
    rewrite Hu in *. nra.
Qed.
Lemma min_ov_cos : (MinY Overlap alpha A <= MinY Cosine alpha A)%Z.
Proof.
  destruct nranges as (Ra & RA & RB). destruct (min_cos alpha A B Ha HA HB) as (-> & Hr & _). cbn [MinY]. apply rel_pos in Hr; [|unfold u; lra]. fold a in Hr |- *. apply lt_IZR in Hr || idtac.
  enough (0 < Zceil (rnd (rnd (a * a) * IZR A)))%Z by lia. apply lt_IZR. pose proof (Zceil_ub (rnd (rnd (a * a) * IZR A))). lra.
Qed.
Lemma min_dice_jac : (MinY Dice alpha A <= MinY Jaccard alpha A)%Z.
Proof.
  destruct nranges as (Ra & RA & RB). destruct (min_dice alpha A B Ha HA HB) as (-> & _). destruct (min_jac alpha A B Ha HA HB) as (-> & _). fold a. apply Zceil_le, rnd_le, Rmult_le_compat_r; [lra|].
  apply rnd_le_fmt; [apply fin_fmt, Ha|]. pose proof (two_minus_le alpha A B Ha HA HB) as H1. fold a in H1. apply div_le_iff; [lra|]. nra.
Qed.
Hypothesis HA' : (A <= 65535)%Z.
Lemma small_A : IZR A <= 65535. Proof. apply IZR_le. exact HA'. Qed.
Lemma min_cos_dice : (MinY Cosine alpha A <= MinY Dice alpha A)%Z.
Proof.
  destruct nranges as (Ra & RA & RB). pose proof small_A as Rs. assert (u = / 9007199254740992) as Hu by reflexivity.
  destruct (min_cos alpha A B Ha HA HB) as (-> & (_ & _ & H1) & H1'). destruct (min_dice alpha A B Ha HA HB) as (-> & (_ & H2 & _) & _). fold a in H1, H1', H2 |- *.
  destruct (Rle_or_lt a (1 - / 16777216)) as [Hc|Hc].
  - apply Zceil_le. eapply Rle_trans; [exact H1|]. eapply Rle_trans; [|exact H2]. replace (a / (2 - a) * IZR A * (1 - 8 * u)) with (IZR A * (a * (1 - 8 * u) / (2 - a))) by (field; lra).
    replace (a * a * IZR A * (1 + 4 * u)) with (IZR A * (a * a * (1 + 4 * u))) by ring. apply Rmult_le_compat_l; [lra|]. apply le_div_iff; [lra|].
    replace (a * a * (1 + 4 * u) * (2 - a)) with (a * ((1 - (1 - a) * (1 - a)) * (1 + 4 * u))) by ring. apply Rmult_le_compat_l; [lra|]. assert (/ 16777216 * / 16777216 <= (1 - a) * (1 - a)) by nra. rewrite Hu in *. nra.
  - apply Z.le_trans with (Zceil (IZR A)); [apply Zceil_le; exact H1'|]. apply ceil_between. rewrite Zceil_IZR. eapply Rlt_le_trans; [|exact H2].
    assert (1 - / 4194304 <= a / (2 - a) * (1 - 8 * u)) as H3. { replace (a / (2 - a) * (1 - 8 * u)) with (a * (1 - 8 * u) / (2 - a)) by (field; lra). apply le_div_iff; [lra|]. rewrite Hu in *. nra. }
    replace (a / (2 - a) * IZR A * (1 - 8 * u)) with (IZR A * (a / (2 - a) * (1 - 8 * u))) by ring. nra.
Qed.
Lemma floor_between x y n : x < IZR n + 1 -> IZR n <= y -> (Zfloor x <= Zfloor y)%Z.
Proof.
  intros H1 H2. apply Z.le_trans with n; [|apply Zfloor_lub; exact H2]. enough (Zfloor x < n + 1)%Z by lia. apply lt_IZR. rewrite plus_IZR. pose proof (Zfloor_lb x). lra.
Qed.
Lemma max_jac_dice : (MaxY Jaccard alpha A <= MaxY Dice alpha A)%Z.
Proof.
  destruct nranges as (Ra & RA & RB). pose proof small_A as Rs. assert (u = / 9007199254740992) as Hu by reflexivity.
  destruct (max_jac alpha A B Ha HA HB) as (-> & (_ & _ & H1) & _). destruct (max_dice alpha A B Ha HA HB) as (-> & (_ & H2 & _) & H3). fold a in H1, H2, H3 |- *.
  destruct (Rle_or_lt a (1 - 32 * u)) as [Hc|Hc].
  - apply Zfloor_le. eapply Rle_trans; [exact H1|]. eapply Rle_trans; [|exact H2]. replace ((2 - a) / a * IZR A * (1 - 8 * u)) with (IZR A / a * ((2 - a) * (1 - 8 * u))) by (field; lra).
    apply Rmult_le_compat_l; [apply Rmult_le_pos; [lra|left; apply Rinv_0_lt_compat; lra]|]. rewrite Hu in *. nra.
  - apply (floor_between _ _ A); [|exact H3]. eapply Rle_lt_trans; [exact H1|]. replace (IZR A / a * (1 + 2 * u)) with (IZR A * ((1 + 2 * u) / a)) by (field; lra).
    assert ((1 + 2 * u) / a <= 1 + / 1048576) as H4 by (apply div_le_iff; [lra|]; rewrite Hu in *; nra). nra.
Qed.
Lemma max_dice_cos : (MaxY Dice alpha A <= MaxY Cosine alpha A)%Z.
Proof.
  destruct nranges as (Ra & RA & RB). pose proof small_A as Rs. assert (u = / 9007199254740992) as Hu by reflexivity.
  destruct (max_dice alpha A B Ha HA HB) as (-> & (_ & _ & H1) & _). destruct (max_cos alpha A B Ha HA HB) as (-> & (_ & H2 & _) & H3). fold a in H1, H2, H3 |- *.
  destruct (Rle_or_lt a (1 - / 16777216)) as [Hc|Hc].
  - apply Zfloor_le. eapply Rle_trans; [exact H1|]. eapply Rle_trans; [|exact H2]. replace (IZR A / (a * a) * (1 - 6 * u)) with (IZR A / a * ((1 - 6 * u) / a)) by (field; lra).
    replace ((2 - a) / a * IZR A * (1 + 8 * u)) with (IZR A / a * ((2 - a) * (1 + 8 * u))) by (field; lra).
    apply Rmult_le_compat_l; [apply Rmult_le_pos; [lra|left; apply Rinv_0_lt_compat; lra]|]. apply le_div_iff; [lra|]. replace ((2 - a) * (1 + 8 * u) * a) with ((1 - (1 - a) * (1 - a)) * (1 + 8 * u)) by ring.
    assert (/ 16777216 * / 16777216 <= (1 - a) * (1 - a)) by nra. rewrite Hu in *. nra.
  - apply (floor_between _ _ A); [|exact H3]. eapply Rle_lt_trans; [exact H1|]. replace ((2 - a) / a * IZR A * (1 + 8 * u)) with (IZR A * ((2 - a) * (1 + 8 * u) / a)) by (field; lra).
    assert ((2 - a) * (1 + 8 * u) / a <= 1 + / 1048576) as H4 by (apply div_le_iff; [lra|]; rewrite Hu in *; nra). nra.
Qed.
End N.
