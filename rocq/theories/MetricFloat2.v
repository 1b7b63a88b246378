(** The computed filters against the real similarities (C36, C37). *)
From Coq Require Import ZifyBool Reals Lra Lia Psatz.
From Flocq Require Import Core BinarySingleNaN Relative.
From Verif Require Import Base BaseLemmas Float64 Metric MetricSpec MetricProofs FloatProofs MetricFloat.
Local Open Scope R_scope.

Definition delta : R := / 70368744177664.   (* 2^-46 *)
Lemma delta_u : delta = 128 * u. Proof. unfold delta, u. lra. Qed.
Lemma u_pos : 0 < u < / 1000000. Proof. unfold u. lra. Qed.

Section S.
Variables (alpha : f64) (A B : Z).
Hypothesis Ha : alpha_ok alpha.
Hypothesis HA : size_ok A.
Hypothesis HB : size_ok B.
Let a := val alpha.
Lemma thr_rel d : d <> Exact -> exists v, Threshold d alpha A B = Zceil v /\ rel (10 * u) (ideal_threshold d a A B) v.
Proof.
  intros Hd. pose proof u_pos. destruct d; try congruence; cbn [ideal_threshold].
  - destruct (thr_cos alpha A B Ha HA HB) as [E R]. eexists. split; [exact E|]. eapply rel_weaken; [|exact R]. lra.
  - destruct (thr_dice alpha A B Ha HA HB) as [E R]. eexists. split; [exact E|]. eapply rel_weaken; [|exact R]. lra.
  - destruct (thr_jac alpha A B Ha HA HB) as [E R]. eexists. split; [exact E|]. exact R.
  - destruct (thr_ov alpha A B Ha HA HB) as [E R]. eexists. split; [exact E|]. eapply rel_weaken; [|exact R]. lra.
Qed.
Lemma min_rel d : d <> Exact -> exists v, MinY d alpha A = Zceil v /\ rel (8 * u) (ideal_min d a A) v /\ v <= IZR A.
Proof.
  intros Hd. pose proof u_pos. pose proof (size_R A HA). destruct d; try congruence; cbn [ideal_min].
  - destruct (min_cos alpha A B Ha HA HB) as (E & R & Hl). eexists. split; [exact E|]. split; [|exact Hl]. eapply rel_weaken; [|exact R]. lra.
  - destruct (min_dice alpha A B Ha HA HB) as (E & R & Hl). eexists. split; [exact E|]. split; [|exact Hl]. exact R.
  - destruct (min_jac alpha A B Ha HA HB) as (E & R & Hl). eexists. split; [exact E|]. split; [|exact Hl]. eapply rel_weaken; [|exact R]. lra.
  - exists 1. rewrite (Zceil_IZR 1). split; [reflexivity|]. split; [unfold rel; lra|lra].
Qed.
Lemma max_rel d : d <> Exact -> exists v, MaxY d alpha A = Zfloor v /\ rel (8 * u) (ideal_max d a A) v /\ (d <> Overlap -> IZR A <= v) /\ (d = Overlap -> v = 32767).
Proof.
  intros Hd. pose proof u_pos. pose proof (size_R A HA). destruct d; try congruence; cbn [ideal_max].
  - destruct (max_cos alpha A B Ha HA HB) as (E & R & Hl). eexists. split; [exact E|]. split; [|split; [intros _; exact Hl|discriminate]]. eapply rel_weaken; [|exact R]. lra.
  - destruct (max_dice alpha A B Ha HA HB) as (E & R & Hl). eexists. split; [exact E|]. split; [|split; [intros _; exact Hl|discriminate]]. exact R.
  - destruct (max_jac alpha A B Ha HA HB) as (E & R & Hl). eexists. split; [exact E|]. split; [|split; [intros _; exact Hl|discriminate]]. eapply rel_weaken; [|exact R]. lra.
  - exists 32767. rewrite (Zfloor_IZR 32767). split; [reflexivity|]. split; [unfold rel; lra|split; [congruence|reflexivity]].
Qed.
(* how the ideal formulas change with the similarity *)
Lemma thr_up d : d <> Exact -> ideal_threshold d a A B * (1 + 10 * u) <= ideal_threshold d (a * (1 + delta)) A B.
Proof.
  intros Hd. pose proof u_pos. rewrite delta_u. destruct Ha as [_ Hr]. fold a in Hr. pose proof (size_R A HA). pose proof (size_R B HB). destruct d; try congruence; cbn [ideal_threshold].
  - pose proof (sqrt_range alpha A B Ha HA HB). set (s := sqrt _) in *. replace (a * (1 + 128 * u) * s) with (a * s * (1 + 128 * u)) by ring. apply Rmult_le_compat_l; [nra|lra].
  - replace (/ 2 * (a * (1 + 128 * u)) * (IZR A + IZR B)) with (/ 2 * a * (IZR A + IZR B) * (1 + 128 * u)) by ring. apply Rmult_le_compat_l; [nra|lra].
  - set (S := IZR A + IZR B). assert (2 <= S) by (unfold S; lra). apply le_div_iff; [nra|].
    unfold Rdiv. replace (a * S * / (1 + a) * (1 + 10 * u) * (1 + a * (1 + 128 * u))) with (a * S * ((1 + 10 * u) * (1 + a * (1 + 128 * u)) / (1 + a))) by (field; lra).
    replace (a * (1 + 128 * u) * S) with (a * S * (1 + 128 * u)) by ring. apply Rmult_le_compat_l; [nra|]. apply div_le_iff; [lra|]. nra.
  - assert (1 <= Rmin (IZR A) (IZR B)) by (unfold Rmin; destruct (Rle_dec _ _); lra). set (s := Rmin _ _) in *. replace (a * (1 + 128 * u) * s) with (a * s * (1 + 128 * u)) by ring. apply Rmult_le_compat_l; [nra|lra].
Qed.
Lemma thr_down d : d <> Exact -> ideal_threshold d (a * (1 - delta)) A B <= ideal_threshold d a A B * (1 - 10 * u).
Proof.
  intros Hd. pose proof u_pos. rewrite delta_u. destruct Ha as [_ Hr]. fold a in Hr. pose proof (size_R A HA). pose proof (size_R B HB). destruct d; try congruence; cbn [ideal_threshold].
  - pose proof (sqrt_range alpha A B Ha HA HB). set (s := sqrt _) in *. replace (a * (1 - 128 * u) * s) with (a * s * (1 - 128 * u)) by ring. apply Rmult_le_compat_l; [nra|lra].
  - replace (/ 2 * (a * (1 - 128 * u)) * (IZR A + IZR B)) with (/ 2 * a * (IZR A + IZR B) * (1 - 128 * u)) by ring. apply Rmult_le_compat_l; [nra|lra].
  - set (S := IZR A + IZR B). assert (2 <= S) by (unfold S; lra). apply div_le_iff; [nra|].
    unfold Rdiv. replace (a * S * / (1 + a) * (1 - 10 * u) * (1 + a * (1 - 128 * u))) with (a * S * ((1 - 10 * u) * (1 + a * (1 - 128 * u)) / (1 + a))) by (field; lra).
    replace (a * (1 - 128 * u) * S) with (a * S * (1 - 128 * u)) by ring. apply Rmult_le_compat_l; [nra|]. apply le_div_iff; [lra|]. nra.
  - assert (1 <= Rmin (IZR A) (IZR B)) by (unfold Rmin; destruct (Rle_dec _ _); lra). set (s := Rmin _ _) in *. replace (a * (1 - 128 * u) * s) with (a * s * (1 - 128 * u)) by ring. apply Rmult_le_compat_l; [nra|lra].
Qed.
Lemma min_up d : d <> Exact -> d <> Overlap -> ideal_min d a A * (1 + 8 * u) <= ideal_min d (a * (1 + delta)) A.
Proof.
  intros Hd Ho. pose proof u_pos. rewrite delta_u. destruct Ha as [_ Hr]. fold a in Hr. pose proof (size_R A HA). destruct d; try congruence; cbn [ideal_min].
  - assert (0 < a * a) by nra. assert (a * a * (1 + 8 * u) <= a * (1 + 128 * u) * (a * (1 + 128 * u))) by nra. nra.
  - assert (a * (1 + 128 * u) / (2 - a * (1 + 128 * u)) >= a / (2 - a) * (1 + 8 * u)).
    { apply div_ge; [nra|]. unfold Rdiv. replace (a * / (2 - a) * (1 + 8 * u) * (2 - a * (1 + 128 * u))) with (a * ((1 + 8 * u) * (2 - a * (1 + 128 * u)) / (2 - a))) by (field; lra).
      apply Rmult_le_compat_l; [lra|]. apply div_le_iff; [lra|]. nra. }
    set (q := a / (2 - a)) in *. set (q' := a * (1 + 128 * u) / _) in *. apply Rle_trans with (q * (1 + 8 * u) * IZR A); [right; ring|]. apply Rmult_le_compat_r; lra.
  - replace (a * (1 + 128 * u) * IZR A) with (a * IZR A * (1 + 128 * u)) by ring. apply Rmult_le_compat_l; [nra|lra].
Qed.
Lemma max_down d : d <> Exact -> d <> Overlap -> ideal_max d (a * (1 + delta)) A <= ideal_max d a A * (1 - 8 * u).
Proof.
  intros Hd Ho. pose proof u_pos. rewrite delta_u. destruct Ha as [_ Hr]. fold a in Hr. pose proof (size_R A HA). destruct d; try congruence; cbn [ideal_max].
  - apply div_le_iff; [nra|]. unfold Rdiv. replace (IZR A * / (a * a) * (1 - 8 * u) * (a * (1 + 128 * u) * (a * (1 + 128 * u)))) with (IZR A * ((1 - 8 * u) * ((1 + 128 * u) * (1 + 128 * u)))) by (field; lra).
    rewrite <- (Rmult_1_r (IZR A)) at 1. apply Rmult_le_compat_l; [lra|]. nra.
  - assert ((2 - a * (1 + 128 * u)) / (a * (1 + 128 * u)) <= (2 - a) / a * (1 - 8 * u)).
    { apply div_le_iff; [nra|]. unfold Rdiv. replace ((2 - a) * / a * (1 - 8 * u) * (a * (1 + 128 * u))) with ((2 - a) * ((1 - 8 * u) * (1 + 128 * u))) by (field; lra). nra. }
    set (q := (2 - a) / a) in *. set (q' := (2 - a * (1 + 128 * u)) / _) in *. apply Rle_trans with (q * (1 - 8 * u) * IZR A); [|right; ring]. apply Rmult_le_compat_r; lra.
  - apply div_le_iff; [nra|]. unfold Rdiv. replace (IZR A * / a * (1 - 8 * u) * (a * (1 + 128 * u))) with (IZR A * ((1 - 8 * u) * (1 + 128 * u))) by (field; lra).
    rewrite <- (Rmult_1_r (IZR A)) at 1. apply Rmult_le_compat_l; [lra|]. nra.
Qed.
(** nothing clearly similar enough is filtered out *)
Lemma no_loss d m : (d = Overlap -> (B <= 32767)%Z) -> sizes_ok m A B -> similarity d m A B >= a * (1 + delta) ->
  (MinY d alpha A <= B <= MaxY d alpha A /\ Threshold d alpha A B <= m)%Z.
Proof.
  intros Ho Hs Hsim. pose proof u_pos. assert (0 < delta < / 1000) as Hdl by (rewrite delta_u; lra). destruct Ha as [_ Hr]. fold a in Hr. destruct (metric_eq d) as [->|Hd].
  - cbn [similarity] in Hsim. destruct ((A =? B)%Z && (m =? A)%Z) eqn:E; [|nra]. cbn [MinY MaxY Threshold]. lia.
  - assert (ideal_threshold d (a * (1 + delta)) A B <= IZR m) as Ht by (apply (threshold_iff d (a * (1 + delta)) m A B Hd); [nra|exact Hs|exact Hsim]).
    destruct (thr_rel d Hd) as (v & Ev & (Hx & Hv1 & Hv2)). destruct (min_rel d Hd) as (v2 & Ev2 & (Hx2 & Hv3 & Hv4) & _). destruct (max_rel d Hd) as (v3 & Ev3 & (Hx3 & Hv5 & Hv6) & _ & Hov).
    pose proof (thr_up d Hd) as Hup. rewrite Ev, Ev2, Ev3, !Zceil_le_iff, Zfloor_ge_iff.
    destruct (bounds_ok d (a * (1 + delta)) m A B Hd Ho) as [Hb1 Hb2]; [intros; nra|nra|exact Hs|exact Ht|].
    split; [|lra]. assert (d = Overlap \/ d <> Overlap) as [Eo|No] by (destruct d; auto; right; discriminate).
    + pose proof (Hov Eo). specialize (Ho Eo). subst d v3. split; [|apply IZR_le; lia]. cbn [MinY] in Ev2. apply Zceil_le_iff. rewrite <- Ev2. destruct Hs. lia.
    + pose proof (min_up d Hd No). pose proof (max_down d Hd No). lra.
Qed.
(** nothing clearly less similar passes *)
Lemma no_gain d m : sizes_ok m A B -> (MinY d alpha A <= B <= MaxY d alpha A)%Z -> (Threshold d alpha A B <= m)%Z -> similarity d m A B >= a * (1 - delta).
Proof.
  intros Hs Hb Ht. pose proof u_pos. assert (0 < delta < / 1000) as Hdl by (rewrite delta_u; lra). destruct Ha as [_ Hr]. fold a in Hr. destruct (metric_eq d) as [->|Hd].
  - cbn [similarity MinY MaxY Threshold] in *. destruct Hs as (_ & _ & Hm). replace ((A =? B)%Z && (m =? A)%Z) with true by lia. nra.
  - apply (threshold_iff d (a * (1 - delta)) m A B Hd); [nra|exact Hs|]. destruct (thr_rel d Hd) as (v & Ev & (Hx & Hv1 & Hv2)). rewrite Ev, Zceil_le_iff in Ht. pose proof (thr_down d Hd). lra.
Qed.
Lemma thr_pos d : (1 <= Threshold d alpha A B)%Z.
Proof.
  pose proof u_pos. destruct (metric_eq d) as [->|Hd]; [destruct HA; cbn; lia|]. destruct (thr_rel d Hd) as (v & -> & R). apply rel_pos in R; [|lra].
  assert (0 < Zceil v)%Z; [|lia]. apply lt_IZR. apply Rlt_le_trans with v; [exact R|apply Zceil_ub].
Qed.
End S.

(** ** an entry with the same tokens *)
Lemma fmt_2u n : (0 <= n < 2 ^ 53)%Z -> fmt (IZR n * (2 * u)).
Proof.
  intros H. apply generic_format_FLT. exists (Float radix2 n (-52)); [|cbn in *; lia|unfold emin; cbn; lia]. unfold F2R. cbn [Fnum Fexp]. f_equal.
  cbn [bpow]. change (Z.pow_pos radix2 52) with 4503599627370496%Z. unfold u. lra.
Qed.
Lemma half_one_grid a : fmt a -> / 2 <= a <= 1 -> exists n, a = IZR n * u /\ (2 ^ 52 <= n <= 2 ^ 53)%Z.
Proof.
  intros Hf Hr. assert (exists n, a = IZR n * u) as [n En].
  { destruct (Req_dec a 1) as [->|Hne]; [exists (2 ^ 53)%Z; change (2 ^ 53)%Z with 9007199254740992%Z; unfold u; lra|].
    unfold fmt, generic_format, scaled_mantissa, cexp in Hf. rewrite (mag_unique_pos radix2 a 0) in Hf by (change (0 - 1)%Z with (-1)%Z; cbn [bpow]; change (Z.pow_pos radix2 1) with 2%Z; lra).
    change (fexp64 0) with (-53)%Z in Hf. eexists. rewrite Hf at 1. unfold F2R. cbn [Fnum Fexp]. reflexivity. }
  exists n. split; [exact En|]. split; apply le_IZR; unfold u in En; [change (2 ^ 52)%Z with 4503599627370496%Z|change (2 ^ 53)%Z with 9007199254740992%Z]; lra.
Qed.
Definition almost_one : f64 := S754_finite false 9007199254740991 (-53).
Lemma almost_one_val : fin almost_one /\ val almost_one = 1 - u.
Proof.
  split; [split; vm_compute; reflexivity|]. unfold almost_one. rewrite val_finite. cbn [sgn bpow]. change (Z.pow_pos radix2 53) with 9007199254740992%Z. unfold u. lra.
Qed.
Lemma val_inj x y : fin x -> fin y -> val x = val y -> val x <> 0 -> x = y.
Proof.
  intros Hx Hy E Hnz. destruct (fin_B x Hx) as (bx & -> & Fx & Vx), (fin_B y Hy) as (by_ & -> & Fy & Vy). f_equal. apply B2R_inj.
  - destruct bx; try discriminate; [rewrite val_B in Hnz; cbn in Hnz; lra|reflexivity].
  - rewrite E in Hnz. destruct by_; try discriminate; [rewrite val_B in Hnz; cbn in Hnz; lra|reflexivity].
  - rewrite Vx, Vy. exact E.
Qed.
Lemma jac_self alpha A : alpha_ok alpha -> size_ok A ->
  rnd (val alpha * (IZR A + IZR A)) <= IZR A * rnd (1 + val alpha).
Proof.
  intros Ha HA. pose proof Ha as [Hf Hr]. pose proof (size_R A HA) as HAr. pose proof u_pos as Hu. set (a := val alpha) in *.
  assert (fmt (2 * IZR A)) as F2A by (rewrite <- mult_IZR; destruct HA; apply fmt_int; lia).
  destruct (Rle_dec a (/ 2)) as [Hlo|Hhi].
  - destruct (rnd_rel (a * (IZR A + IZR A))) as [_ H1]; [apply tiny_lo; unfold tiny; nra|]. destruct (rnd_rel (1 + a)) as [H2 _]; [apply tiny_lo; unfold tiny; lra|].
    apply Rle_trans with (IZR A * ((1 + a) * (1 - u))); [|apply Rmult_le_compat_l; lra]. apply Rle_trans with (a * (IZR A + IZR A) * (1 + u)); [exact H1|].
    replace (a * (IZR A + IZR A) * (1 + u)) with (IZR A * (2 * a * (1 + u))) by ring. apply Rmult_le_compat_l; [lra|]. nra.
  - destruct (half_one_grid a (fin_fmt alpha Hf) ltac:(lra)) as (n & En & Hn).
    destruct (Z.eq_dec n (2 ^ 53)) as [E0|N0].
    { assert (a = 1) as Ea by (rewrite En, E0; change (2 ^ 53)%Z with 9007199254740992%Z; unfold u; lra). rewrite Ea.
      replace (1 * (IZR A + IZR A)) with (2 * IZR A) by ring. replace (1 + 1) with 2 by ring. rewrite (rnd_fmt _ F2A), (rnd_fmt 2 fmt_2). lra. }
    destruct (Z.eq_dec n (2 ^ 53 - 1)) as [E1|N1].
    { destruct almost_one_val as [Fo Vo]. assert (a = 1 - u) as Ea by (rewrite En, E1; change (2 ^ 53 - 1)%Z with 9007199254740991%Z; unfold u; lra).
      assert (alpha = almost_one) as Eal by (apply val_inj; auto; [fold a; lra|fold a; unfold u in Ea; lra]).
      destruct (one_plus_val alpha A A Ha HA HA) as [_ V]. fold a in V. rewrite <- V, Eal.
      assert (fadd f_one almost_one = S754_finite false 4503599627370496 (-51)) as -> by (vm_compute; reflexivity). rewrite val_finite. cbn [sgn bpow]. change (Z.pow_pos radix2 51) with 2251799813685248%Z.
      apply Rle_trans with (2 * IZR A); [|lra]. apply rnd_le_fmt; [exact F2A|]. nra. }
    set (n' := (2 * (n / 2))%Z). assert (n' <= n <= n' + 1)%Z as Hn' by (unfold n'; pose proof (Z.div_mod n 2); pose proof (Z.mod_pos_bound n 2); lia).
    set (k := (2 ^ 53 - n)%Z). assert (2 <= k)%Z as Hk by (unfold k; lia).
    assert (n' = n \/ (n' = n - 1 /\ 3 <= k))%Z as Hcase.
    { destruct (Z.eq_dec n' n); [left; assumption|right]. split; [lia|]. destruct (Z.eq_dec k 2) as [E2|]; [|lia]. exfalso. assert (n = 2 * (2 ^ 52 - 1))%Z by (unfold k in E2; lia). unfold n' in *. lia. }
    assert (1 + IZR n' * u <= rnd (1 + a)) as Hq.
    { apply rnd_ge_fmt; [|rewrite En; apply Rplus_le_compat_l, Rmult_le_compat_r; [lra|apply IZR_le; lia]].
      replace (1 + IZR n' * u) with (IZR (2 ^ 52 + n / 2) * (2 * u)); [apply fmt_2u; unfold n' in *; lia|].
      rewrite plus_IZR. unfold n'. rewrite mult_IZR. change (2 ^ 52)%Z with 4503599627370496%Z. unfold u. lra. }
    destruct (rnd_rel (a * (IZR A + IZR A))) as [_ H1]; [apply tiny_lo; unfold tiny; nra|].
    apply Rle_trans with (IZR A * (1 + IZR n' * u)); [|apply Rmult_le_compat_l; lra]. eapply Rle_trans; [exact H1|].
    replace (a * (IZR A + IZR A) * (1 + u)) with (IZR A * (2 * a * (1 + u))) by ring. apply Rmult_le_compat_l; [lra|].
    assert (IZR n = 9007199254740992 - IZR k) as Enk by (unfold k; rewrite minus_IZR; change (2 ^ 53)%Z with 9007199254740992%Z; ring).
    assert (a = 1 - IZR k * u) as Eak by (rewrite En, Enk; unfold u; lra). assert (2 <= IZR k) by (apply IZR_le; lia).
    destruct Hcase as [->|[-> Hk3]].
    + rewrite <- En, Eak. nra.
    + assert (3 <= IZR k) by (apply IZR_le; lia). rewrite minus_IZR. replace (1 + (IZR n - 1) * u) with (1 + IZR n * u - u) by ring. rewrite <- En, Eak. nra.
Qed.
Lemma identical_passes d alpha A : alpha_ok alpha -> size_ok A -> (d = Overlap -> (A <= 32767)%Z) ->
  (MinY d alpha A <= A <= MaxY d alpha A /\ 1 <= Threshold d alpha A A <= A)%Z.
Proof.
  intros Ha HA Ho. pose proof Ha as [Hf Hr]. pose proof (size_R A HA) as HAr. pose proof u_pos as Hu. set (a := val alpha) in *.
  pose proof (thr_pos alpha A A Ha HA HA d) as Hp. destruct (metric_eq d) as [->|Hd]; [cbn [MinY MaxY Threshold] in *; lia|].
  assert (MinY d alpha A <= A <= MaxY d alpha A)%Z as Hb.
  { destruct (min_rel alpha A A Ha HA HA d Hd) as (v2 & -> & _ & Hv2). destruct (max_rel alpha A A Ha HA HA d Hd) as (v3 & -> & _ & Hn & Hov).
    rewrite Zceil_le_iff, Zfloor_ge_iff. split; [exact Hv2|]. assert (d = Overlap \/ d <> Overlap) as [Eo|No] by (destruct d; auto; right; discriminate); [|auto].
    rewrite (Hov Eo). apply IZR_le. auto. }
  split; [exact Hb|]. split; [exact Hp|]. destruct d; try congruence.
  - destruct (thr_cos alpha A A Ha HA HA) as [-> _]. apply Zceil_le_iff. fold a. rewrite sqrt_square by lra. rewrite (rnd_fmt _ (fmt_A A HA)). apply rnd_le_fmt; [apply fmt_A; exact HA|nra].
  - destruct (thr_dice alpha A A Ha HA HA) as [-> _]. apply Zceil_le_iff. fold a. apply rnd_le_fmt; [apply fmt_A; exact HA|].
    assert (rnd (/ 2 * a) <= / 2) by (apply rnd_le_fmt; [apply (fmt_bpow (-1)); lia|lra]). nra.
  - destruct (thr_jac alpha A A Ha HA HA) as [-> _]. apply Zceil_le_iff. fold a. apply rnd_le_fmt; [apply fmt_A; exact HA|].
    assert (1 <= rnd (1 + a)) by (apply rnd_ge_fmt; [apply fmt_1|lra]). apply div_le_iff; [lra|]. apply jac_self; assumption.
  - destruct (thr_ov alpha A A Ha HA HA) as [-> _]. apply Zceil_le_iff. fold a. replace (Rmin (IZR A) (IZR A)) with (IZR A) by (unfold Rmin; destruct (Rle_dec _ _); reflexivity). apply rnd_le_fmt; [apply fmt_A; exact HA|nra].
Qed.
