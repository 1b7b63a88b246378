(** The binary64 operations of Float64 in terms of real numbers, through Flocq. *)
From Coq Require Import ZifyBool Reals Lra Lia.
From Flocq Require Import Core BinarySingleNaN Relative.
From Verif Require Import Base BaseLemmas Float64.
Local Open Scope Z_scope.

Global Instance Hprec : Prec_gt_0 53 := eq_refl.
Global Instance Hmax : Prec_lt_emax 53 1024 := eq_refl.
Notation b64 := (binary_float 53 1024).
Notation fexp64 := (SpecFloat.fexp 53 1024).
Definition rnd (x : R) : R := round radix2 fexp64 (round_mode mode_NE) x.
Definition val (x : f64) : R := SF2R radix2 x.
(* a finite double *)
Definition fin (x : f64) : Prop := valid_binary 53 1024 x = true /\ is_finite_SF x = true.
Definition fmt (x : R) : Prop := generic_format radix2 fexp64 x.

Global Instance fexp64_valid : Valid_exp fexp64 := FLT_exp_valid (emin 53 1024) 53.
Lemma rne_equiv s m l : round_nearest_even m l = choice_mode mode_NE s m l.
Proof. case l; [reflexivity|intro c]. case c; [|reflexivity..]. now simpl; unfold Round.cond_incr; case Z.even. Qed.
Lemma bra_equiv sx mx ex lx : SpecFloat.binary_round_aux 53 1024 sx mx ex lx = BinarySingleNaN.binary_round_aux 53 1024 mode_NE sx mx ex lx.
Proof.
  unfold SpecFloat.binary_round_aux, BinarySingleNaN.binary_round_aux. set (mrse' := shr_fexp _ _ _). case mrse'; intros mrs' e'; simpl.
  now rewrite (rne_equiv sx).
Qed.
Lemma br_equiv s m e : SpecFloat.binary_round 53 1024 s m e = BinarySingleNaN.binary_round 53 1024 mode_NE s m e.
Proof. unfold SpecFloat.binary_round, BinarySingleNaN.binary_round, shl_align_fexp. set (mez := shl_align _ _ _); case mez as [mz ez]. apply bra_equiv. Qed.
Lemma bn_equiv m e szero : SpecFloat.binary_normalize 53 1024 m e szero = B2SF (BinarySingleNaN.binary_normalize 53 1024 Hprec Hmax mode_NE m e szero).
Proof. case m as [|p|p]; [now simpl| |]; simpl; rewrite B2SF_SF2B; apply br_equiv. Qed.

Lemma mul_B (x y : b64) : fmul (B2SF x) (B2SF y) = B2SF (Bmult mode_NE x y).
Proof. destruct x as [sx|sx| |sx mx ex Bx], y as [sy|sy| |sy my ey By]; try reflexivity. unfold fmul. simpl. rewrite B2SF_SF2B. apply bra_equiv. Qed.
Lemma add_B (x y : b64) : fadd (B2SF x) (B2SF y) = B2SF (Bplus mode_NE x y).
Proof. destruct x as [sx|sx| |sx mx ex Bx], y as [sy|sy| |sy my ey By]; try (unfold fadd; simpl; try destruct (Bool.eqb _ _); reflexivity). apply bn_equiv. Qed.
Lemma sub_B (x y : b64) : fsub (B2SF x) (B2SF y) = B2SF (Bminus mode_NE x y).
Proof.
  destruct x as [sx|sx| |sx mx ex Bx], y as [sy|sy| |sy my ey By]; try (unfold fsub; simpl; try destruct (Bool.eqb _ _); reflexivity).
  unfold fsub. simpl. unfold Zminus. rewrite <- cond_Zopp_negb. apply bn_equiv.
Qed.
Lemma div_B (x y : b64) : fdiv (B2SF x) (B2SF y) = B2SF (Bdiv mode_NE x y).
Proof.
  destruct x as [sx|sx| |sx mx ex Bx], y as [sy|sy| |sy my ey By]; try (unfold fdiv; simpl; reflexivity).
  unfold fdiv. simpl. rewrite B2SF_SF2B. set (melz := SFdiv_core_binary _ _ _ _ _ _). case melz as [[mz ez] lz]. apply bra_equiv.
Qed.
Lemma sqrt_B (x : b64) : fsqrt (B2SF x) = B2SF (Bsqrt mode_NE x).
Proof.
  destruct x as [sx|sx| |sx mx ex Bx]; try (unfold fsqrt; simpl; try destruct sx; reflexivity). destruct sx; [reflexivity|].
  unfold fsqrt. simpl. rewrite B2SF_SF2B. set (melz := SFsqrt_core_binary _ _ _ _). case melz as [[mz ez] lz]. apply bra_equiv.
Qed.

Lemma fin_B x : fin x -> exists b : b64, x = B2SF b /\ is_finite b = true /\ B2R b = val x.
Proof.
  intros [Hv Hf]. exists (SF2B x Hv). rewrite B2SF_SF2B. split; [reflexivity|]. rewrite is_finite_SF2B. split; [exact Hf|]. rewrite B2R_SF2B. reflexivity.
Qed.
Lemma B_fin (b : b64) : is_finite b = true -> fin (B2SF b).
Proof. intros H. split; [apply valid_binary_B2SF|]. rewrite is_finite_SF_B2SF. exact H. Qed.
Lemma val_B (b : b64) : val (B2SF b) = B2R b. Proof. apply SF2R_B2SF. Qed.
Lemma fin_fmt x : fin x -> fmt (val x).
Proof. intros H. destruct (fin_B x H) as (b & _ & _ & <-). apply generic_format_B2R. Qed.

Local Open Scope R_scope.
Definition big : R := bpow radix2 1024.
Lemma mul_val x y : fin x -> fin y -> Rabs (rnd (val x * val y)) < big -> fin (fmul x y) /\ val (fmul x y) = rnd (val x * val y).
Proof.
  intros Hx Hy Hb. destruct (fin_B x Hx) as (bx & -> & Fx & Vx), (fin_B y Hy) as (by_ & -> & Fy & Vy). rewrite mul_B.
  pose proof (Bmult_correct 53 1024 Hprec Hmax mode_NE bx by_) as H. rewrite Vx, Vy in H. rewrite Rlt_bool_true in H by exact Hb.
  destruct H as (H1 & H2 & _). rewrite val_B. split; [apply B_fin; rewrite H2, Fx, Fy; reflexivity|exact H1].
Qed.
Lemma add_val x y : fin x -> fin y -> Rabs (rnd (val x + val y)) < big -> fin (fadd x y) /\ val (fadd x y) = rnd (val x + val y).
Proof.
  intros Hx Hy Hb. destruct (fin_B x Hx) as (bx & -> & Fx & Vx), (fin_B y Hy) as (by_ & -> & Fy & Vy). rewrite add_B.
  pose proof (Bplus_correct 53 1024 Hprec Hmax mode_NE bx by_ Fx Fy) as H. rewrite Vx, Vy in H. rewrite Rlt_bool_true in H by exact Hb.
  destruct H as (H1 & H2 & _). rewrite val_B. split; [apply B_fin; exact H2|exact H1].
Qed.
Lemma sub_val x y : fin x -> fin y -> Rabs (rnd (val x - val y)) < big -> fin (fsub x y) /\ val (fsub x y) = rnd (val x - val y).
Proof.
  intros Hx Hy Hb. destruct (fin_B x Hx) as (bx & -> & Fx & Vx), (fin_B y Hy) as (by_ & -> & Fy & Vy). rewrite sub_B.
  pose proof (Bminus_correct 53 1024 Hprec Hmax mode_NE bx by_ Fx Fy) as H. rewrite Vx, Vy in H. rewrite Rlt_bool_true in H by exact Hb.
  destruct H as (H1 & H2 & _). rewrite val_B. split; [apply B_fin; exact H2|exact H1].
Qed.
Lemma div_val x y : fin x -> fin y -> val y <> 0 -> Rabs (rnd (val x / val y)) < big -> fin (fdiv x y) /\ val (fdiv x y) = rnd (val x / val y).
Proof.
  intros Hx Hy Hnz Hb. destruct (fin_B x Hx) as (bx & -> & Fx & Vx), (fin_B y Hy) as (by_ & -> & Fy & Vy). rewrite div_B.
  pose proof (Bdiv_correct 53 1024 Hprec Hmax mode_NE bx by_ ltac:(rewrite Vy; exact Hnz)) as H. rewrite Vx, Vy in H. rewrite Rlt_bool_true in H by exact Hb.
  destruct H as (H1 & H2 & _). rewrite val_B. split; [apply B_fin; rewrite H2, Fx; reflexivity|exact H1].
Qed.
Lemma sqrt_val x : fin x -> 0 <= val x -> fin (fsqrt x) /\ val (fsqrt x) = rnd (sqrt (val x)).
Proof.
  intros Hx Hp. destruct (fin_B x Hx) as (bx & -> & Fx & Vx). rewrite sqrt_B.
  pose proof (Bsqrt_correct 53 1024 Hprec Hmax mode_NE bx) as H. rewrite Vx in H. destruct H as (H1 & H2 & _). rewrite val_B. split; [|exact H1].
  apply B_fin. rewrite H2. destruct bx as [s|s| |s m e Hb]; try discriminate; [reflexivity|]. destruct s; [|reflexivity].
  exfalso. rewrite val_B in Hp. cbn [B2R] in Hp. revert Hp. apply Rlt_not_le. apply F2R_lt_0. reflexivity.
Qed.
(** monotone, exact on doubles *)
Lemma rnd_le x y : x <= y -> rnd x <= rnd y.
Proof. apply round_le; [apply fexp64_valid|apply valid_rnd_N]. Qed.
Lemma rnd_fmt x : fmt x -> rnd x = x.
Proof. apply round_generic. apply valid_rnd_N. Qed.
Lemma rnd_ge_fmt x y : fmt x -> x <= y -> x <= rnd y.
Proof. intros Hf H. rewrite <- (rnd_fmt x Hf). apply rnd_le. exact H. Qed.
Lemma rnd_le_fmt x y : fmt y -> x <= y -> rnd x <= y.
Proof. intros Hf H. rewrite <- (rnd_fmt y Hf). apply rnd_le. exact H. Qed.
Lemma fmt_int z : (Z.abs z <= 2 ^ 53)%Z -> fmt (IZR z).
Proof.
  intros H. apply generic_format_FLT. destruct (Z.eq_dec (Z.abs z) (2 ^ 53)) as [E|E].
  - exists (Float radix2 (Z.sgn z * 2 ^ 52) 1); unfold F2R; cbn [Fnum Fexp]; [|rewrite Z.abs_mul, (Z.abs_eq (2 ^ 52)) by lia; destruct z; cbn in *; lia|unfold emin; lia].
    cbn [bpow]. rewrite <- mult_IZR. f_equal. rewrite <- (Z.abs_sgn z) at 1. rewrite E. destruct z; cbn; lia.
  - exists (Float radix2 z 0); unfold F2R; cbn [Fnum Fexp bpow]; [ring|cbn in *; lia|unfold emin; lia].
Qed.
Lemma of_int_val z : (Z.abs z <= 2 ^ 53)%Z -> fin (of_int z) /\ val (of_int z) = IZR z.
Proof.
  intros H. unfold of_int. rewrite bn_equiv. pose proof (binary_normalize_correct 53 1024 Hprec Hmax mode_NE z 0 false) as HB. cbv zeta in HB.
  assert (F2R (Float radix2 z 0) = IZR z) as E by (unfold F2R; cbn; ring). rewrite E in HB.
  change (round radix2 (SpecFloat.fexp 53 1024) (round_mode mode_NE) (IZR z)) with (rnd (IZR z)) in HB.
  rewrite (rnd_fmt _ (fmt_int z H)) in HB. rewrite Rlt_bool_true in HB.
  2:{ rewrite <- abs_IZR. apply Rle_lt_trans with (IZR (2 ^ 53)); [apply IZR_le; exact H|]. change (IZR (2 ^ 53)) with (IZR (Zpower radix2 53)). rewrite IZR_Zpower by lia. apply bpow_lt. lia. }
  destruct HB as (H1 & H2 & _). rewrite val_B. split; [apply B_fin; exact H2|exact H1].
Qed.
Lemma pow_big k : (k < 1024)%Z -> bpow radix2 k < big.
Proof. intros. apply bpow_lt. exact H. Qed.

(** ceil and floor *)
Lemma val_finite s m e : val (S754_finite s m e) = IZR (sgn s m) * bpow radix2 e.
Proof. unfold val, SF2R, F2R. cbn [Fnum Fexp]. destruct s; reflexivity. Qed.
Lemma Zfloor_exp n e : Zfloor (IZR n * bpow radix2 e) = (if (0 <=? e) then n * 2 ^ e else n / 2 ^ (- e))%Z.
Proof.
  destruct (0 <=? e)%Z eqn:E.
  - rewrite <- (IZR_Zpower radix2) by lia. rewrite <- mult_IZR, Zfloor_IZR. reflexivity.
  - rewrite <- (Z.opp_involutive e) at 1. rewrite bpow_opp, <- (IZR_Zpower radix2) by lia. change (Zpower radix2 (- e)) with (2 ^ (- e))%Z.
    apply (Zfloor_div n (2 ^ (- e))%Z). pose proof (Z.pow_pos_nonneg 2 (- e)). lia.
Qed.
Lemma int_floor_val x : fin x -> int_floor x = clip (Zfloor (val x)).
Proof.
  intros [_ Hf]. destruct x as [s|s| |s m e]; try discriminate.
  - unfold val, SF2R. rewrite (Zfloor_IZR 0). reflexivity.
  - rewrite val_finite, Zfloor_exp. reflexivity.
Qed.
Lemma int_ceil_val x : fin x -> int_ceil x = clip (Zceil (val x)).
Proof.
  intros [_ Hf]. unfold Zceil. destruct x as [s|s| |s m e]; try discriminate.
  - unfold val, SF2R. rewrite Ropp_0, (Zfloor_IZR 0). reflexivity.
  - rewrite val_finite, Ropp_mult_distr_l, <- opp_IZR, Zfloor_exp. cbn [int_ceil]. f_equal. destruct (0 <=? e)%Z; [ring|reflexivity].
Qed.
Lemma clip_small z : (- 2 ^ 63 <= z < 2 ^ 63)%Z -> clip z = z.
Proof. intros. unfold clip. replace ((- 2 ^ 63 <=? z) && (z <? 2 ^ 63))%Z with true by lia. reflexivity. Qed.
