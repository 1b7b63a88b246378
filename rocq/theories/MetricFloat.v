(** The filter formulas as computed in binary64 (C36, C37). *)
From Coq Require Import ZifyBool Reals Lra Lia Psatz.
From Flocq Require Import Core BinarySingleNaN Relative.
From Verif Require Import Base BaseLemmas Float64 Metric MetricSpec MetricProofs FloatProofs.
Local Open Scope R_scope.

Definition u : R := / 9007199254740992.
Lemma u_bpow : / 2 * bpow radix2 (- 53 + 1) = u.
Proof. unfold u. change (-53 + 1)%Z with (-52)%Z. cbn [bpow]. change (Z.pow_pos radix2 52) with 4503599627370496%Z. lra. Qed.
Definition lo : R := bpow radix2 (-900).
Definition hi : R := bpow radix2 900.
Lemma lo_pos : 0 < lo. Proof. apply bpow_gt_0. Qed.
Lemma hi_big : hi < big. Proof. apply pow_big. lia. Qed.
Lemma fmt_bpow k : (-1000 <= k <= 1000)%Z -> fmt (bpow radix2 k).
Proof. intros H. apply generic_format_bpow. unfold fexp64, SpecFloat.fexp, emin. lia. Qed.
Lemma rnd_rel x : lo <= x -> x * (1 - u) <= rnd x <= x * (1 + u).
Proof.
  intros H. pose proof lo_pos. assert (Rabs (rnd x - x) <= u * Rabs x) as HR.
  { rewrite <- u_bpow. apply (relative_error_N_FLT radix2 (emin 53 1024) 53 eq_refl (fun z => negb (Z.even z)) x).
    rewrite Rabs_pos_eq by lra. apply Rle_trans with lo; [apply bpow_le; unfold emin; lia|exact H]. }
  rewrite (Rabs_pos_eq x) in HR by lra. apply Rabs_le_inv in HR. lra.
Qed.
Lemma rnd_hi x : 0 <= x <= hi -> Rabs (rnd x) < big.
Proof.
  intros [H1 H2]. pose proof hi_big. rewrite Rabs_pos_eq.
  - apply Rle_lt_trans with hi; [|assumption]. apply rnd_le_fmt; [apply fmt_bpow; lia|exact H2].
  - apply rnd_ge_fmt; [apply generic_format_0|exact H1].
Qed.
(* bounds written as powers of two *)
Lemma lo_small x k : (-900 <= k)%Z -> bpow radix2 k <= x -> lo <= x.
Proof. intros Hk H. apply Rle_trans with (bpow radix2 k); [apply bpow_le; exact Hk|exact H]. Qed.
Lemma hi_large x k : (k <= 900)%Z -> x <= bpow radix2 k -> x <= hi.
Proof. intros Hk H. apply Rle_trans with (bpow radix2 k); [exact H|apply bpow_le; exact Hk]. Qed.
Definition p63 : R := 9223372036854775808.
Lemma p63_hi x : x <= p63 * 16 -> x <= hi.
Proof. intros H. apply (hi_large x 67); [lia|]. cbn [bpow]. change (Z.pow_pos radix2 67) with 147573952589676412928%Z. unfold p63 in H. lra. Qed.
Definition tiny : R := / 1267650600228229401496703205376.
Lemma tiny_lo x : tiny <= x -> lo <= x.
Proof. intros H. apply (lo_small x (-100)); [lia|]. cbn [bpow]. change (Z.pow_pos radix2 100) with 1267650600228229401496703205376%Z. exact H. Qed.
Ltac un := unfold p63, tiny, u in *.

(** v approximates x with relative error at most e *)
Definition rel (e x v : R) : Prop := 0 < x /\ x * (1 - e) <= v <= x * (1 + e).
Lemma rel_refl x : 0 < x -> rel 0 x x. Proof. intros H. unfold rel. lra. Qed.
Lemma rel_pos e x v : rel e x v -> e <= / 8 -> 0 < v.
Proof. intros (H & H1 & H2) He. nra. Qed.
Lemma rel_rnd e x v : 0 <= e <= / 8 -> rel e x v -> tiny * 2 <= x -> rel (e + 2 * u) x (rnd v).
Proof.
  intros He (Hx & H1 & H2) Hs. assert (tiny <= v) as Hv by (unfold tiny in *; nra). destruct (rnd_rel v (tiny_lo _ Hv)) as [H3 H4].
  assert (0 < u) by (unfold u; lra). assert (u < / 1000) by (unfold u; lra). split; [exact Hx|]. split; [|]; unfold tiny in *; nra.
Qed.
Lemma rel_scale c e x v : 0 < c -> rel e x v -> rel e (c * x) (c * v).
Proof. intros Hc (Hx & H1 & H2). split; [nra|]. split; nra. Qed.
Lemma rel_div e1 e2 x1 v1 x2 v2 : 0 <= e1 <= / 8 -> 0 <= e2 <= / 8 -> rel e1 x1 v1 -> rel e2 x2 v2 -> rel (2 * e1 + 2 * e2) (x1 / x2) (v1 / v2).
Proof.
  intros He1 He2 (Hx1 & H1 & H2) (Hx2 & H3 & H4). assert (0 < v2) by nra. assert (0 < v1) by nra.
  split; [apply Rdiv_lt_0_compat; assumption|]. split.
  - apply le_div_iff; [assumption|]. replace (x1 / x2 * (1 - (2 * e1 + 2 * e2)) * v2) with ((x1 * (1 - (2 * e1 + 2 * e2))) * (v2 / x2)) by (field; lra).
    assert (v2 / x2 <= 1 + e2) by (apply div_le_iff; lra). assert (0 < v2 / x2) by (apply Rdiv_lt_0_compat; assumption).
    apply Rle_trans with (x1 * (1 - (2 * e1 + 2 * e2)) * (1 + e2)).
    + apply Rmult_le_compat_l; [|assumption]. nra.
    + apply Rle_trans with (x1 * (1 - e1)); [|exact H1]. rewrite Rmult_assoc. apply Rmult_le_compat_l; [lra|]. nra.
  - apply div_le_iff; [assumption|]. replace (x1 / x2 * (1 + (2 * e1 + 2 * e2)) * v2) with ((x1 * (1 + (2 * e1 + 2 * e2))) * (v2 / x2)) by (field; lra).
    assert (1 - e2 <= v2 / x2) by (apply le_div_iff; lra).
    apply Rle_trans with (x1 * (1 + (2 * e1 + 2 * e2)) * (1 - e2)).
    + apply Rle_trans with (x1 * (1 + e1)); [exact H2|]. rewrite Rmult_assoc. apply Rmult_le_compat_l; [lra|]. nra.
    + apply Rmult_le_compat_l; [nra|assumption].
Qed.
Lemma rel_weaken e e' x v : e <= e' -> rel e x v -> rel e' x v.
Proof. intros He (Hx & H1 & H2). split; [exact Hx|]. split; nra. Qed.

(** evaluation of the operations on positive values in range *)
Lemma op_mul x y : fin x -> fin y -> 0 <= val x * val y <= p63 * 16 -> fin (fmul x y) /\ val (fmul x y) = rnd (val x * val y).
Proof. intros Hx Hy H. apply mul_val; auto. apply rnd_hi. split; [lra|]. apply p63_hi. lra. Qed.
Lemma op_div x y : fin x -> fin y -> 0 < val y -> 0 <= val x / val y <= p63 * 16 -> fin (fdiv x y) /\ val (fdiv x y) = rnd (val x / val y).
Proof. intros Hx Hy Hp H. apply div_val; auto; [lra|]. apply rnd_hi. split; [lra|]. apply p63_hi. lra. Qed.
Lemma op_add x y : fin x -> fin y -> 0 <= val x + val y <= p63 * 16 -> fin (fadd x y) /\ val (fadd x y) = rnd (val x + val y).
Proof. intros Hx Hy H. apply add_val; auto. apply rnd_hi. split; [lra|]. apply p63_hi. lra. Qed.
Lemma op_sub x y : fin x -> fin y -> 0 <= val x - val y <= p63 * 16 -> fin (fsub x y) /\ val (fsub x y) = rnd (val x - val y).
Proof. intros Hx Hy H. apply sub_val; auto. apply rnd_hi. split; [lra|]. apply p63_hi. lra. Qed.
Lemma val_one : fin f_one /\ val f_one = 1. Proof. apply (of_int_val 1). lia. Qed.
Lemma val_two : fin f_two /\ val f_two = 2. Proof. apply (of_int_val 2). lia. Qed.
Lemma val_half : fin f_half /\ val f_half = / 2.
Proof.
  split; [split; vm_compute; reflexivity|]. change f_half with (S754_finite false 4503599627370496 (-53)). rewrite val_finite. cbn [sgn bpow]. change (Z.pow_pos radix2 53) with 9007199254740992%Z. lra.
Qed.
Lemma ceil_val x : fin x -> 0 <= val x <= p63 / 2 -> int_ceil x = Zceil (val x).
Proof.
  intros Hx [H1 H2]. rewrite int_ceil_val by exact Hx. apply clip_small. split.
  - apply Z.le_trans with 0%Z; [lia|]. apply le_IZR. apply Rle_trans with (val x); [exact H1|apply Zceil_ub].
  - apply Z.le_lt_trans with (2 ^ 62)%Z; [|lia]. apply Zceil_glb. unfold p63 in H2. change (2 ^ 62)%Z with 4611686018427387904%Z. lra.
Qed.
Lemma floor_val x : fin x -> 0 <= val x <= p63 / 2 -> int_floor x = Zfloor (val x).
Proof.
  intros Hx [H1 H2]. rewrite int_floor_val by exact Hx. apply clip_small. split.
  - apply Z.le_trans with 0%Z; [lia|]. apply Zfloor_lub. exact H1.
  - apply Z.le_lt_trans with (2 ^ 62)%Z; [|lia]. apply le_IZR. apply Rle_trans with (val x); [apply Zfloor_lb|]. unfold p63 in H2. change (2 ^ 62)%Z with 4611686018427387904%Z. lra.
Qed.

(** sizes below 2^26, similarities from 2^-15 to 1 *)
Definition size_ok (A : Z) : Prop := (1 <= A < 2 ^ 26)%Z.
Definition alpha_ok (alpha : f64) : Prop := fin alpha /\ / 32768 <= val alpha <= 1.
Lemma size_R A : size_ok A -> 1 <= IZR A <= 67108864.
Proof. intros [H1 H2]. split; [apply IZR_le; lia|]. apply IZR_le. lia. Qed.
Lemma size_val A : size_ok A -> fin (of_int A) /\ val (of_int A) = IZR A.
Proof. intros [H1 H2]. apply of_int_val. lia. Qed.
Lemma sum_val A B : size_ok A -> size_ok B -> fin (of_int (wrapi64 (A + B))) /\ val (of_int (wrapi64 (A + B))) = IZR A + IZR B.
Proof. intros [H1 H2] [H3 H4]. rewrite wrapi64_small by lia. rewrite <- plus_IZR. apply of_int_val. lia. Qed.
Lemma prod_val A B : size_ok A -> size_ok B -> fin (of_int (wrapi64 (A * B))) /\ val (of_int (wrapi64 (A * B))) = IZR A * IZR B.
Proof. intros [H1 H2] [H3 H4]. assert (0 <= A * B < 2 ^ 52)%Z by nia. rewrite wrapi64_small by lia. rewrite <- mult_IZR. apply of_int_val. lia. Qed.

Lemma flt_int x y : (Z.abs x <= 2 ^ 53)%Z -> (Z.abs y <= 2 ^ 53)%Z -> flt (of_int x) (of_int y) = (x <? y)%Z.
Proof.
  intros Hx Hy. destruct (of_int_val x Hx) as [Fx Vx], (of_int_val y Hy) as [Fy Vy].
  destruct (fin_B _ Fx) as (bx & Ex & Fbx & Rx), (fin_B _ Fy) as (by_ & Ey & Fby & Ry).
  unfold flt. rewrite Ex, Ey. change (SFltb (B2SF bx) (B2SF by_)) with (Bltb bx by_). rewrite (Bltb_correct 53 1024 bx by_ Fbx Fby), Rx, Ry, Vx, Vy.
  destruct (Z.ltb_spec x y); [apply Rlt_bool_true, IZR_lt; assumption|apply Rlt_bool_false, IZR_le; assumption].
Qed.
Lemma min_val_sizes A B : size_ok A -> size_ok B -> fin (fmin (of_int A) (of_int B)) /\ val (fmin (of_int A) (of_int B)) = Rmin (IZR A) (IZR B).
Proof.
  intros HA HB. pose proof (size_R A HA); pose proof (size_R B HB). destruct (size_val A HA) as [F1 V1], (size_val B HB) as [F2 V2].
  assert (fmin (of_int A) (of_int B) = if flt (of_int A) (of_int B) then of_int A else of_int B) as ->.
  { destruct (of_int A) as [s|s| |s m e]; [unfold val, SF2R in V1; lra|destruct F1; discriminate|destruct F1; discriminate|].
    destruct (of_int B) as [s'|s'| |s' m' e']; [unfold val, SF2R in V2; lra|destruct F2; discriminate|destruct F2; discriminate|]. reflexivity. }
  rewrite flt_int by (destruct HA, HB; lia). unfold Rmin. destruct (Z.ltb_spec A B) as [Hlt|Hlt].
  - apply IZR_lt in Hlt. destruct (Rle_dec _ _); [split; assumption|lra].
  - apply IZR_le in Hlt. destruct (Rle_dec _ _); [replace (IZR A) with (IZR B) by lra|]; split; assumption.
Qed.

Section Filters.
Variables (alpha : f64) (A B : Z).
Hypothesis Ha : alpha_ok alpha.
Hypothesis HA : size_ok A.
Hypothesis HB : size_ok B.
Let a := val alpha.
Lemma a_range : / 32768 <= a <= 1. Proof. exact (proj2 Ha). Qed.
Ltac rng := pose proof a_range; pose proof (size_R A HA); pose proof (size_R B HB).
Lemma fa : fin alpha. Proof. exact (proj1 Ha). Qed.
Lemma fmt_a : fmt a. Proof. apply fin_fmt. exact fa. Qed.
Lemma fmt_1 : fmt 1. Proof. apply (fmt_int 1). lia. Qed.
Lemma fmt_2 : fmt 2. Proof. apply (fmt_int 2). lia. Qed.
Lemma fmt_A : fmt (IZR A). Proof. destruct HA. apply fmt_int. lia. Qed.

(* alpha * alpha *)
Lemma sq_val : fin (fmul alpha alpha) /\ val (fmul alpha alpha) = rnd (a * a).
Proof. rng. apply op_mul; try exact fa. un. fold a. nra. Qed.
Lemma sq_rel : rel (2 * u) (a * a) (rnd (a * a)).
Proof. rng. replace (2 * u) with (0 + 2 * u) by ring. apply rel_rnd; [lra|apply rel_refl; nra|unfold tiny; nra]. Qed.
Lemma sq_le : / 1073741824 <= rnd (a * a) <= 1.
Proof.
  rng. split; [|apply rnd_le_fmt; [apply fmt_1|nra]]. apply rnd_ge_fmt; [|nra].
  replace (/ 1073741824) with (bpow radix2 (-30)); [apply fmt_bpow; lia|]. cbn [bpow]. change (Z.pow_pos radix2 30) with 1073741824%Z. reflexivity.
Qed.
(* 2 - alpha *)
Lemma two_minus_val : fin (fsub f_two alpha) /\ val (fsub f_two alpha) = rnd (2 - a).
Proof. rng. destruct val_two as [F2 V2]. rewrite <- V2. apply op_sub; [exact F2|exact fa|]. fold a. rewrite V2. un. lra. Qed.
Lemma two_minus_rel : rel (2 * u) (2 - a) (rnd (2 - a)).
Proof. rng. replace (2 * u) with (0 + 2 * u) by ring. apply rel_rnd; [lra|apply rel_refl; lra|unfold tiny; lra]. Qed.
Lemma two_minus_le : 1 <= rnd (2 - a) <= 2.
Proof. rng. split; [apply rnd_ge_fmt; [apply fmt_1|lra]|apply rnd_le_fmt; [apply fmt_2|lra]]. Qed.

(** MinY *)
Lemma min_cos : MinY Cosine alpha A = Zceil (rnd (rnd (a * a) * IZR A)) /\ rel (4 * u) (a * a * IZR A) (rnd (rnd (a * a) * IZR A)) /\ rnd (rnd (a * a) * IZR A) <= IZR A.
Proof.
  rng. destruct sq_val as [F1 V1]. destruct (size_val A HA) as [F2 V2]. pose proof sq_le. pose proof sq_rel as HR.
  assert (rnd (rnd (a * a) * IZR A) <= IZR A) as Hle by (apply rnd_le_fmt; [apply fmt_A|nra]).
  destruct (op_mul _ _ F1 F2) as [F3 V3]; [rewrite V1, V2; un; nra|]. rewrite V1, V2 in V3.
  split; [|split; [|exact Hle]].
  - cbn [MinY]. rewrite ceil_val; [rewrite V3; reflexivity|exact F3|]. rewrite V3. split; [apply rnd_ge_fmt; [apply generic_format_0|nra]|un; lra].
  - replace (4 * u) with (2 * u + 2 * u) by ring. apply rel_rnd; [unfold u; lra| |unfold tiny; nra].
    rewrite (Rmult_comm (a * a)), (Rmult_comm (rnd _)). apply rel_scale; [lra|exact HR].
Qed.
Lemma min_jac : MinY Jaccard alpha A = Zceil (rnd (a * IZR A)) /\ rel (2 * u) (a * IZR A) (rnd (a * IZR A)) /\ rnd (a * IZR A) <= IZR A.
Proof.
  rng. destruct (size_val A HA) as [F2 V2]. assert (rnd (a * IZR A) <= IZR A) as Hle by (apply rnd_le_fmt; [apply fmt_A|nra]).
  destruct (op_mul _ _ fa F2) as [F3 V3]; [rewrite V2; fold a; un; nra|]. rewrite V2 in V3. fold a in V3. split; [|split; [|exact Hle]].
  - cbn [MinY]. rewrite ceil_val; [rewrite V3; reflexivity|exact F3|]. rewrite V3. split; [apply rnd_ge_fmt; [apply generic_format_0|nra]|un; lra].
  - replace (2 * u) with (0 + 2 * u) by ring. apply rel_rnd; [lra|apply rel_refl; nra|unfold tiny; nra].
Qed.
Lemma dice_q : let q := rnd (a / rnd (2 - a)) in fin (fdiv alpha (fsub f_two alpha)) /\ val (fdiv alpha (fsub f_two alpha)) = q /\ rel (6 * u) (a / (2 - a)) q /\ 0 <= q <= 1.
Proof.
  rng. intros q. destruct two_minus_val as [F1 V1]. pose proof two_minus_le as H2. pose proof two_minus_rel as HR.
  assert (/ 65536 <= a / rnd (2 - a)) as Hl by (apply le_div_iff; nra).
  assert (a / rnd (2 - a) <= 1) as Hu by (apply div_le_iff; lra).
  destruct (op_div _ _ fa F1) as [F3 V3]; [rewrite V1; lra|rewrite V1; fold a; un; lra|]. rewrite V1 in V3. fold a in V3. split; [exact F3|]. split; [exact V3|]. split.
  - unfold q. replace (6 * u) with (4 * u + 2 * u) by ring. apply rel_rnd; [unfold u; lra| |apply le_div_iff; unfold tiny; nra].
    replace (4 * u) with (2 * 0 + 2 * (2 * u)) by ring. apply rel_div; [lra|unfold u; lra|apply rel_refl; lra|exact HR].
  - unfold q. split; [apply rnd_ge_fmt; [apply generic_format_0|lra]|apply rnd_le_fmt; [apply fmt_1|lra]].
Qed.
Lemma min_dice : let v := rnd (rnd (a / rnd (2 - a)) * IZR A) in MinY Dice alpha A = Zceil v /\ rel (8 * u) (a / (2 - a) * IZR A) v /\ v <= IZR A.
Proof.
  rng. intros v. destruct dice_q as (F1 & V1 & HR & Hq). destruct (size_val A HA) as [F2 V2].
  assert (v <= IZR A) as Hle by (apply rnd_le_fmt; [apply fmt_A|nra]).
  destruct (op_mul _ _ F1 F2) as [F3 V3]; [rewrite V1, V2; un; nra|]. rewrite V1, V2 in V3. fold v in V3. split; [|split; [|exact Hle]].
  - cbn [MinY]. rewrite ceil_val; [rewrite V3; reflexivity|exact F3|]. rewrite V3. split; [apply rnd_ge_fmt; [apply generic_format_0|nra]|un; lra].
  - unfold v. replace (8 * u) with (6 * u + 2 * u) by ring. apply rel_rnd; [unfold u; lra| |].
    + rewrite (Rmult_comm (a / (2 - a))), (Rmult_comm (rnd (a / rnd (2 - a)))). apply rel_scale; [lra|exact HR].
    + assert (/ 65536 <= a / (2 - a)) by (apply le_div_iff; lra). unfold tiny. nra.
Qed.
(** MaxY *)
Lemma max_cos : let v := rnd (IZR A / rnd (a * a)) in MaxY Cosine alpha A = Zfloor v /\ rel (6 * u) (IZR A / (a * a)) v /\ IZR A <= v.
Proof.
  rng. intros v. destruct sq_val as [F1 V1]. destruct (size_val A HA) as [F2 V2]. pose proof sq_le as Hs. pose proof sq_rel as HR.
  assert (IZR A <= IZR A / rnd (a * a)) as Hl by (apply le_div_iff; nra).
  assert (IZR A / rnd (a * a) <= 67108864 * 1073741824) as Hu by (apply div_le_iff; nra).
  assert (IZR A <= v) as Hle by (apply rnd_ge_fmt; [apply fmt_A|exact Hl]).
  assert (v <= 72057594037927936) as Hv by (apply rnd_le_fmt; [|lra]; replace 72057594037927936 with (bpow radix2 56) by reflexivity; apply fmt_bpow; lia).
  destruct (op_div _ _ F2 F1) as [F3 V3]; [rewrite V1; lra|rewrite V1, V2; un; lra|]. rewrite V1, V2 in V3. fold v in V3. split; [|split; [|exact Hle]].
  - cbn [MaxY]. rewrite floor_val; [rewrite V3; reflexivity|exact F3|]. rewrite V3. un. lra.
  - unfold v. replace (6 * u) with (4 * u + 2 * u) by ring. apply rel_rnd; [unfold u; lra| |apply le_div_iff; unfold tiny; nra].
    replace (4 * u) with (2 * 0 + 2 * (2 * u)) by ring. apply rel_div; [lra|unfold u; lra|apply rel_refl; lra|exact HR].
Qed.
Lemma max_jac : let v := rnd (IZR A / a) in MaxY Jaccard alpha A = Zfloor v /\ rel (2 * u) (IZR A / a) v /\ IZR A <= v.
Proof.
  rng. intros v. destruct (size_val A HA) as [F2 V2].
  assert (IZR A <= IZR A / a) as Hl by (apply le_div_iff; nra).
  assert (IZR A / a <= 67108864 * 32768) as Hu by (apply div_le_iff; nra).
  assert (IZR A <= v) as Hle by (apply rnd_ge_fmt; [apply fmt_A|exact Hl]).
  assert (v <= 72057594037927936) as Hv by (apply rnd_le_fmt; [|lra]; replace 72057594037927936 with (bpow radix2 56) by reflexivity; apply fmt_bpow; lia).
  destruct (op_div _ _ F2 fa) as [F3 V3]; [fold a; lra|rewrite V2; fold a; un; lra|]. rewrite V2 in V3. fold a in V3. fold v in V3. split; [|split; [|exact Hle]].
  - cbn [MaxY]. rewrite floor_val; [rewrite V3; reflexivity|exact F3|]. rewrite V3. un. lra.
  - unfold v. replace (2 * u) with (0 + 2 * u) by ring. apply rel_rnd; [lra|apply rel_refl; apply Rdiv_lt_0_compat; lra|unfold tiny; lra].
Qed.
Lemma max_dice : let v := rnd (rnd (rnd (2 - a) / a) * IZR A) in MaxY Dice alpha A = Zfloor v /\ rel (8 * u) ((2 - a) / a * IZR A) v /\ IZR A <= v.
Proof.
  rng. intros v. destruct two_minus_val as [F1 V1]. pose proof two_minus_le as H2. pose proof two_minus_rel as HR. destruct (size_val A HA) as [F2 V2].
  set (q := rnd (rnd (2 - a) / a)) in *.
  assert (1 <= rnd (2 - a) / a) as Hl by (apply le_div_iff; lra).
  assert (rnd (2 - a) / a <= 65536) as Hu by (apply div_le_iff; nra).
  assert (1 <= q) as Hq1 by (apply rnd_ge_fmt; [apply fmt_1|exact Hl]).
  assert (q <= 65536) as Hq2 by (apply rnd_le_fmt; [apply (fmt_int 65536); lia|exact Hu]).
  destruct (op_div _ _ F1 fa) as [F3 V3]; [fold a; lra|rewrite V1; fold a; un; lra|]. rewrite V1 in V3. fold a in V3. fold q in V3.
  assert (IZR A <= v) as Hle by (apply rnd_ge_fmt; [apply fmt_A|nra]).
  assert (v <= 72057594037927936) as Hv by (apply rnd_le_fmt; [|nra]; replace 72057594037927936 with (bpow radix2 56) by reflexivity; apply fmt_bpow; lia).
  destruct (op_mul _ _ F3 F2) as [F4 V4]; [rewrite V3, V2; un; nra|]. rewrite V3, V2 in V4. fold v in V4. split; [|split; [|exact Hle]].
  - cbn [MaxY]. rewrite floor_val; [rewrite V4; reflexivity|exact F4|]. rewrite V4. un. lra.
  - assert (1 <= (2 - a) / a) by (apply le_div_iff; lra).
    unfold v. replace (8 * u) with (6 * u + 2 * u) by ring. apply rel_rnd; [unfold u; lra| |unfold tiny; nra].
    rewrite (Rmult_comm ((2 - a) / a)), (Rmult_comm q). apply rel_scale; [lra|]. unfold q.
    replace (6 * u) with (4 * u + 2 * u) by ring. apply rel_rnd; [unfold u; lra| |unfold tiny; lra].
    replace (4 * u) with (2 * (2 * u) + 2 * 0) by ring. apply rel_div; [unfold u; lra|lra|exact HR|apply rel_refl; lra].
Qed.
(** Threshold *)
Lemma sqrt_range : 1 <= sqrt (IZR A * IZR B) <= 67108864.
Proof.
  rng. split.
  - rewrite <- sqrt_1 at 1. apply sqrt_le_1_alt. nra.
  - replace 67108864 with (sqrt (67108864 * 67108864)) by (apply sqrt_square; lra). apply sqrt_le_1_alt. nra.
Qed.
Lemma thr_cos : let v := rnd (a * rnd (sqrt (IZR A * IZR B))) in Threshold Cosine alpha A B = Zceil v /\ rel (4 * u) (a * sqrt (IZR A * IZR B)) v.
Proof.
  rng. intros v. destruct (prod_val A B HA HB) as [F1 V1]. destruct (sqrt_val _ F1) as [F2 V2]; [rewrite V1; nra|]. rewrite V1 in V2.
  pose proof sqrt_range as Hs. set (s := rnd (sqrt (IZR A * IZR B))) in *.
  assert (1 <= s <= 67108864) as Hr by (unfold s; split; [apply rnd_ge_fmt; [apply fmt_1|lra]|apply rnd_le_fmt; [apply (fmt_int 67108864); lia|lra]]).
  destruct (op_mul _ _ fa F2) as [F3 V3]; [rewrite V2; fold a; un; nra|]. rewrite V2 in V3. fold a in V3. fold v in V3.
  assert (0 <= v <= 67108864) as Hv by (unfold v; split; [apply rnd_ge_fmt; [apply generic_format_0|nra]|apply rnd_le_fmt; [apply (fmt_int 67108864); lia|nra]]).
  split.
  - cbn [Threshold]. rewrite ceil_val; [rewrite V3; reflexivity|exact F3|]. rewrite V3. un. lra.
  - unfold v. replace (4 * u) with (2 * u + 2 * u) by ring. apply rel_rnd; [unfold u; lra| |unfold tiny; nra]. apply rel_scale; [lra|].
    unfold s. replace (2 * u) with (0 + 2 * u) by ring. apply rel_rnd; [lra|apply rel_refl; lra|unfold tiny; lra].
Qed.
Lemma thr_dice : let v := rnd (rnd (/ 2 * a) * (IZR A + IZR B)) in Threshold Dice alpha A B = Zceil v /\ rel (4 * u) (/ 2 * a * (IZR A + IZR B)) v.
Proof.
  rng. intros v. destruct (sum_val A B HA HB) as [F1 V1]. destruct val_half as [Fh Vh].
  destruct (op_mul _ _ Fh fa) as [F2 V2]; [rewrite Vh; fold a; un; lra|]. rewrite Vh in V2. fold a in V2.
  set (h := rnd (/ 2 * a)) in *. assert (0 <= h <= 1) as Hh by (unfold h; split; [apply rnd_ge_fmt; [apply generic_format_0|lra]|apply rnd_le_fmt; [apply fmt_1|lra]]).
  destruct (op_mul _ _ F2 F1) as [F3 V3]; [rewrite V2, V1; un; nra|]. rewrite V2, V1 in V3. fold v in V3.
  assert (0 <= v <= 134217728) as Hv by (unfold v; split; [apply rnd_ge_fmt; [apply generic_format_0|nra]|apply rnd_le_fmt; [apply (fmt_int 134217728); lia|nra]]).
  split.
  - cbn [Threshold]. rewrite ceil_val; [rewrite V3; reflexivity|exact F3|]. rewrite V3. un. lra.
  - unfold v. replace (4 * u) with (2 * u + 2 * u) by ring. apply rel_rnd; [unfold u; lra| |unfold tiny; nra].
    rewrite (Rmult_comm (/ 2 * a)), (Rmult_comm h). apply rel_scale; [lra|]. unfold h. replace (2 * u) with (0 + 2 * u) by ring. apply rel_rnd; [lra|apply rel_refl; lra|unfold tiny; lra].
Qed.
Lemma one_plus_val : fin (fadd f_one alpha) /\ val (fadd f_one alpha) = rnd (1 + a).
Proof. rng. destruct val_one as [F1 V1]. rewrite <- V1. apply op_add; [exact F1|exact fa|]. fold a. rewrite V1. un. lra. Qed.
Lemma thr_jac : let v := rnd (rnd (a * (IZR A + IZR B)) / rnd (1 + a)) in Threshold Jaccard alpha A B = Zceil v /\ rel (10 * u) (a * (IZR A + IZR B) / (1 + a)) v.
Proof.
  rng. intros v. destruct (sum_val A B HA HB) as [F1 V1]. destruct one_plus_val as [F2 V2].
  destruct (op_mul _ _ fa F1) as [F3 V3]; [rewrite V1; fold a; un; nra|]. rewrite V1 in V3. fold a in V3.
  set (p := rnd (a * (IZR A + IZR B))) in *. set (q := rnd (1 + a)) in *.
  assert (0 <= p <= 134217728) as Hp by (unfold p; split; [apply rnd_ge_fmt; [apply generic_format_0|nra]|apply rnd_le_fmt; [apply (fmt_int 134217728); lia|nra]]).
  assert (1 <= q) as Hq by (unfold q; apply rnd_ge_fmt; [apply fmt_1|lra]).
  assert (0 <= p / q) as Hl by (apply le_div_iff; lra).
  assert (p / q <= 134217728) as Hu by (apply div_le_iff; nra).
  destruct (op_div _ _ F3 F2) as [F4 V4]; [rewrite V2; lra|rewrite V3, V2; un; lra|]. rewrite V3, V2 in V4. fold v in V4.
  assert (0 <= v <= 134217728) as Hv by (unfold v; split; [apply rnd_ge_fmt; [apply generic_format_0|lra]|apply rnd_le_fmt; [apply (fmt_int 134217728); lia|lra]]).
  split.
  - cbn [Threshold]. rewrite ceil_val; [rewrite V4; reflexivity|exact F4|]. rewrite V4. un. lra.
  - unfold v. replace (10 * u) with (8 * u + 2 * u) by ring. apply rel_rnd; [unfold u; lra| |apply le_div_iff; unfold tiny; nra].
    replace (8 * u) with (2 * (2 * u) + 2 * (2 * u)) by ring. apply rel_div; [unfold u; lra|unfold u; lra| |].
    + unfold p. replace (2 * u) with (0 + 2 * u) by ring. apply rel_rnd; [lra|apply rel_refl; nra|unfold tiny; nra].
    + unfold q. replace (2 * u) with (0 + 2 * u) by ring. apply rel_rnd; [lra|apply rel_refl; lra|unfold tiny; lra].
Qed.
Lemma min_val : fin (fmin (of_int A) (of_int B)) /\ val (fmin (of_int A) (of_int B)) = Rmin (IZR A) (IZR B).
Proof. apply min_val_sizes; assumption. Qed.
Lemma thr_ov : let v := rnd (a * Rmin (IZR A) (IZR B)) in Threshold Overlap alpha A B = Zceil v /\ rel (2 * u) (a * Rmin (IZR A) (IZR B)) v.
Proof.
  rng. intros v. destruct min_val as [F1 V1]. assert (1 <= Rmin (IZR A) (IZR B) <= 67108864) as Hm by (unfold Rmin; destruct (Rle_dec _ _); lra).
  destruct (op_mul _ _ fa F1) as [F3 V3]; [rewrite V1; fold a; un; nra|]. rewrite V1 in V3. fold a in V3. fold v in V3.
  assert (0 <= v <= 67108864) as Hv by (unfold v; split; [apply rnd_ge_fmt; [apply generic_format_0|nra]|apply rnd_le_fmt; [apply (fmt_int 67108864); lia|nra]]).
  split.
  - cbn [Threshold]. rewrite ceil_val; [rewrite V3; reflexivity|exact F3|]. rewrite V3. un. lra.
  - unfold v. replace (2 * u) with (0 + 2 * u) by ring. apply rel_rnd; [lra|apply rel_refl; nra|unfold tiny; nra].
Qed.
End Filters.
