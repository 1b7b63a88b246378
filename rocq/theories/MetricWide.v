(** Similarities above 1, which a query with repeated tokens can produce. *)
From Coq Require Import ZifyBool Reals Lra Lia Psatz.
From Flocq Require Import Core BinarySingleNaN Relative.
From Verif Require Import Base BaseLemmas Float64 Metric MetricSpec MetricProofs FloatProofs MetricFloat MetricFloat2 MetricScore.
Local Open Scope R_scope.

Definition wide_ok (s : f64) : Prop := fin s /\ / 32768 <= val s <= 1048576.
Lemma ceil_pos x : fin x -> / 1267650600228229401496703205376 <= val x <= p63 / 2 -> (1 <= int_ceil x)%Z.
Proof.
  intros F H. rewrite ceil_val by (try exact F; lra). assert (0 < Zceil (val x))%Z; [|lia]. apply lt_IZR. eapply Rlt_le_trans; [|apply Zceil_ub]. lra.
Qed.
Lemma fmt_pow (k : Z) r : bpow radix2 k = r -> (-1000 <= k <= 1000)%Z -> fmt r.
Proof. intros <- H. apply fmt_bpow. exact H. Qed.
Lemma pow_m40 : bpow radix2 (-40) = / 1099511627776. Proof. reflexivity. Qed.
Lemma pow_60 : bpow radix2 60 = 1152921504606846976. Proof. reflexivity. Qed.
Lemma rnd_in x : / 1099511627776 <= x <= 1152921504606846976 -> / 1099511627776 <= rnd x <= 1152921504606846976.
Proof. intros H. split; [apply rnd_ge_fmt; [apply (fmt_pow (-40)); [exact pow_m40|lia]|lra]|apply rnd_le_fmt; [apply (fmt_pow 60); [exact pow_60|lia]|lra]]. Qed.

Lemma thr_wide d s A B : wide_ok s -> size_ok A -> size_ok B -> (1 <= Threshold d s A B)%Z.
Proof.
  intros [Fs Hs] HA HB. pose proof (size_R A HA). pose proof (size_R B HB). set (a := val s) in *.
  destruct d; cbn [Threshold].
  - destruct (prod_val A B HA HB) as [F1 V1]. destruct (sqrt_val _ F1) as [F2 V2]; [rewrite V1; nra|]. rewrite V1 in V2.
    assert (1 <= rnd (sqrt (IZR A * IZR B)) <= 67108864) as Hr.
    { assert (1 <= sqrt (IZR A * IZR B)) by (rewrite <- sqrt_1 at 1; apply sqrt_le_1_alt; nra).
      assert (sqrt (IZR A * IZR B) <= 67108864) by (replace 67108864 with (sqrt (67108864 * 67108864)) by (apply sqrt_square; lra); apply sqrt_le_1_alt; nra).
      split; [apply rnd_ge_fmt; [apply fmt_1|lra]|apply rnd_le_fmt; [apply (fmt_int 67108864); lia|lra]]. }
    rewrite <- V2 in Hr. destruct (op_mul _ _ Fs F2) as [F3 V3]; [fold a; un; nra|]. fold a in V3. apply ceil_pos; [exact F3|]. rewrite V3.
    pose proof (rnd_in (a * val (fsqrt (of_int (wrapi64 (A * B)))))) as Hi. unfold p63. assert (/ 1099511627776 <= a * val (fsqrt (of_int (wrapi64 (A * B)))) <= 1152921504606846976) by nra. lra.
  - destruct (sum_val A B HA HB) as [F1 V1]. destruct val_half as [Fh Vh].
    destruct (op_mul _ _ Fh Fs) as [F2 V2]; [rewrite Vh; fold a; un; lra|]. rewrite Vh in V2. fold a in V2.
    assert (/ 65536 <= val (fmul f_half s) <= 524288) as Hh.
    { rewrite V2. split; [apply rnd_ge_fmt; [apply (fmt_pow (-16)); [reflexivity|lia]|lra]|apply rnd_le_fmt; [apply (fmt_int 524288); lia|lra]]. }
    destruct (op_mul _ _ F2 F1) as [F3 V3]; [rewrite V1; un; nra|]. apply ceil_pos; [exact F3|]. rewrite V3, V1. unfold p63.
    pose proof (rnd_in (val (fmul f_half s) * (IZR A + IZR B))) as Hi. assert (/ 1099511627776 <= val (fmul f_half s) * (IZR A + IZR B) <= 1152921504606846976) by nra. lra.
  - destruct HA. lia.
  - destruct (sum_val A B HA HB) as [F1 V1]. destruct val_one as [Fo Vo].
    destruct (op_add _ _ Fo Fs) as [F2 V2]; [rewrite Vo; fold a; un; lra|]. rewrite Vo in V2. fold a in V2.
    assert (1 <= val (fadd f_one s) <= 2097152) as Hq.
    { rewrite V2. split; [apply rnd_ge_fmt; [apply fmt_1|lra]|apply rnd_le_fmt; [apply (fmt_int 2097152); lia|lra]]. }
    destruct (op_mul _ _ Fs F1) as [F3 V3]; [rewrite V1; fold a; un; nra|]. rewrite V1 in V3. fold a in V3.
    assert (/ 32768 <= val (fmul s (of_int (wrapi64 (A + B)))) <= 1152921504606846976 / 1024) as Hp.
    { rewrite V3. split; [apply rnd_ge_fmt; [apply (fmt_pow (-15)); [reflexivity|lia]|nra]|apply rnd_le_fmt; [apply (fmt_pow 50); [cbn; lra|lia]|nra]]. }
    set (p := val (fmul s (of_int (wrapi64 (A + B))))) in *. set (q := val (fadd f_one s)) in *.
    assert (/ 1099511627776 <= p / q <= 1152921504606846976) as Hd by (split; [apply le_div_iff; lra|apply div_le_iff; lra]).
    destruct (op_div _ _ F3 F2) as [F4 V4]; [fold q; lra|fold p q; un; lra|]. fold p q in V4. apply ceil_pos; [exact F4|]. rewrite V4. unfold p63. pose proof (rnd_in _ Hd). lra.
  - destruct (min_val_sizes A B HA HB) as [F1 V1]. assert (1 <= Rmin (IZR A) (IZR B) <= 67108864) as Hm by (unfold Rmin; destruct (Rle_dec _ _); lra).
    destruct (op_mul _ _ Fs F1) as [F3 V3]; [rewrite V1; fold a; un; nra|]. rewrite V1 in V3. fold a in V3. apply ceil_pos; [exact F3|]. rewrite V3. unfold p63.
    pose proof (rnd_in (a * Rmin (IZR A) (IZR B))) as Hi. assert (/ 1099511627776 <= a * Rmin (IZR A) (IZR B) <= 1152921504606846976) by nra. lra.
Qed.
Lemma rnd_clip x M : (0 <= M < 2 ^ 53)%Z -> - IZR M <= x <= IZR M -> - IZR M <= rnd x <= IZR M.
Proof. intros HM H. rewrite <- opp_IZR in *. split; [apply rnd_ge_fmt; [apply fmt_int; lia|lra]|apply rnd_le_fmt; [apply fmt_int; lia|lra]]. Qed.
Lemma sub_clip x y M : (0 <= M < 2 ^ 53)%Z -> fin x -> fin y -> - IZR M <= val x - val y <= IZR M -> fin (fsub x y) /\ - IZR M <= val (fsub x y) <= IZR M.
Proof.
  intros HM Fx Fy H. pose proof (rnd_clip _ M HM H) as Hr. destruct (sub_val x y Fx Fy) as [F V].
  - apply Rle_lt_trans with (IZR M); [apply Rabs_le; exact Hr|]. apply Rle_lt_trans with hi; [|exact hi_big]. apply p63_hi. unfold p63.
    apply Rle_trans with (IZR (2 ^ 53)); [apply IZR_le; lia|]. change (2 ^ 53)%Z with 9007199254740992%Z. lra.
  - rewrite V. split; assumption.
Qed.
Lemma score_wide d m A B : size_ok A -> size_ok B -> (0 <= m <= A)%Z -> (A <= 65535)%Z -> fin (Score d m A B) /\ val (Score d m A B) <= 1048576.
Proof.
  intros HA HB Hm HA2. pose proof (size_R A HA) as RA. pose proof (size_R B HB) as RB. pose proof HA as [A1 A2]. pose proof HB as [B1 B2].
  assert (0 <= IZR m <= 65535) as Rm by (split; apply IZR_le; lia). assert (IZR m <= IZR A) as RmA by (apply IZR_le; lia).
  destruct (of_int_val m ltac:(lia)) as [Fm Vm]. destruct val_one as [Fo Vo].
  assert (forall q, fin q -> 0 <= val q <= 65536 -> fin (fsub f_one (fsub f_one q)) /\ val (fsub f_one (fsub f_one q)) <= 1048576) as Hq.
  { intros q Fq Hq. destruct (sub_clip f_one q 65536 ltac:(lia) Fo Fq) as [F1 V1]; [lra|]. destruct (sub_clip f_one (fsub f_one q) 65537 ltac:(lia) Fo F1) as [F2 V2]; [lra|]. split; [exact F2|lra]. }
  assert (forall y, fin y -> 1 <= val y -> fin (fdiv (of_int m) y) /\ 0 <= val (fdiv (of_int m) y) <= 65536) as Hdiv.
  { intros y Fy Hy. assert (0 <= IZR m / val y <= 65536) as H by (split; [apply le_div_iff; lra|apply div_le_iff; nra]).
    destruct (op_div _ _ Fm Fy) as [F V]; [lra|rewrite Vm; un; lra|]. split; [exact F|]. rewrite V, Vm. split; [apply rnd_ge_fmt; [apply generic_format_0|lra]|apply rnd_le_fmt; [apply (fmt_int 65536); lia|lra]]. }
  unfold Score. destruct d; cbn [Distance].
  - destruct (prod_val A B HA HB) as [F1 V1]. destruct (sqrt_val _ F1) as [F2 V2]; [rewrite V1; nra|]. destruct (Hdiv _ F2) as [F3 V3]; [|apply Hq; assumption].
    rewrite V2. apply rnd_ge_fmt; [apply fmt_1|]. rewrite V1. rewrite <- sqrt_1 at 1. apply sqrt_le_1_alt. nra.
  - destruct (sum_val A B HA HB) as [F1 V1]. rewrite (wrapi64_small (2 * m)) by lia. destruct (of_int_val (2 * m) ltac:(lia)) as [F2 V2]. rewrite mult_IZR in V2.
    assert (0 <= 2 * IZR m / (IZR A + IZR B) <= 2) as H by (split; [apply le_div_iff; lra|apply div_le_iff; lra]).
    destruct (op_div _ _ F2 F1) as [F3 V3]; [rewrite V1; lra|rewrite V1, V2; un; lra|]. apply Hq; [exact F3|]. rewrite V3, V1, V2.
    split; [apply rnd_ge_fmt; [apply generic_format_0|lra]|apply rnd_le_fmt; [apply (fmt_int 65536); lia|lra]].
  - destruct (of_int_val 0 ltac:(lia)) as [F0 V0]. destruct (sub_clip f_one (of_int 0) 1 ltac:(lia) Fo F0) as [F1 V1]; [lra|]. split; [exact F1|lra].
  - rewrite (wrapi64_small (A + B)) by lia. rewrite (wrapi64_small (A + B - m)) by lia. destruct (of_int_val (A + B - m) ltac:(lia)) as [F1 V1]. rewrite minus_IZR, plus_IZR in V1.
    destruct (Hdiv _ F1) as [F3 V3]; [lra|]. apply Hq; assumption.
  - destruct (min_val_sizes A B HA HB) as [F1 V1]. destruct (Hdiv _ F1) as [F3 V3]; [|apply Hq; assumption]. rewrite V1. unfold Rmin. destruct (Rle_dec _ _); lra.
Qed.
