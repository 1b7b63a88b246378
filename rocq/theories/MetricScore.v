(** The score computed from an overlap count, against the real similarity (C36). *)
From Coq Require Import ZifyBool Reals Lra Lia Psatz.
From Flocq Require Import Core BinarySingleNaN Relative.
From Verif Require Import Base BaseLemmas Float64 Metric MetricSpec MetricProofs FloatProofs MetricFloat MetricFloat2.
Local Open Scope R_scope.

Lemma rnd_abs x : 0 <= x <= 1 -> Rabs (rnd x - x) <= u.
Proof.
  intros H. destruct (Rle_dec lo x) as [Hl|Hl].
  - destruct (rnd_rel x Hl). apply Rabs_le. pose proof u_pos. nra.
  - assert (0 <= rnd x <= lo) as Hr by (split; [apply rnd_ge_fmt; [apply generic_format_0|lra]|apply rnd_le_fmt; [apply fmt_bpow; lia|lra]]).
    assert (lo <= u) by (apply Rle_trans with (bpow radix2 (-53)); [apply bpow_le; lia|cbn [bpow]; change (Z.pow_pos radix2 53) with 9007199254740992%Z; unfold u; lra]).
    apply Rabs_le. lra.
Qed.
Lemma rnd_unit x : 0 <= x <= 1 -> 0 <= rnd x <= 1.
Proof. intros H. split; [apply rnd_ge_fmt; [apply generic_format_0|lra]|apply rnd_le_fmt; [apply fmt_1|lra]]. Qed.
(* 1 - (1 - q) in binary64 *)
Lemma score_of q : fin q -> 0 <= val q <= 1 ->
  fin (fsub f_one (fsub f_one q)) /\ val (fsub f_one (fsub f_one q)) = rnd (1 - rnd (1 - val q)).
Proof.
  intros Fq Hq. destruct val_one as [F1 V1]. destruct (op_sub f_one q F1 Fq) as [F2 V2]; [rewrite V1; un; lra|]. rewrite V1 in V2.
  pose proof (rnd_unit (1 - val q) ltac:(lra)) as Hr.
  destruct (op_sub f_one _ F1 F2) as [F3 V3]; [rewrite V1, V2; un; lra|]. rewrite V1, V2 in V3. split; assumption.
Qed.
Definition den (d : metric) (m A B : Z) : R :=
  match d with
  | Cosine => sqrt (IZR A * IZR B)
  | Dice => IZR A + IZR B
  | Exact => 1
  | Jaccard => IZR A + IZR B - IZR m
  | Overlap => Rmin (IZR A) (IZR B)
  end.
Definition num (d : metric) (m : Z) : R := match d with Dice => 2 * IZR m | _ => IZR m end.
Lemma quot_val d m A B : d <> Exact -> size_ok A -> size_ok B -> (0 <= m)%Z -> (m <= A)%Z -> (m <= B)%Z ->
  exists q, Score d m A B = fsub f_one (fsub f_one q) /\ fin q /\ val q = rnd (num d m / rnd (den d m A B)) /\ 0 <= num d m / rnd (den d m A B) <= 1
    /\ 1 <= rnd (den d m A B) /\ 1 <= den d m A B /\ similarity d m A B = num d m / den d m A B.
Proof.
  intros Hd HA HB Hm HmA HmB. pose proof (size_R A HA) as RA. pose proof (size_R B HB) as RB.
  assert (0 <= IZR m) as R0 by (apply IZR_le; lia). assert (IZR m <= IZR A) as R1 by (apply IZR_le; lia). assert (IZR m <= IZR B) as R2 by (apply IZR_le; lia).
  pose proof HA as [A1 A2]. pose proof HB as [B1 B2].
  destruct (of_int_val m ltac:(lia)) as [Fm Vm]. pose proof (fmt_int m ltac:(lia)) as Gm.
  destruct d; try congruence; unfold Score; cbn [Distance num den similarity].
  - destruct (prod_val A B HA HB) as [F1 V1]. destruct (sqrt_val _ F1) as [F2 V2]; [rewrite V1; nra|]. rewrite V1 in V2.
    set (s := sqrt (IZR A * IZR B)) in *.
    assert (1 <= s) as Hs by (unfold s; rewrite <- sqrt_1 at 1; apply sqrt_le_1_alt; nra).
    assert (IZR m <= s) as Hms by (unfold s; rewrite <- (sqrt_square (IZR m)) by lra; apply sqrt_le_1_alt; nra).
    assert (1 <= rnd s) as Hr1 by (apply rnd_ge_fmt; [apply fmt_1|lra]). assert (IZR m <= rnd s) as Hr2 by (apply rnd_ge_fmt; [exact Gm|lra]).
    assert (0 <= IZR m / rnd s <= 1) as Hq by (split; [apply le_div_iff; lra|apply div_le_iff; lra]).
    destruct (op_div _ _ Fm F2) as [F3 V3]; [rewrite V2; lra|rewrite Vm, V2; un; lra|]. rewrite Vm, V2 in V3.
    eexists. split; [reflexivity|]. repeat (split; [first [exact F3|exact V3|assumption|apply Hq]|]). reflexivity.
  - destruct (sum_val A B HA HB) as [F1 V1]. rewrite (wrapi64_small (2 * m)) by lia. destruct (of_int_val (2 * m) ltac:(lia)) as [F2 V2]. rewrite mult_IZR in V2.
    assert (rnd (IZR A + IZR B) = IZR A + IZR B) as Er by (apply rnd_fmt; rewrite <- plus_IZR; apply fmt_int; lia). rewrite Er.
    assert (0 <= 2 * IZR m / (IZR A + IZR B) <= 1) as Hq by (split; [apply le_div_iff; lra|apply div_le_iff; lra]).
    destruct (op_div _ _ F2 F1) as [F3 V3]; [rewrite V1; lra|rewrite V1, V2; un; lra|]. rewrite V1, V2 in V3.
    eexists. split; [reflexivity|]. repeat (split; [first [exact F3|exact V3|assumption|apply Hq|lra]|]). reflexivity.
  - rewrite (wrapi64_small (A + B)) by lia. rewrite (wrapi64_small (A + B - m)) by lia. destruct (of_int_val (A + B - m) ltac:(lia)) as [F1 V1]. rewrite minus_IZR, plus_IZR in V1.
    assert (rnd (IZR A + IZR B - IZR m) = IZR A + IZR B - IZR m) as Er by (apply rnd_fmt; rewrite <- plus_IZR, <- minus_IZR; apply fmt_int; lia). rewrite Er.
    assert (0 <= IZR m / (IZR A + IZR B - IZR m) <= 1) as Hq by (split; [apply le_div_iff; lra|apply div_le_iff; lra]).
    destruct (op_div _ _ Fm F1) as [F3 V3]; [rewrite V1; lra|rewrite V1, Vm; un; lra|]. rewrite V1, Vm in V3.
    eexists. split; [reflexivity|]. repeat (split; [first [exact F3|exact V3|assumption|apply Hq|lra]|]). reflexivity.
  - destruct (min_val_sizes A B HA HB) as [F1 V1]. assert (1 <= Rmin (IZR A) (IZR B)) as H1 by (unfold Rmin; destruct (Rle_dec _ _); lra).
    assert (IZR m <= Rmin (IZR A) (IZR B)) as H2 by (unfold Rmin; destruct (Rle_dec _ _); lra).
    assert (rnd (Rmin (IZR A) (IZR B)) = Rmin (IZR A) (IZR B)) as Er by (apply rnd_fmt; unfold Rmin; destruct (Rle_dec _ _); apply fmt_A; assumption). rewrite Er.
    assert (0 <= IZR m / Rmin (IZR A) (IZR B) <= 1) as Hq by (split; [apply le_div_iff; lra|apply div_le_iff; lra]).
    destruct (op_div _ _ Fm F1) as [F3 V3]; [rewrite V1; lra|rewrite V1, Vm; un; lra|]. rewrite V1, Vm in V3.
    eexists. split; [reflexivity|]. repeat (split; [first [exact F3|exact V3|assumption|apply Hq|lra]|]). reflexivity.
Qed.
Definition eps : R := / 1125899906842624.   (* 2^-50 *)
Lemma eps_u : eps = 8 * u. Proof. unfold eps, u. lra. Qed.
Lemma score_accurate d m A B : d <> Exact -> size_ok A -> size_ok B -> (0 <= m)%Z -> (m <= A)%Z -> (m <= B)%Z ->
  fin (Score d m A B) /\ 0 <= val (Score d m A B) <= 1 /\ Rabs (val (Score d m A B) - similarity d m A B) <= eps.
Proof.
  intros Hd HA HB Hm HmA HmB. destruct (quot_val d m A B Hd HA HB Hm HmA HmB) as (q & -> & Fq & Vq & Hq & Hr & Hn & ->).
  assert (0 <= val q <= 1) as Hv by (rewrite Vq; apply rnd_unit; exact Hq). destruct (score_of q Fq Hv) as [Fs Vs].
  split; [exact Fs|]. rewrite Vs. pose proof (rnd_unit (1 - val q) ltac:(lra)) as H1. pose proof (rnd_unit (1 - rnd (1 - val q)) ltac:(lra)) as H2. split; [exact H2|].
  pose proof (rnd_abs (1 - val q) ltac:(lra)) as E1. pose proof (rnd_abs (1 - rnd (1 - val q)) ltac:(lra)) as E2. pose proof (rnd_abs _ Hq) as E3. rewrite <- Vq in E3.
  assert (Rabs (num d m / rnd (den d m A B) - num d m / den d m A B) <= 2 * u) as E4.
  { set (D := den d m A B) in *. destruct (rnd_rel D) as [L1 L2]; [apply tiny_lo; unfold tiny; lra|]. pose proof u_pos as Hu.
    replace (num d m / rnd D - num d m / D) with (num d m / rnd D * ((D - rnd D) / D)) by (field; lra).
    rewrite Rabs_mult, (Rabs_pos_eq (num d m / rnd D)) by lra. assert (Rabs ((D - rnd D) / D) <= u).
    { apply Rabs_le. split; [apply le_div_iff; lra|apply div_le_iff; lra]. }
    pose proof (Rabs_pos ((D - rnd D) / D)). nra. }
  apply Rabs_le_inv in E1, E2, E3, E4. apply Rabs_le. rewrite eps_u. pose proof u_pos. lra.
Qed.
Lemma score_monotone d m m' A B : d <> Exact -> size_ok A -> size_ok B -> (0 <= m <= m')%Z -> (m' <= A)%Z -> (m' <= B)%Z ->
  val (Score d m A B) <= val (Score d m' A B).
Proof.
  intros Hd HA HB Hm HmA HmB. destruct (quot_val d m A B Hd HA HB ltac:(lia) ltac:(lia) ltac:(lia)) as (q & -> & Fq & Vq & Hq & Hr & Hn & _).
  destruct (quot_val d m' A B Hd HA HB ltac:(lia) HmA HmB) as (q' & -> & Fq' & Vq' & Hq' & Hr' & Hn' & _).
  assert (0 <= val q <= 1) as Hv by (rewrite Vq; apply rnd_unit; exact Hq). destruct (score_of q Fq Hv) as [_ ->].
  assert (0 <= val q' <= 1) as Hv' by (rewrite Vq'; apply rnd_unit; exact Hq'). destruct (score_of q' Fq' Hv') as [_ ->].
  apply rnd_le. apply Rplus_le_compat_l, Ropp_le_contravar. apply rnd_le. apply Rplus_le_compat_l, Ropp_le_contravar. rewrite Vq, Vq'. apply rnd_le.
  assert (IZR m <= IZR m') as L by (apply IZR_le; lia). assert (0 <= IZR m) as L0 by (apply IZR_le; lia).
  assert (0 <= num d m <= num d m') as Ln by (unfold num; destruct d; lra).
  assert (rnd (den d m' A B) <= rnd (den d m A B)) as Ld by (apply rnd_le; unfold den; destruct d; lra).
  apply div_le_iff; [lra|]. unfold Rdiv. rewrite Rmult_assoc. apply Rle_trans with (num d m' * 1); [lra|]. apply Rmult_le_compat_l; [lra|].
  rewrite Rmult_comm. apply le_div_iff; lra.
Qed.
