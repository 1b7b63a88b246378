(** The filter formulas over the real numbers (C35). *)
From Coq Require Import ZifyBool Reals Lra Lia Psatz.
From Flocq Require Import Core.
From Verif Require Import Base BaseLemmas Float64 Metric MetricSpec.
Local Open Scope R_scope.

Lemma metric_eq (d : metric) : {d = Exact} + {d <> Exact}.
Proof. destruct d; try (right; discriminate). left. reflexivity. Qed.
Lemma sizes_R m A B : sizes_ok m A B -> 1 <= IZR A /\ 1 <= IZR B /\ 0 <= IZR m /\ IZR m <= IZR A /\ IZR m <= IZR B.
Proof. intros (H1 & H2 & H3 & H4). repeat split; apply IZR_le; lia. Qed.
Lemma div_ge a x y : 0 < y -> (x / y >= a <-> a * y <= x).
Proof.
  intros Hy. split; intros H.
  - apply Rge_le in H. apply (Rmult_le_compat_r y) in H; [|lra]. unfold Rdiv in H. rewrite Rmult_assoc, Rinv_l, Rmult_1_r in H by lra. exact H.
  - apply Rle_ge. apply (Rmult_le_reg_r y); [exact Hy|]. unfold Rdiv. rewrite Rmult_assoc, Rinv_l, Rmult_1_r by lra. exact H.
Qed.
Lemma div_le_iff a x y : 0 < y -> (x / y <= a <-> x <= a * y).
Proof.
  intros Hy. split; intros H.
  - apply (Rmult_le_compat_r y) in H; [|lra]. unfold Rdiv in H. rewrite Rmult_assoc, Rinv_l, Rmult_1_r in H by lra. exact H.
  - apply (Rmult_le_reg_r y); [exact Hy|]. unfold Rdiv. rewrite Rmult_assoc, Rinv_l, Rmult_1_r by lra. exact H.
Qed.
Lemma le_div_iff a x y : 0 < y -> (a <= x / y <-> a * y <= x).
Proof. intros Hy. rewrite <- (div_ge a x y Hy). split; [apply Rle_ge|apply Rge_le]. Qed.
Lemma sqrt_AB A B : 1 <= IZR A -> 1 <= IZR B -> 0 < sqrt (IZR A * IZR B) /\ sqrt (IZR A * IZR B) * sqrt (IZR A * IZR B) = IZR A * IZR B.
Proof. intros. split; [apply sqrt_lt_R0; nra|apply sqrt_sqrt; nra]. Qed.
Lemma Rmin_pos A B : 1 <= IZR A -> 1 <= IZR B -> 0 < Rmin (IZR A) (IZR B).
Proof. intros. unfold Rmin. destruct (Rle_dec _ _); lra. Qed.

(** the threshold alone, for the four proper coefficients *)
Lemma threshold_iff d alpha m A B : d <> Exact -> 0 < alpha -> sizes_ok m A B ->
  similarity d m A B >= alpha <-> ideal_threshold d alpha A B <= IZR m.
Proof.
  intros Hd Ha Hs. destruct (sizes_R m A B Hs) as (HA & HB & Hm & HmA & HmB). destruct d; cbn [similarity ideal_threshold]; try congruence.
  - destruct (sqrt_AB A B HA HB) as [Hp _]. rewrite div_ge by exact Hp. tauto.
  - rewrite div_ge by lra. split; intros; lra.
  - rewrite div_ge by lra. rewrite div_le_iff by lra. split; intros; nra.
  - rewrite div_ge by (apply Rmin_pos; assumption). tauto.
Qed.
Lemma bounds_ok d alpha m A B : d <> Exact -> (d = Overlap -> (B <= 32767)%Z) -> (d = Dice -> alpha < 2) -> 0 < alpha -> sizes_ok m A B ->
  ideal_threshold d alpha A B <= IZR m -> ideal_min d alpha A <= IZR B <= ideal_max d alpha A.
Proof.
  intros Hd Ho H2 Ha Hs. destruct (sizes_R m A B Hs) as (HA & HB & Hm & HmA & HmB). destruct d; cbn [ideal_threshold ideal_min ideal_max]; try congruence; intros H.
  - destruct (sqrt_AB A B HA HB) as [Hp Hq]. set (s := sqrt (IZR A * IZR B)) in *.
    assert (alpha * s <= IZR A /\ alpha * s <= IZR B) as [H3 H4] by lra. assert (0 < alpha * s) by (apply Rmult_lt_0_compat; lra).
    assert ((alpha * s) * (alpha * s) <= IZR A * IZR A) by (apply Rmult_le_compat; lra).
    assert ((alpha * s) * (alpha * s) <= IZR B * IZR B) by (apply Rmult_le_compat; lra).
    replace (alpha * s * (alpha * s)) with (alpha * alpha * (IZR A * IZR B)) in * by (rewrite <- Hq; ring).
    split.
    + apply (Rmult_le_reg_r (IZR B)); [lra|]. lra.
    + apply le_div_iff; [nra|]. apply (Rmult_le_reg_r (IZR A)); [lra|]. lra.
  - specialize (H2 eq_refl). split.
    + unfold Rdiv. rewrite Rmult_assoc, (Rmult_comm (/ (2 - alpha))), <- Rmult_assoc. apply (div_le_iff (IZR B) (alpha * IZR A) (2 - alpha)); [lra|]. lra.
    + unfold Rdiv. rewrite Rmult_assoc, (Rmult_comm (/ alpha)), <- Rmult_assoc. apply (le_div_iff (IZR B) ((2 - alpha) * IZR A) alpha); [lra|]. lra.
  - apply div_le_iff in H; [|lra]. split; [nra|]. apply le_div_iff; [lra|]. nra.
  - specialize (Ho eq_refl). split; [lra|]. apply IZR_le. lia.
Qed.
Lemma Zceil_le_iff x n : (Zceil x <= n)%Z <-> x <= IZR n.
Proof. split; [intros H; apply Rle_trans with (IZR (Zceil x)); [apply Zceil_ub|apply IZR_le; exact H]|apply Zceil_glb]. Qed.
Lemma Zfloor_ge_iff x n : (n <= Zfloor x)%Z <-> IZR n <= x.
Proof. split; [intros H; apply Rle_trans with (IZR (Zfloor x)); [apply IZR_le; exact H|apply Zfloor_lb]|apply Zfloor_lub]. Qed.
Lemma filters_iff d alpha m A B : 0 < alpha <= 1 -> (d = Overlap -> (B <= 32767)%Z) -> sizes_ok m A B ->
  similarity d m A B >= alpha <->
  (Zceil (ideal_min d alpha A) <= B <= Zfloor (ideal_max d alpha A))%Z /\ (Zceil (ideal_threshold d alpha A B) <= m)%Z.
Proof.
  intros Ha Ho Hs. rewrite !Zceil_le_iff, Zfloor_ge_iff. destruct (metric_eq d) as [->|Hd].
  2:{ rewrite (threshold_iff d alpha m A B Hd) by (try lra; exact Hs). split; [|tauto]. intros H. split; [|exact H]. apply (bounds_ok d alpha m A B); auto; lra. }
  cbn [similarity ideal_min ideal_max ideal_threshold]. split.
  - destruct ((A =? B)%Z && (m =? A)%Z) eqn:E; [|intros; lra]. intros _. assert (A = B /\ m = A)%Z as [<- ->] by lia. lra.
  - intros ((H1 & H2) & H3). apply le_IZR in H1, H2, H3. destruct Hs as (_ & _ & Hm). replace ((A =? B)%Z && (m =? A)%Z) with true by lia. lra.
Qed.
