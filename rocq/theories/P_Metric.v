(** Properties C35-C37 (pkg/metric, pkg/suggest/scorer.go).  [similarity] is the
    set-theoretic coefficient over the reals; [ideal_*] are the filter formulas without
    rounding; [MinY], [MaxY], [Threshold], [Score] are the binary64 computations of the
    code.  [val] is the real number a finite double stands for. *)
From Coq Require Import ZifyBool Reals Lra Lia.
From Flocq Require Import Core.Raux.
From Verif Require Import Base BaseLemmas Float64 Metric MetricSpec MetricProofs FloatProofs MetricFloat MetricFloat2 MetricScore.
Local Open Scope R_scope.

(** C35: for sets of sizes A, B >= 1 with m common elements the similarity reaches
    alpha iff m reaches the threshold, and then B is inside the size bounds, with real
    arithmetic.  (The overlap metric's upper bound is the constant 32767.) *)
Theorem C35_filters_exact : forall d alpha m A B, 0 < alpha <= 1 -> (d = Overlap -> (B <= 32767)%Z) -> sizes_ok m A B ->
  (similarity d m A B >= alpha <->
   (Zceil (ideal_min d alpha A) <= B <= Zfloor (ideal_max d alpha A) /\ Zceil (ideal_threshold d alpha A B) <= m)%Z).
Proof. exact filters_iff. Qed.
Print Assumptions C35_filters_exact.
Theorem C35_threshold_decides : forall d alpha m A B, d <> Exact -> 0 < alpha -> sizes_ok m A B ->
  (similarity d m A B >= alpha <-> (Zceil (ideal_threshold d alpha A B) <= m)%Z).
Proof. intros d alpha m A B Hd Ha Hs. rewrite Zceil_le_iff. apply threshold_iff; assumption. Qed.
Print Assumptions C35_threshold_decides.
(** ... and without the 32767 cap it is false for the overlap metric: a large entry that
    contains the whole query has similarity 1 but is outside the size bounds. *)
Theorem C35_overlap_cap_refuted : exists m A B, sizes_ok m A B /\ similarity Overlap m A B >= 1 /\
  ~ (Zceil (ideal_min Overlap 1 A) <= B <= Zfloor (ideal_max Overlap 1 A))%Z /\ ~ (MinY Overlap f_one A <= B <= MaxY Overlap f_one A)%Z.
Proof.
  exists 3%Z, 3%Z, 40000%Z. split; [unfold sizes_ok; lia|]. split.
  - cbn [similarity]. unfold Rmin. destruct (Rle_dec 3 40000); lra.
  - cbn [ideal_min ideal_max MinY MaxY]. rewrite (Zceil_IZR 1), (Zfloor_IZR 32767). lia.
Qed.
Print Assumptions C35_overlap_cap_refuted.
Example C35_nonvacuous : sizes_ok 3 4 5 /\ similarity Jaccard 3 4 5 >= / 2 /\ ~ similarity Jaccard 2 4 5 >= / 2.
Proof. cbn [similarity]. split; [unfold sizes_ok; lia|]. lra. Qed.

(** C36 is false: rounding makes each metric drop an entry whose own computed score is
    exactly the requested similarity - by the overlap threshold ... *)
Definition passes (d : metric) (alpha : f64) (m A B : Z) : bool :=
  ((MinY d alpha A <=? B) && (B <=? MaxY d alpha A) && (Threshold d alpha A B <=? m))%Z.
Theorem C36_filters_exact_refuted : forall d, d <> Exact -> exists alpha m A B, sizes_ok m A B /\ flt (of_int 0) alpha = true /\ fle alpha f_one = true /\
  fle alpha (Score d m A B) = true /\ (m < Threshold d alpha A B)%Z /\ passes d alpha m A B = false.
Proof.
  intros d Hd. destruct d; try congruence.
  - exists (Score Cosine 1 1 6), 1%Z, 1%Z, 6%Z. repeat split; try lia; vm_compute; reflexivity.
  - exists (Score Dice 1 1 10), 1%Z, 1%Z, 10%Z. repeat split; try lia; vm_compute; reflexivity.
  - exists (Score Jaccard 1 1 9), 1%Z, 1%Z, 9%Z. repeat split; try lia; vm_compute; reflexivity.
  - exists (Score Overlap 1 9 9), 1%Z, 9%Z, 9%Z. repeat split; try lia; vm_compute; reflexivity.
Qed.
Print Assumptions C36_filters_exact_refuted.
(** ... or by the size bounds. *)
Theorem C36_size_bounds_exact_refuted : forall d, d <> Exact -> d <> Overlap ->
  (exists m A B, sizes_ok m A B /\ (B < MinY d (Score d m A B) A)%Z) /\ (exists m A B, sizes_ok m A B /\ (MaxY d (Score d m A B) A < B)%Z).
Proof.
  intros d Hd Ho. destruct d; try congruence; split.
  - exists 1%Z, 3%Z, 1%Z. repeat split; try lia; vm_compute; reflexivity.
  - exists 1%Z, 1%Z, 3%Z. repeat split; try lia; vm_compute; reflexivity.
  - exists 4%Z, 7%Z, 4%Z. repeat split; try lia; vm_compute; reflexivity.
  - exists 1%Z, 1%Z, 10%Z. repeat split; try lia; vm_compute; reflexivity.
  - exists 1%Z, 9%Z, 1%Z. repeat split; try lia; vm_compute; reflexivity.
  - exists 1%Z, 1%Z, 9%Z. repeat split; try lia; vm_compute; reflexivity.
Qed.
Print Assumptions C36_size_bounds_exact_refuted.
(** What holds as computed: an entry whose real similarity exceeds the requested one by
    a relative 2^-46 passes all filters, and what passes them has at least the
    requested similarity less a relative 2^-46 (sizes below 2^26, alpha >= 2^-15). *)
Theorem C36_nothing_similar_is_lost_partial : forall d alpha m A B, alpha_ok alpha -> size_ok A -> size_ok B ->
  (d = Overlap -> (B <= 32767)%Z) -> sizes_ok m A B -> similarity d m A B >= val alpha * (1 + / 2 ^ 46) ->
  (MinY d alpha A <= B <= MaxY d alpha A /\ Threshold d alpha A B <= m)%Z.
Proof. intros d alpha m A B Ha HA HB Ho Hs H. apply no_loss; auto. replace delta with (/ 2 ^ 46) by (unfold delta; lra). exact H. Qed.
Print Assumptions C36_nothing_similar_is_lost_partial.
Theorem C36_nothing_dissimilar_passes_partial : forall d alpha m A B, alpha_ok alpha -> size_ok A -> size_ok B -> sizes_ok m A B ->
  (MinY d alpha A <= B <= MaxY d alpha A)%Z -> (Threshold d alpha A B <= m)%Z -> similarity d m A B >= val alpha * (1 - / 2 ^ 46).
Proof. intros d alpha m A B Ha HA HB Hs Hb Ht. replace (/ 2 ^ 46) with delta by (unfold delta; lra). apply no_gain; assumption. Qed.
Print Assumptions C36_nothing_dissimilar_passes_partial.
(** The reported score is the similarity up to 2^-50, lies in [0,1], and grows with the
    overlap. *)
Theorem C36_score_accurate : forall d m A B, d <> Exact -> size_ok A -> size_ok B -> (0 <= m)%Z -> (m <= A)%Z -> (m <= B)%Z ->
  fin (Score d m A B) /\ 0 <= val (Score d m A B) <= 1 /\ Rabs (val (Score d m A B) - similarity d m A B) <= / 2 ^ 50.
Proof. intros d m A B Hd HA HB H1 H2 H3. replace (/ 2 ^ 50) with eps by (unfold eps; lra). apply score_accurate; assumption. Qed.
Print Assumptions C36_score_accurate.
Theorem C36_score_monotone : forall d m m' A B, d <> Exact -> size_ok A -> size_ok B -> (0 <= m <= m')%Z -> (m' <= A)%Z -> (m' <= B)%Z ->
  val (Score d m A B) <= val (Score d m' A B).
Proof. exact score_monotone. Qed.
Print Assumptions C36_score_monotone.
(** The exact-match metric computes no fractions: its filters are exact. *)
Theorem C36_exact_metric : forall alpha m A B, sizes_ok m A B -> (passes Exact alpha m A B = true <-> A = B /\ m = A) /\ Score Exact m A B = f_one.
Proof. intros alpha m A B (H1 & H2 & H3). unfold passes. cbn [MinY MaxY Threshold]. split; [lia|vm_compute; reflexivity]. Qed.
Print Assumptions C36_exact_metric.
Example C36_nonvacuous : let alpha := fdiv f_one f_two in alpha_ok alpha /\ size_ok 4 /\ size_ok 5 /\ sizes_ok 3 4 5 /\ passes Cosine alpha 3 4 5 = true /\
  passes Jaccard alpha 3 4 5 = true /\ passes Dice alpha 3 4 5 = true /\ passes Overlap alpha 3 4 5 = true /\ passes Jaccard alpha 2 4 5 = false /\
  similarity Jaccard 3 4 5 >= val alpha.
Proof.
  assert (val (fdiv f_one f_two) = / 2) as V by exact (proj2 val_half).
  cbn zeta. split; [split; [exact (proj1 val_half)|rewrite V; lra]|]. unfold size_ok, sizes_ok. repeat (split; [first [lia|vm_compute; reflexivity]|]).
  cbn [similarity]. rewrite V. lra.
Qed.

(** C37: an entry with exactly the query's tokens passes every filter as computed, for
    similarities from 2^-15 to 1 and sizes below 2^26 (32767 for the overlap metric). *)
Theorem C37_identical_passes_partial : forall d alpha A, alpha_ok alpha -> size_ok A -> (d = Overlap -> (A <= 32767)%Z) ->
  (MinY d alpha A <= A <= MaxY d alpha A /\ 1 <= Threshold d alpha A A <= A)%Z.
Proof. exact identical_passes. Qed.
Print Assumptions C37_identical_passes_partial.
(** Full claim: all similarities in (0,1].  False: for tiny similarities the upper size
    bound overflows int (1/alpha^2 > 2^63) and becomes negative. *)
Definition tiny_alpha : f64 := S754_finite false 4503599627370496 (-86).   (* 2^-34 *)
Theorem C37_identical_passes_refuted : fin tiny_alpha /\ 0 < val tiny_alpha <= 1 /\ MaxY Cosine tiny_alpha 1 = MinInt64 /\ passes Cosine tiny_alpha 1 1 1 = false.
Proof.
  split; [split; vm_compute; reflexivity|]. split; [|split; vm_compute; reflexivity].
  unfold tiny_alpha. rewrite val_finite. cbn [sgn].
  change (Flocq.Core.Raux.bpow Flocq.Core.Zaux.radix2 (-86)) with (/ IZR (Z.pow_pos 2 86)). change (Z.pow_pos 2 86) with 77371252455336267181195264%Z. lra.
Qed.
Print Assumptions C37_identical_passes_refuted.
Example C37_nonvacuous : let alpha := fdiv f_one f_two in alpha_ok alpha /\ size_ok 7 /\ (MinY Cosine alpha 7 = 2 /\ MaxY Cosine alpha 7 = 28 /\ Threshold Cosine alpha 7 7 = 4)%Z.
Proof.
  assert (val (fdiv f_one f_two) = / 2) as V by exact (proj2 val_half).
  split; [split; [exact (proj1 val_half)|rewrite V; lra]|]. split; [unfold size_ok; lia|]. vm_compute. auto.
Qed.
