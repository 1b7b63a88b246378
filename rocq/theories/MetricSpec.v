(** Specification of the similarities: the set-theoretic coefficients and the filter
    formulas, over the real numbers. *)
From Coq Require Import Reals.
From Flocq Require Import Core.Raux.
From Verif Require Import Base Metric.
Local Open Scope R_scope.

(** similarity of sets of sizes A and B that have m elements in common *)
Definition similarity (d : metric) (m A B : Z) : R :=
  match d with
  | Cosine => IZR m / sqrt (IZR A * IZR B)
  | Dice => 2 * IZR m / (IZR A + IZR B)
  | Exact => if (A =? B)%Z && (m =? A)%Z then 1 else 0
  | Jaccard => IZR m / (IZR A + IZR B - IZR m)
  | Overlap => IZR m / Rmin (IZR A) (IZR B)
  end.
(** possible sizes of two nonempty sets and of their intersection *)
Definition sizes_ok (m A B : Z) : Prop := (1 <= A /\ 1 <= B /\ 0 <= m <= Z.min A B)%Z.
(** the formulas of pkg/metric, computed without rounding *)
Definition ideal_threshold (d : metric) (alpha : R) (A B : Z) : R :=
  match d with
  | Cosine => alpha * sqrt (IZR A * IZR B)
  | Dice => / 2 * alpha * (IZR A + IZR B)
  | Exact => IZR A
  | Jaccard => alpha * (IZR A + IZR B) / (1 + alpha)
  | Overlap => alpha * Rmin (IZR A) (IZR B)
  end.
Definition ideal_min (d : metric) (alpha : R) (A : Z) : R :=
  match d with
  | Cosine => alpha * alpha * IZR A
  | Dice => alpha / (2 - alpha) * IZR A
  | Exact => IZR A
  | Jaccard => alpha * IZR A
  | Overlap => 1
  end.
Definition ideal_max (d : metric) (alpha : R) (A : Z) : R :=
  match d with
  | Cosine => IZR A / (alpha * alpha)
  | Dice => (2 - alpha) / alpha * IZR A
  | Exact => IZR A
  | Jaccard => IZR A / alpha
  | Overlap => 32767
  end.
