(** Model of pkg/metric and pkg/suggest/scorer.go.  Definitions only. *)
From Verif Require Import Base Float64.
Local Open Scope Z_scope.

Inductive metric := Cosine | Dice | Exact | Jaccard | Overlap.

(* cosine.go:12-14, dice.go:12-14, exact.go:10-12, jaccard.go:12-14, overlap.go:12-14 *)
Definition MinY (m : metric) (alpha : f64) (size : Z) : Z :=
  match m with
  | Cosine => int_ceil (fmul (fmul alpha alpha) (of_int size))
  | Dice => int_ceil (fmul (fdiv alpha (fsub f_two alpha)) (of_int size))
  | Exact => size
  | Jaccard => int_ceil (fmul alpha (of_int size))
  | Overlap => 1
  end.
(* cosine.go:16-18, dice.go:16-18, exact.go:14-16, jaccard.go:16-18, overlap.go:16-18 *)
Definition MaxY (m : metric) (alpha : f64) (size : Z) : Z :=
  match m with
  | Cosine => int_floor (fdiv (of_int size) (fmul alpha alpha))
  | Dice => int_floor (fmul (fdiv (fsub f_two alpha) alpha) (of_int size))
  | Exact => size
  | Jaccard => int_floor (fdiv (of_int size) alpha)
  | Overlap => 32767
  end.
(* cosine.go:20-22, dice.go:20-22, exact.go:18-20, jaccard.go:20-22, overlap.go:20-22 *)
Definition Threshold (m : metric) (alpha : f64) (sizeA sizeB : Z) : Z :=
  match m with
  | Cosine => int_ceil (fmul alpha (fsqrt (of_int (wrapi64 (sizeA * sizeB)))))
  | Dice => int_ceil (fmul (fmul f_half alpha) (of_int (wrapi64 (sizeA + sizeB))))
  | Exact => sizeA
  | Jaccard => int_ceil (fdiv (fmul alpha (of_int (wrapi64 (sizeA + sizeB)))) (fadd f_one alpha))
  | Overlap => int_ceil (fmul alpha (fmin (of_int sizeA) (of_int sizeB)))
  end.
(* cosine.go:24-26, dice.go:24-26, exact.go:22-24, jaccard.go:25-27, overlap.go:24-26 *)
Definition Distance (m : metric) (inter sizeA sizeB : Z) : f64 :=
  match m with
  | Cosine => fsub f_one (fdiv (of_int inter) (fsqrt (of_int (wrapi64 (sizeA * sizeB)))))
  | Dice => fsub f_one (fdiv (of_int (wrapi64 (2 * inter))) (of_int (wrapi64 (sizeA + sizeB))))
  | Exact => of_int 0
  | Jaccard => fsub f_one (fdiv (of_int inter) (of_int (wrapi64 (wrapi64 (sizeA + sizeB) - inter))))
  | Overlap => fsub f_one (fdiv (of_int inter) (fmin (of_int sizeA) (of_int sizeB)))
  end.
(* pkg/suggest/scorer.go:29-31 *)
Definition Score (m : metric) (inter sizeA sizeB : Z) : f64 := fsub f_one (Distance m inter sizeA sizeB).
