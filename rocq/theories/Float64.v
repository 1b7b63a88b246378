(** IEEE-754 binary64 as Go's float64 on amd64 computes it: every operation rounds to
    nearest even, nothing is fused.  Coq's SpecFloat (standard library, no axioms) is
    the definition of the arithmetic.  Definitions only. *)
From Coq Require Export SpecFloat.
From Verif Require Import Base.
Local Open Scope Z_scope.

Notation f64 := spec_float.
Definition fadd : f64 -> f64 -> f64 := SFadd 53 1024.
Definition fsub : f64 -> f64 -> f64 := SFsub 53 1024.
Definition fmul : f64 -> f64 -> f64 := SFmul 53 1024.
Definition fdiv : f64 -> f64 -> f64 := SFdiv 53 1024.
Definition fsqrt : f64 -> f64 := SFsqrt 53 1024.
(* float64(i) for an int *)
Definition of_int (i : Z) : f64 := binary_normalize 53 1024 i 0 false.
Definition fle (x y : f64) : bool := SFleb x y.
Definition flt (x y : f64) : bool := SFltb x y.
Definition feq (x y : f64) : bool := SFeqb x y.
(* math.Min; the special cases of the standard library (Inf, NaN, signed zero) *)
Definition fmin (x y : f64) : f64 :=
  match x, y with
  | S754_infinity true, _ | _, S754_infinity true => S754_infinity true
  | S754_nan, _ | _, S754_nan => S754_nan
  | S754_zero sx, S754_zero sy => S754_zero (sx || sy)
  | _, _ => if flt x y then x else y
  end.
(* int(f) for an f that is already an integer or infinite or NaN: out of range values
   give the minimum int64 (amd64's CVTTSD2SQ) *)
Definition MinInt64 : Z := - 2 ^ 63.
Definition clip (z : Z) : Z := if (- 2 ^ 63 <=? z) && (z <? 2 ^ 63) then z else MinInt64.
Definition sgn (s : bool) (m : positive) : Z := if s then Zneg m else Zpos m.
(* int(math.Floor(x)) and int(math.Ceil(x)) *)
Definition int_floor (x : f64) : Z :=
  match x with
  | S754_zero _ => 0
  | S754_finite s m e => clip (if 0 <=? e then sgn s m * 2 ^ e else sgn s m / 2 ^ (- e))
  | _ => MinInt64
  end.
Definition int_ceil (x : f64) : Z :=
  match x with
  | S754_zero _ => 0
  | S754_finite s m e => clip (if 0 <=? e then sgn s m * 2 ^ e else - (- sgn s m / 2 ^ (- e)))
  | _ => MinInt64
  end.
(* a constant written as a decimal fraction that is exact in binary *)
Definition f_one : f64 := of_int 1.
Definition f_two : f64 := of_int 2.
Definition f_half : f64 := fdiv (of_int 1) (of_int 2).
Definition f_neg_inf : f64 := S754_infinity true.
