(** Specification vocabulary for C45 and C66. *)
From Coq Require Import Reals.
From Verif Require Import Base Float64 FloatProofs.
Local Open Scope Z_scope.

(** The value of a string of decimal digits, and the decimal numerals with a sign. *)
Definition is_digit (c : Z) : Prop := 48 <= c <= 57.
Fixpoint decimal (s : bytes) (acc : Z) : Z := match s with [] => acc | c :: t => decimal t (10 * acc + (c - 48)) end.
Definition numeral (s : bytes) (v : Z) : Prop :=
  exists digits, digits <> [] /\ Forall is_digit digits /\
  ((s = digits \/ s = 43 :: digits) /\ v = decimal digits 0 \/ s = 45 :: digits /\ v = - decimal digits 0).
(** A number in (0, 1]. *)
Definition unit_number (x : f64) : Prop := fin x /\ (0 < val x <= 1)%R.
