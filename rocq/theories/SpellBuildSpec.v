(** Specification vocabulary for C87. *)
From Verif Require Import Base Float64 NGram.
Local Open Scope Z_scope.

(** The words a prediction after [seq] is conditioned on, in a model of an order: the last
    order - 1 words; if there are fewer, all of them after the start symbol.  (After exactly
    order words the program takes the first order - 1 of them: C51_recent_refuted.) *)
Definition context_of (order : Z) (first : bytes) (seq : list bytes) : list bytes :=
  if zlen seq <? order - 1 then first :: seq
  else if zlen seq =? order then firstn (Z.to_nat (order - 1)) seq
  else skipn (Z.to_nat (zlen seq - (order - 1))) seq.
(** The score of a next word that was seen [c] times after a context seen [n] times. *)
Definition next_score (flog : f64 -> f64) (c n : Z) : f64 :=
  if c =? 0 then UnknownWordScore else flog (fdiv (of_int c) (of_int n)).
(** What is asked of math.Log: on quotients of counts (at most 1, counts below 2^28) it is a
    number, strictly increasing in the numerator, and above the score of unknown words (-100). *)
Definition log_ok (flog : f64 -> f64) : Prop :=
  (forall c n, 0 < c <= n -> n < 2 ^ 28 -> flog (fdiv (of_int c) (of_int n)) <> S754_nan /\ flt UnknownWordScore (flog (fdiv (of_int c) (of_int n))) = true) /\
  (forall c c' n, 0 < c < c' -> c' <= n -> n < 2 ^ 28 -> flt (flog (fdiv (of_int c) (of_int n))) (flog (fdiv (of_int c') (of_int n))) = true).
