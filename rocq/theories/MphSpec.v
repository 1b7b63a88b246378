(** Specification vocabulary for C54-C58. *)
From Coq Require Import String Permutation Sorting.Sorted.
From Verif Require Import Base.
Local Open Scope Z_scope.

(** sort.Slice: the same buckets, none before a bigger one. *)
Definition sorts_by_size (srt : list (list Z) -> list (list Z)) : Prop :=
  forall bs, Permutation bs (srt bs) /\ StronglySorted (fun a b => zlen b <= zlen a) (srt bs).
Definition byte_sum (w : bytes) : Z := fold_right Z.add 0 w.
