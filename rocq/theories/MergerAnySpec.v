(** Specification of the T-occurrence problem for lists with repetitions. *)
From Verif Require Import Base Postings PostingsSpec PostingsDrive Merger MergerSpec.
Local Open Scope Z_scope.

(** how often x occurs in a list; how many of the pairs are for x *)
Definition times (x : Z) (l : list Z) : nat := count_occ Z.eq_dec l x.
Definition copies (x : Z) (cs : list (Z * Z)) : nat := length (filter (fun xc => fst xc =? x) cs).

(** An answer with copies: (value, occurrences) pairs in ascending order of the values.
    Every value in at least T lists (and at least one) is there with its exact number of
    lists; nothing else is there but copies with at least T and at most that number; and
    there are no more copies of a value than it is repeated in one of the lists. *)
Definition is_answer_any (ls : list (list Z)) (T : Z) (cs : list (Z * Z)) : Prop :=
  StronglySorted (fun a b => fst a <= fst b) cs /\
  (forall x, 1 <= count x ls -> T <= count x ls -> In (x, count x ls) cs) /\
  (forall x c, In (x, c) cs -> 1 <= c <= count x ls /\ T <= c) /\
  (forall x n, Forall (fun l => (times x l <= n)%nat) ls -> (copies x cs <= n)%nat).

(** Iterators over ascending lists with repetitions. *)
Definition stands_any (it : iter) (l : list Z) : Prop :=
  ascending l /\ forall ops, iter_run it ops = cursor_run (zlen l) l ops.
Definition lists_any (rid : list iter) (ls : list (list Z)) : Prop := Forall2 stands_any rid ls.
