(** Specification vocabulary for C61, C62. *)
From Coq Require Import Permutation Sorted.
From Verif Require Import Base Float64 Index TopK AutocompleteSpec.
Local Open Scope Z_scope.

(** The completions: the entries that have every one of the terms, each with its score. *)
Definition completion_of (sc : Z -> f64) (doc : Z * list term) : cand := mkCand (fst doc) (sc (fst doc)).
Definition completions (sc : Z -> f64) (terms : list term) (docs : list (Z * list term)) : list cand :=
  map (completion_of sc) (filter (has_all terms) docs).
(** sort.SliceStable with a descending numeric key: a permutation, descending, and entries
    with equal keys keep their order. *)
Definition stable_ok (stable : (cand -> f64) -> list cand -> list cand) : Prop :=
  forall key l, (forall c, In c l -> key c <> S754_nan) ->
    Permutation l (stable key l) /\ StronglySorted (fun a b => flt (key a) (key b) = false) (stable key l)
    /\ forall v, filter (fun c => feq (key c) v) (stable key l) = filter (fun c => feq (key c) v) l.
