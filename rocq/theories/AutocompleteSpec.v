(** Specification of an Autocomplete call. *)
From Verif Require Import Base GoMap Float64 Index TopK Autocomplete.
Local Open Scope Z_scope.

(** the document has every one of the terms *)
Definition has_all (terms : list term) (doc : Z * list term) : bool := forallb (fun t => existsb (beqb t) (snd doc)) terms.
(** the answer a document stands for: its id, with minus the id as score *)
Definition answer_of (doc : Z * list term) : cand := mkCand (fst doc) (fneg (of_int (fst doc))).
(** the documents with all terms, in the order of the collection (ascending ids), the
    first [limit] of them *)
Definition first_matches (limit : Z) (terms : list term) (docs : list (Z * list term)) : list cand :=
  map answer_of (firstn (Z.to_nat limit) (filter (has_all terms) docs)).
