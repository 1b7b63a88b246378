(** Specification of an Autocomplete call over documents whose tokens may repeat. *)
From Coq Require Import Sorted.
From Verif Require Import Base GoMap Merger MergerAnySpec Index IndexSpec Float64 TopK Autocomplete AutocompleteSpec.
Local Open Scope Z_scope.

(** [X] lists the documents with all terms: in ascending order of their ids, each at least
    once, and no more often than it repeats a term. *)
Definition listed (terms : list term) (docs : list (Z * list term)) (X : list Z) : Prop :=
  StronglySorted Z.le X /\ (forall x, In x X <-> exists ts, In (x, ts) docs /\ has_all terms (x, ts) = true) /\
  (forall x ts m, In (x, ts) docs -> (forall t, token_times t ts <= m)%nat -> (times x X <= m)%nat).
(** For terms that may repeat: only documents that are at least as long as the terms are
    looked at, and nothing is listed without a term. *)
Definition listed_every (terms : list term) (docs : list (Z * list term)) (X : list Z) : Prop :=
  StronglySorted Z.le X /\ (forall x, In x X <-> terms <> [] /\ exists ts, In (x, ts) docs /\ has_all terms (x, ts) = true /\ zlen terms <= zlen ts) /\
  (forall x ts m, In (x, ts) docs -> (forall t, token_times t ts <= m)%nat -> (times x X <= m)%nat).
