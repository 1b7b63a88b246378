(** Specification vocabulary for the service properties (C44).  Small and independent of
    the machine's steps. *)
From Verif Require Import Base GoMap Service.
Local Open Scope Z_scope.

(** The most recent install under a name in a history. *)
Fixpoint latest (h : list (name * (entry * entry))) (n : name) : option (entry * entry) :=
  match h with
  | [] => None
  | (m, p) :: t => match latest t n with Some q => Some q | None => if beqb m n then Some p else None end
  end.
(** What a query that looks at that history gets. *)
Definition seen (h : list (name * (entry * entry))) (n : name) : got :=
  match latest h n with Some (i, d) => (Some i, Some d) | None => (None, None) end.
Definition prefix {A} (a b : list A) : Prop := exists c, b = a ++ c.
(** The goroutine is not a call of GetDictionaries / not the external indexer. *)
Definition no_list (ts : list thread) : Prop := ~ In TList ts.
Definition no_build (ts : list thread) : Prop := forall n g, ~ In (TBuild n g) ts.
(** Every goroutine has ended. *)
Definition ended (p : pc) : bool := match p with ADone | AFail | QDone _ _ | LDone | BDone => true | _ => false end.
