(** Specification of a list iterator: a cursor over a plain list.  Independent of
    the model: the only import is Base. *)
From Coq Require Export Sorted.
From Verif Require Import Base.
Local Open Scope Z_scope.

(** A posting list: strictly ascending uint32 values. *)
Definition posting (l : list Z) : Prop := StronglySorted Z.lt l /\ Forall is_u32 l.

(** A list of uint32 values in ascending order, possibly with repetitions. *)
Definition ascending (l : list Z) : Prop := StronglySorted Z.le l /\ Forall is_u32 l.

(** The values of a list, ascending, each once. *)
Fixpoint insert (x : Z) (s : list Z) : list Z :=
  match s with
  | [] => [x]
  | y :: t => if x <? y then x :: s else if x =? y then s else y :: insert x t
  end.
Definition each_once (l : list Z) : list Z := fold_left (fun s x => insert x s) l [].
(** What is kept of a list with repetitions: lists of more than 256 elements are kept as sets. *)
Definition stored (l : list Z) : list Z := if zlen l <=? 256 then l else each_once l.

(** Iterator calls and answers. *)
Inductive cop := CGet | CHasNext | CNext | CLowerBound (to : Z) | CLen.
Inductive cans := AVal (r : res Z) | ABool (b : bool) | ALen (n : Z).

(** drop the elements smaller than [to] *)
Fixpoint drop_lt (to : Z) (l : list Z) : list Z :=
  match l with
  | [] => []
  | x :: t => if x <? to then drop_lt to t else l
  end.

Definition first (l : list Z) : res Z :=
  match l with [] => Fail ErrIteratorIsNotDereferencable | x :: _ => Ret x end.

(** One call on a cursor whose remaining elements, the current one first, are
    [rest], over a list of [n] elements.  [] = the cursor is past the end. *)
Definition cursor_step (n : Z) (rest : list Z) (o : cop) : cans * list Z :=
  match o with
  | CGet => (AVal (first rest), rest)
  | CHasNext => (ABool (2 <=? zlen rest), rest)
  | CNext => match rest with
             | x :: (y :: r) as t => (AVal (Ret y), t)
             | _ => (AVal (Fail ErrIteratorIsNotDereferencable), rest)
             end
  | CLowerBound to => (AVal (first (drop_lt to rest)), drop_lt to rest)
  | CLen => (ALen n, rest)
  end.
Fixpoint cursor_run (n : Z) (rest : list Z) (os : list cop) : list cans :=
  match os with
  | [] => []
  | o :: os' => let '(a, rest') := cursor_step n rest o in a :: cursor_run n rest' os'
  end.
