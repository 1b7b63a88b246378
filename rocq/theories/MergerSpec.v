(** Specification of the T-occurrence problem. *)
From Coq Require Export Permutation.
From Verif Require Import Base Postings PostingsSpec PostingsDrive Merger.
Local Open Scope Z_scope.

(** in how many of the lists does x occur *)
Definition count (x : Z) (ls : list (list Z)) : Z :=
  zlen (filter (fun l => existsb (Z.eqb x) l) ls).

(** [cs] is the answer to the T-occurrence problem for [ls]: (value, occurrences)
    pairs with strictly ascending values, containing exactly the values that occur
    in at least T lists (and at least one), with their exact number of occurrences. *)
Definition is_answer (ls : list (list Z)) (T : Z) (cs : list (Z * Z)) : Prop :=
  StronglySorted (fun a b => fst a < fst b) cs /\
  forall x c, In (x, c) cs <-> c = count x ls /\ 1 <= c /\ T <= c.

(** What a collector sees: the candidates one by one, until it returns an error.
    ErrCollectionTerminated ends the collection successfully, any other error is
    the result. *)
Fixpoint feed {St} (collect : St -> Z -> option err * St) (cs : list (Z * Z)) (s : St) : res unit * St :=
  match cs with
  | [] => (Ret tt, s)
  | (x, c) :: cs' =>
      match collect s (NewMergeCandidate x c) with
      | (None, s') => feed collect cs' s'
      | (Some ErrCollectionTerminated, s') => (Ret tt, s')
      | (Some e, s') => (Fail e, s')
      end
  end.

(** The same outcome with a returned error wrapped once (fmt.Errorf with %w). *)
Definition wrapped {St} (r : res unit * St) : res unit * St :=
  (match fst r with Fail e => Fail (ErrWrapped e) | x => x end, snd r).

(** The iterators [rid] stand for the posting lists [ls]: every sequence of calls
    on an iterator answers like a cursor at the start of its list. *)
Definition stands_for (it : iter) (l : list Z) : Prop :=
  posting l /\ forall ops, iter_run it ops = cursor_run (zlen l) l ops.
Definition lists (rid : list iter) (ls : list (list Z)) : Prop := Forall2 stands_for rid ls.
Definition nonempty (ls : list (list Z)) : Prop := Forall (fun l => l <> []) ls.

(** All that is needed of sort.Sort. *)
Definition sorter_ok (srt : list iter -> list iter) : Prop := forall l, Permutation l (srt l).
(** sort.Reverse: the longest list comes first. *)
Definition longest_first (srt : list iter -> list iter) : Prop :=
  sorter_ok srt /\ forall l x r y, srt l = x :: r -> In y r -> it_len y <= it_len x.

(** Collectors that decide from everything received so far: [policy] gives the error
    returned (None = nil) for a history; the state is the history. *)
Definition logging (policy : list Z -> option err) (log : list Z) (c : Z) : option err * list Z :=
  (policy (log ++ [c]), log ++ [c]).
(** the first k candidates of the answer *)
Definition received (cs : list (Z * Z)) (k : nat) : list Z :=
  map (fun xc => NewMergeCandidate (fst xc) (snd xc)) (firstn k cs).
(** k is where the collector stops: it accepted everything before, and either returned
    an error at the k-th candidate or there are no more candidates *)
Definition stops (policy : list Z -> option err) (cs : list (Z * Z)) (k : nat) : Prop :=
  (k <= length cs)%nat /\ (forall j, (1 <= j < k)%nat -> policy (received cs j) = None) /\ ((k < length cs)%nat -> (1 <= k)%nat /\ policy (received cs k) <> None).
(** what the merge returns then *)
Definition outcome (policy : list Z -> option err) (cs : list (Z * Z)) (k : nat) : res unit :=
  match k, policy (received cs k) with
  | O, _ => Ret tt
  | _, None => Ret tt
  | _, Some ErrCollectionTerminated => Ret tt
  | _, Some e => Fail e
  end.
