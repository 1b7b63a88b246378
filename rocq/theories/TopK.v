(** Model of pkg/suggest/topk.go and Candidate of pkg/suggest/collector.go.
    Definitions only.  A queue is its topK and the elements of its heap slice; the
    elements beyond the slice's length matter only inside GetCandidates, where the
    whole array is kept. *)
From Verif Require Import Base Float64 Heap.
Local Open Scope Z_scope.

(* collector.go:12-17 *)
Record cand := mkCand { Key : Z; Sc : f64 }.
(* collector.go:20-26 *)
Definition Less (c o : cand) : bool :=
  if feq (Sc c) (Sc o) then Key o <? Key c else flt (Sc c) (Sc o).

(* topk.go:66-69 *)
Record queue := mkQueue { qk : Z; qh : list cand }.
(* topk.go:72-77; make panics for a negative capacity *)
Definition NewTopKQueue (topK : Z) : res queue :=
  if topK <? 0 then Panic else Ret (mkQueue topK []).
(* topk.go:57 *)
Definition top (h : list cand) : res cand := index h 0.
(* topk.go:122-124 *)
Definition IsFull (q : queue) : bool := zlen (qh q) =? qk q.
(* topk.go:113-119 *)
Definition CanTakeWithScore (q : queue) (score : f64) : res bool :=
  if negb (IsFull q) then Ret true
  else t <- top (qh q) ;; Ret (fle (Sc t) score).
(* topk.go:60-63: heap.Fix at 0 of the slice with its first element replaced *)
Definition updateTop (h : list cand) (c : cand) : list cand :=
  heap_fix Less (upd 0 c h) 0 (length h).
(* topk.go:82-101 *)
Definition Add (q : queue) (key : Z) (score : f64) : res queue :=
  can <- CanTakeWithScore q score ;;
  if negb can then Ret q
  else
    let c := mkCand key score in
    if zlen (qh q) <? qk q
    then Ret (mkQueue (qk q) (heap_push Less (qh q ++ [c]) (length (qh q ++ [c]))))
    else
      t <- top (qh q) ;;
      if Less t c then Ret (mkQueue (qk q) (updateTop (qh q) c)) else Ret q.
(* topk.go:104-110 *)
Definition GetLowestScore (q : queue) : res f64 :=
  if 0 <? zlen (qh q) then t <- top (qh q) ;; Ret (Sc t) else Ret f_neg_inf.
(* topk.go:134-136: n = Len(); heap.Pop leaves the popped element at index n-1 of the
   array and it is stored at sorted[n-1].  Returns the array and [sorted]. *)
Fixpoint pop_all (n : nat) (arr sorted : list cand) : list cand * list cand :=
  match n with
  | O => (arr, sorted)
  | S n' =>
      let arr' := heap_pop Less arr n in
      match nth_error arr' n' with
      | Some x => pop_all n' arr' (upd n' x sorted)
      | None => (arr', sorted)
      end
  end.
(* topk.go:141-144: for i := len/2 - 1 downto 0 swap i and len-1-i *)
Fixpoint swap_ends (k : nat) (l : list cand) : list cand :=
  match k with
  | O => l
  | S i => swap_ends i (swap i (length l - 1 - i) l)
  end.
(* topk.go:127-147; make(topKHeap, n) is n zero candidates *)
Definition GetCandidates (q : queue) : list cand * queue :=
  match qh q with
  | [] => ([], q)
  | h =>
      let '(arr, sorted) := pop_all (length h) h (repeat (mkCand 0 (of_int 0)) (length h)) in
      (sorted, mkQueue (qk q) (swap_ends (Nat.div (length h) 2) arr))
  end.
(* topk.go:150-164, for a queue of the same type (not aliasing the receiver) *)
Fixpoint add_all (q : queue) (l : list cand) : res queue :=
  match l with
  | [] => Ret q
  | c :: t => q' <- Add q (Key c) (Sc c) ;; add_all q' t
  end.
Definition Merge (q other : queue) : res queue := add_all q (qh other).
(* topk.go:167-175 *)
Definition Reset (q : queue) (topK : Z) : queue := mkQueue topK [].
