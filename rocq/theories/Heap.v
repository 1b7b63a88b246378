(** Model of Go's container/heap (standard library), used by
    pkg/merger/merge_skip.go and pkg/suggest/top_k_queue.go.  The container is a
    slice whose first [n] elements are the heap.  Definitions only.

    Simplification: an index outside the slice would panic in Go; here [swap] and
    [less_at] are then the identity / false.  All indices computed by these
    functions are below [n], which is at most the length of the slice. *)
From Verif Require Import Base.

Section Heap.
Context {A : Type} (less : A -> A -> bool).

Fixpoint upd (i : nat) (x : A) (l : list A) : list A :=
  match l, i with
  | [], _ => []
  | _ :: t, O => x :: t
  | y :: t, S i' => y :: upd i' x t
  end.
(* h.Swap(i, j) *)
Definition swap (i j : nat) (l : list A) : list A :=
  match nth_error l i, nth_error l j with
  | Some a, Some b => upd j a (upd i b l)
  | _, _ => l
  end.
(* h.Less(i, j) *)
Definition less_at (l : list A) (i j : nat) : bool :=
  match nth_error l i, nth_error l j with
  | Some a, Some b => less a b
  | _, _ => false
  end.

(* container/heap up: parent (j-1)/2; stops at the root or when in order *)
Fixpoint up (fuel : nat) (l : list A) (j : nat) : list A :=
  match fuel with
  | O => l
  | S fuel' =>
      let i := Nat.div (j - 1) 2 in
      if Nat.eqb i j || negb (less_at l j i) then l
      else up fuel' (swap i j l) i
  end.
(* container/heap down: also returns the final index (Go returns i > i0) *)
Fixpoint down (fuel : nat) (l : list A) (i n : nat) : list A * nat :=
  match fuel with
  | O => (l, i)
  | S fuel' =>
      let j1 := 2 * i + 1 in
      if Nat.leb n j1 then (l, i)
      else
        let j := if Nat.ltb (j1 + 1) n && less_at l (j1 + 1) j1 then j1 + 1 else j1 in
        if negb (less_at l j i) then (l, i)
        else down fuel' (swap i j l) j n
  end.
(* container/heap Init: for i := n/2 - 1; i >= 0; i-- { down(h, i, n) } *)
Fixpoint init_loop (k : nat) (l : list A) (n : nat) : list A :=
  match k with
  | O => l
  | S i => init_loop i (fst (down n l i n)) n
  end.
Definition heap_init (l : list A) (n : nat) : list A := init_loop (Nat.div n 2) l n.
(* container/heap Push, after the container has put x at index n-1 (new length n) *)
Definition heap_push (l : list A) (n : nat) : list A := up n l (n - 1).
(* container/heap Pop without the container's own Pop: the removed element is left
   at index n-1 *)
Definition heap_pop (l : list A) (n : nat) : list A :=
  fst (down n (swap 0 (n - 1) l) 0 (n - 1)).
(* container/heap Fix *)
Definition heap_fix (l : list A) (i n : nat) : list A :=
  let '(l', k) := down n l i n in
  if Nat.ltb i k then l' else up n l' i.
End Heap.
