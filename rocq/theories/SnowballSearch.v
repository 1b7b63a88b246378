(** The search in a table of endings as the library does it (snowball/go env.go, FindAmong and
    FindAmongB): a binary search that remembers how much of the two neighbours matched, then the
    chain of links to shorter entries.  The two functions differ only in the direction in which the
    text and the entries are read, so they are modelled once, on the bytes in reading order. *)
From Verif Require Import Base Snowball.
Local Open Scope nat_scope.

(* the inner loop "for lvar := common; lvar < len(w.Str); lvar++": the difference and the new value of common *)
Fixpoint cmp (r w : bytes) (common : nat) : Z * nat :=
  match w, r with
  | [], _ => (0%Z, common)
  | _ :: _, [] => ((-1)%Z, common)
  | y :: w', x :: r' => if Z.eqb (x - y) 0 then cmp r' w' (S common) else ((x - y)%Z, common)
  end.
(* the first loop; the result is i and common_i *)
Fixpoint narrow (dir : bytes -> bytes) (t : list among) (r : bytes) (fuel i j ci cj : nat) (first : bool) : res (nat * nat) :=
  match fuel with
  | O => NoFuel
  | S f =>
      let k := i + Nat.div2 (j - i) in
      match nth_error t k with
      | None => Panic
      | Some w =>
          let common := Nat.min ci cj in
          let '(diff, common) := cmp (skipn common r) (skipn common (dir (Str w))) common in
          let '(i, ci, j, cj) := if (diff <? 0)%Z then (i, ci, k, common) else (k, common, j, cj) in
          if j - i <=? 1 then
            if (0 <? i) || (j =? i) || first then Ret (i, ci) else narrow dir t r f i j ci cj true
          else narrow dir t r f i j ci cj first
      end
  end.
(* the second loop *)
Fixpoint follow (t : list among) (fuel i ci : nat) : res (option among) :=
  match fuel with
  | O => NoFuel
  | S f =>
      match nth_error t i with
      | None => Panic
      | Some w =>
          if length (Str w) <=? ci then Ret (Some w)
          else if (Sub w <? 0)%Z then Ret None else follow t f (Z.to_nat (Sub w)) ci
      end
  end.
Definition search (dir : bytes -> bytes) (t : list among) (r : bytes) : res (option among) :=
  '(i, ci) <- narrow dir t r (length t + 2) 0 (length t) 0 0 false ;; follow t (length t) i ci.
Local Open Scope Z_scope.
(* env.go FindAmong *)
Definition LibFindAmong (t : list among) (e : env) : res (Z * env) :=
  r <- slice (cur e) (Cursor e) (Limit e) ;;
  m <- search (fun s => s) t r ;;
  match m with Some a => Ret (Res a, set_Cursor (Cursor e + zlen (Str a)) e) | None => Ret (0, e) end.
(* env.go FindAmongB *)
Definition LibFindAmongB (t : list among) (e : env) : res (Z * env) :=
  r <- slice (cur e) (LimitBackward e) (Cursor e) ;;
  m <- search (@rev Z) t (rev r) ;;
  match m with Some a => Ret (Res a, set_Cursor (Cursor e - zlen (Str a)) e) | None => Ret (0, e) end.

(** what a table must satisfy: entries in increasing order (in reading direction), each linked to the longest
    other entry it begins with *)
Fixpoint before (a b : bytes) : Prop :=
  match a, b with
  | _, [] => False
  | [], _ :: _ => True
  | x :: a', y :: b' => x < y \/ (x = y /\ before a' b')
  end.
Definition begins (s p : bytes) : Prop := exists q, s = p ++ q.
Definition sorted (dir : bytes -> bytes) (t : list among) : Prop :=
  forall i j a b, (i < j)%nat -> nth_error t i = Some a -> nth_error t j = Some b -> before (dir (Str a)) (dir (Str b)).
Definition linked (dir : bytes -> bytes) (t : list among) : Prop :=
  forall a, In a t ->
    (Sub a = -1 /\ forall b, In b t -> begins (dir (Str a)) (dir (Str b)) -> Str b = Str a) \/
    (0 <= Sub a /\ exists b, nth_error t (Z.to_nat (Sub a)) = Some b /\ Str b <> Str a /\ begins (dir (Str a)) (dir (Str b)) /\
      forall c, In c t -> Str c <> Str a -> begins (dir (Str a)) (dir (Str c)) -> (length (Str c) <= length (Str b))%nat).
