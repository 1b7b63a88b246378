(** The run-time of the generated stemmers (pkg/analysis/ru/algorithm.go, pkg/analysis/en/algorithm.go
    import github.com/snowballstem/snowball/go v2.0.0; go.mod names it, its source is not in /repo).
    The operations are those of its published Env type.  Two simplifications: the int32
    conversions are left out (tokens are shorter than 2^31 bytes), and [FindAmong]/[FindAmongB] say what
    they find - the longest entry of the table that matches - instead of how; the library's binary
    search is modelled in SnowballSearch.v and proved equal on every table of the two stemmers
    (P_StemFilter.v, [C78_search_forward], [C78_search_backward]).  Operations that always return
    true (SliceDel, SliceFrom) return no flag. *)
From Verif Require Import Base Text GoMap.
Local Open Scope Z_scope.

(** snowball/go Env: the word, the cursor, the limits and the slice marks *)
Record env := mkEnv { cur : bytes; Cursor : Z; Limit : Z; LimitBackward : Z; Bra : Z; Ket : Z }.
Definition set_Cursor (c : Z) (e : env) : env := mkEnv (cur e) c (Limit e) (LimitBackward e) (Bra e) (Ket e).
Definition set_LimitBackward (c : Z) (e : env) : env := mkEnv (cur e) (Cursor e) (Limit e) c (Bra e) (Ket e).
Definition set_Bra (c : Z) (e : env) : env := mkEnv (cur e) (Cursor e) (Limit e) (LimitBackward e) c (Ket e).
Definition set_Ket (c : Z) (e : env) : env := mkEnv (cur e) (Cursor e) (Limit e) (LimitBackward e) (Bra e) c.
(* NewEnv, SetCurrent: everything is reset *)
Definition SetCurrent (s : bytes) (_ : env) : env := mkEnv s 0 (zlen s) 0 0 (zlen s).
Definition NewEnv (s : bytes) : env := mkEnv s 0 (zlen s) 0 0 (zlen s).

(* onCharBoundary; utf8.RuneStart(b) is b&0xC0 != 0x80 *)
Definition RuneStart (b : Z) : bool := negb (Z.land b 192 =? 128).
Definition onCharBoundary (s : bytes) (p : Z) : bool :=
  (p <=? 0) || (zlen s <=? p) || RuneStart (nth (Z.to_nat p) s 0).
(* "for !onCharBoundary(s, p) { p++ }" / "{ p-- }"; ends at the latest at the end / start of s *)
Fixpoint up_to_boundary (fuel : nat) (s : bytes) (p : Z) : Z :=
  match fuel with S f => if onCharBoundary s p then p else up_to_boundary f s (p + 1) | O => p end.
Fixpoint down_to_boundary (fuel : nat) (s : bytes) (p : Z) : Z :=
  match fuel with S f => if onCharBoundary s p then p else down_to_boundary f s (p - 1) | O => p end.
Definition next_char (s : bytes) (p : Z) : Z := up_to_boundary (length s) s (p + 1).
Definition prev_char (s : bytes) (p : Z) : Z := down_to_boundary (length s) s (p - 1).
Definition NextChar (e : env) : env := set_Cursor (next_char (cur e) (Cursor e)) e.
Definition PrevChar (e : env) : env := set_Cursor (prev_char (cur e) (Cursor e)) e.
(* ByteIndexForHop(3) and ByteIndexForHop(-2): so many characters on, or back *)
Definition hop_fwd (n : nat) (e : env) : Z := Nat.iter n (next_char (cur e)) (Cursor e).
Definition hop_back (n : nat) (e : env) : Z := Nat.iter n (prev_char (cur e)) (Cursor e).

(* strings.HasPrefix *)
Definition has_prefix (s p : bytes) : bool := beqb (firstn (length p) s) p.
(* EqS: the word goes on with s; the cursor moves past it, to a character boundary *)
Definition EqS (s : bytes) (e : env) : res (bool * env) :=
  if Limit e <=? Cursor e then Ret (false, e)
  else r <- slice (cur e) (Cursor e) (zlen (cur e)) ;;
       if has_prefix r s then Ret (true, set_Cursor (up_to_boundary (length (cur e)) (cur e) (Cursor e + zlen s)) e)
       else Ret (false, e).
(* EqSB: the word up to the cursor ends with s, at a character boundary; the cursor moves before it *)
Definition EqSB (s : bytes) (e : env) : res (bool * env) :=
  if Cursor e - LimitBackward e <? zlen s then Ret (false, e)
  else if negb (onCharBoundary (cur e) (Cursor e - zlen s)) then Ret (false, e)
  else r <- slice (cur e) (Cursor e - zlen s) (zlen (cur e)) ;;
       if has_prefix r s then Ret (true, set_Cursor (Cursor e - zlen s) e) else Ret (false, e).

(* ReplaceS *)
Definition ReplaceS (bra ket : Z) (s : bytes) (e : env) : res env :=
  let adjustment := zlen s - (ket - bra) in
  l <- slice (cur e) 0 bra ;;
  r <- slice (cur e) (if ket <? bra then bra else ket) (zlen (cur e)) ;;
  let c := if ket <=? Cursor e then Cursor e + adjustment else if bra <? Cursor e then bra else Cursor e in
  Ret (mkEnv (l ++ s ++ r) c (Limit e + adjustment) (LimitBackward e) (Bra e) (Ket e)).
Definition SliceFrom (s : bytes) (e : env) : res env := ReplaceS (Bra e) (Ket e) s e.
Definition SliceDel (e : env) : res env := SliceFrom [] e.
(* Insert *)
Definition Insert (bra ket : Z) (s : bytes) (e : env) : res env :=
  let adjustment := zlen s - (ket - bra) in
  e <- ReplaceS bra ket s e ;;
  let e := if bra <=? Bra e then set_Bra (Bra e + adjustment) e else e in
  Ret (if bra <=? Ket e then set_Ket (Ket e + adjustment) e else e).

(* the bit test of the grouping functions: chars[r>>3] & (1 << (r & 7)) *)
Definition in_group (g : list Z) (r : Z) : res bool :=
  b <- index g (Z.shiftr r 3) ;; Ret (negb (Z.land b (Z.shiftl 1 (Z.land r 7)) =? 0)).
Definition InGrouping (g : list Z) (lo hi : Z) (e : env) : res (bool * env) :=
  if Limit e <=? Cursor e then Ret (false, e)
  else s <- slice (cur e) (Cursor e) (zlen (cur e)) ;;
       let r := fst (decode_rune s) in
       if r =? RuneError then Ret (false, e)
       else if (hi <? r) || (r <? lo) then Ret (false, e)
       else b <- in_group g (r - lo) ;; if b : bool then Ret (true, NextChar e) else Ret (false, e).
Definition OutGrouping (g : list Z) (lo hi : Z) (e : env) : res (bool * env) :=
  if Limit e <=? Cursor e then Ret (false, e)
  else s <- slice (cur e) (Cursor e) (zlen (cur e)) ;;
       let r := fst (decode_rune s) in
       if r =? RuneError then Ret (false, e)
       else if (hi <? r) || (r <? lo) then Ret (true, NextChar e)
       else b <- in_group g (r - lo) ;; if b : bool then Ret (false, e) else Ret (true, NextChar e).
(* the backward ones step back a character, look at it, and step forward again unless it is wanted *)
Definition InGroupingB (g : list Z) (lo hi : Z) (e : env) : res (bool * env) :=
  if Cursor e <=? LimitBackward e then Ret (false, e)
  else let e1 := PrevChar e in
       s <- slice (cur e1) (Cursor e1) (zlen (cur e1)) ;;
       let e2 := NextChar e1 in
       let r := fst (decode_rune s) in
       if r =? RuneError then Ret (false, e2)
       else if (hi <? r) || (r <? lo) then Ret (false, e2)
       else b <- in_group g (r - lo) ;; if b : bool then Ret (true, PrevChar e2) else Ret (false, e2).
Definition OutGroupingB (g : list Z) (lo hi : Z) (e : env) : res (bool * env) :=
  if Cursor e <=? LimitBackward e then Ret (false, e)
  else let e1 := PrevChar e in
       s <- slice (cur e1) (Cursor e1) (zlen (cur e1)) ;;
       let e2 := NextChar e1 in
       let r := fst (decode_rune s) in
       if r =? RuneError then Ret (false, e2)
       else if (hi <? r) || (r <? lo) then Ret (true, PrevChar e2)
       else b <- in_group g (r - lo) ;; if b : bool then Ret (false, e2) else Ret (true, PrevChar e2).

(** snowball/go Among: the string, the index of the longest entry it ends (starts) with, the result *)
Record among := Among { Str : bytes; Sub : Z; Res : Z }.
(* the longest entry satisfying a test; the first one on equal length (entries are distinct) *)
Fixpoint longest (ok : bytes -> bool) (t : list among) : option among :=
  match t with
  | [] => None
  | a :: t' =>
      match longest ok t' with
      | Some b => if ok (Str a) && (zlen (Str b) <=? zlen (Str a)) then Some a else Some b
      | None => if ok (Str a) then Some a else None
      end
  end.
(* FindAmong: the longest entry that starts at the cursor and ends before the limit *)
Definition FindAmong (t : list among) (e : env) : res (Z * env) :=
  r <- slice (cur e) (Cursor e) (Limit e) ;;
  match longest (has_prefix r) t with
  | Some a => Ret (Res a, set_Cursor (Cursor e + zlen (Str a)) e)
  | None => Ret (0, e)
  end.
(* FindAmongB: the longest entry that ends at the cursor and starts after the backward limit *)
Definition has_suffix (s p : bytes) : bool := has_prefix (rev s) (rev p).
Definition FindAmongB (t : list among) (e : env) : res (Z * env) :=
  r <- slice (cur e) (LimitBackward e) (Cursor e) ;;
  match longest (has_suffix r) t with
  | Some a => Ret (Res a, set_Cursor (Cursor e - zlen (Str a)) e)
  | None => Ret (0, e)
  end.

(** the generated loop "golabN: for { if !<test> {...}; break golabN; if env.Cursor >= env.Limit { <fail> }; env.NextChar() }":
    go on until the test succeeds; [false] at the limit *)
Fixpoint go_past (test : env -> res (bool * env)) (fuel : nat) (e : env) : res (bool * env) :=
  match fuel with
  | O => NoFuel
  | S f =>
      '(ok, e) <- test e ;;
      if ok : bool then Ret (true, e)
      else if Limit e <=? Cursor e then Ret (false, e)
      else go_past test f (NextChar e)
  end.
(* the same backwards: "if env.Cursor <= env.LimitBackward { <fail> }; env.PrevChar()" *)
Fixpoint go_past_b (test : env -> res (bool * env)) (fuel : nat) (e : env) : res (bool * env) :=
  match fuel with
  | O => NoFuel
  | S f =>
      '(ok, e) <- test e ;;
      if ok : bool then Ret (true, e)
      else if Cursor e <=? LimitBackward e then Ret (false, e)
      else go_past_b test f (PrevChar e)
  end.
Definition fuel_of (e : env) : nat := S (length (cur e)).

(** the generated loop "replab: for { v := env.Cursor; golab: for { v' := env.Cursor; <find: sets Bra and Ket>;
    env.Cursor = v'; ... }; SliceFrom(to); continue replab ... env.Cursor = v; break replab }": replace every
    occurrence; the result says whether there was any.  The inner test restores the cursor whether it succeeds or not. *)
Fixpoint goto_find (find : env -> res (bool * env)) (fuel : nat) (e : env) : res (bool * env) :=
  match fuel with
  | O => NoFuel
  | S f =>
      let v := Cursor e in
      '(ok, e) <- find e ;;
      let e := set_Cursor v e in
      if ok : bool then Ret (true, e)
      else if Limit e <=? Cursor e then Ret (false, e)
      else goto_find find f (NextChar e)
  end.
Fixpoint repeat_replace (find : env -> res (bool * env)) (to : bytes) (fuel : nat) (found : bool) (e : env) : res (bool * env) :=
  match fuel with
  | O => NoFuel
  | S f =>
      let v := Cursor e in
      '(ok, e) <- goto_find find (fuel_of e) e ;;
      if ok : bool then e <- SliceFrom to e ;; repeat_replace find to f true e
      else Ret (found, set_Cursor v e)
  end.
