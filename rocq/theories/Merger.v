(** Model of pkg/merger: candidates, ScanCount, CPMerge, MergeSkip, DivideSkip,
    Intersector and the optimizing wrapper.  Definitions only.

    A collector is a state-passing function [collect : St -> Z -> option err * St]
    (None = nil error), so theorems quantify over every collector, stateful or
    failing.  [sort.Sort] is a parameter: any function; its contract (it permutes)
    is a hypothesis of the theorems. *)
From Verif Require Import Base Postings Heap.
Local Open Scope Z_scope.

(** ** Candidates *)
(* pkg/utils/utils.go:28-30 Pack *)
Definition Pack (a b : Z) : Z := Z.lor (Z.shiftl a 32) (Z.land b (2 ^ 32 - 1)).
(* utils.go:33-35, 38-40 *)
Definition UnpackLeft (v : Z) : Z := wrap32 (Z.shiftr v 32).
Definition UnpackRight (v : Z) : Z := wrap32 v.
(* list_merger.go:36-38, 41-43, 46-48 *)
Definition NewMergeCandidate (position overlap : Z) : Z := Pack position overlap.
Definition Position (m : Z) : Z := UnpackLeft m.
Definition Overlap (m : Z) : Z := UnpackRight m.
(* list_merger.go:9 *)
Definition MaxOverlap : Z := 65535.
(* list_merger.go:51-57; uint64 increment *)
Definition increment (m : Z) : res Z :=
  if UnpackRight m =? MaxOverlap then Panic else Ret (wrap64 (m + 1)).

(* [if list.HasNext() { current, err = list.Next() } else { isValid = false }]:
   the new current value (None = not valid) *)
Definition step_next (it : iter) : res (option Z) * iter :=
  if it_hasNext it then
    match it_next it with
    | (Ret v, it') => (Ret (Some v), it')
    | (Fail e, it') => (Fail e, it')
    | (Panic, it') => (Panic, it') | (NoFuel, it') => (NoFuel, it')
    end
  else (Ret None, it).
(* [current, err := list.Get()] with ErrIteratorIsNotDereferencable = not valid *)
Definition get_valid (it : iter) : res (option Z) :=
  match it_get it with
  | Ret v => Ret (Some v)
  | Fail ErrIteratorIsNotDereferencable => Ret None
  | Fail e => Fail e
  | Panic => Panic | NoFuel => NoFuel
  end.

(* scan_count.go:35-66 = cp_merge.go:47-78, the merge of one list into the
   candidates; [cs] are candidates[j:], [cur] is current/isValid *)
Fixpoint scan_loop (fuel : nat) (cs : list Z) (cur : option Z) (it : iter) (tmp : list Z) : res (list Z) :=
  match fuel with
  | O => NoFuel
  | S fuel' =>
      match cs, cur with
      | [], None => Ret tmp
      | [], Some current =>
          match step_next it with
          | (Ret cur', it') => scan_loop fuel' [] cur' it' (tmp ++ [NewMergeCandidate current 1])
          | (Fail e, _) => Fail e | (Panic, _) => Panic | (NoFuel, _) => NoFuel
          end
      | c :: cs', None => scan_loop fuel' cs' None it (tmp ++ [c])
      | c :: cs', Some current =>
          if Position c >? current then
            match step_next it with
            | (Ret cur', it') => scan_loop fuel' cs cur' it' (tmp ++ [NewMergeCandidate current 1])
            | (Fail e, _) => Fail e | (Panic, _) => Panic | (NoFuel, _) => NoFuel
            end
          else if Position c <? current then scan_loop fuel' cs' cur it (tmp ++ [c])
          else
            c' <- increment c ;;
            match step_next it with
            | (Ret cur', it') => scan_loop fuel' cs' cur' it' (tmp ++ [c'])
            | (Fail e, _) => Fail e | (Panic, _) => Panic | (NoFuel, _) => NoFuel
            end
      end
  end.
(* scan_count.go:20-69 / cp_merge.go:32-81: all the lists; the fuel is the number
   of candidates plus the length of the list *)
Fixpoint scan_lists (rid : list iter) (candidates : list Z) : res (list Z) :=
  match rid with
  | [] => Ret candidates
  | it :: rid' =>
      cur <- get_valid it ;;
      cs <- scan_loop (S (length candidates + Z.to_nat (it_len it))) candidates cur it [] ;;
      scan_lists rid' cs
  end.

(* fmt.Errorf("...: %w", err) around an error result, cp_merge.go *)
Definition wrap_err {A} (r : res A) : res A :=
  match r with Fail e => Fail (ErrWrapped e) | other => other end.

(* merge_skip.go:5-8 record: ridID, position *)
Notation record := (Z * Z)%type.

Section Merge.
Context {St : Type} (collect : St -> Z -> option err * St).

(* The final loop over candidates: scan_count.go:73-87, cp_merge.go:105-119,
   divide_skip.go:60-70 *)
Fixpoint emit (T : Z) (cs : list Z) (s : St) : res unit * St :=
  match cs with
  | [] => (Ret tt, s)
  | c :: cs' =>
      if Overlap c >=? T then
        match collect s c with
        | (None, s') => emit T cs' s'
        | (Some ErrCollectionTerminated, s') => (Ret tt, s')
        | (Some e, s') => (Fail e, s')
        end
      else emit T cs' s
  end.

(** ** ScanCount: scan_count.go:14-88 *)
Definition scanCount (rid : list iter) (T : Z) (s : St) : res unit * St :=
  match scan_lists rid [] with
  | Ret cs => emit T cs s
  | Fail e => (Fail e, s) | Panic => (Panic, s) | NoFuel => (NoFuel, s)
  end.

(** ** CPMerge *)
(* cp_merge.go:86-100: one long list, [left] = lenRid-i-1 *)
Fixpoint prune (it : iter) (left T : Z) (cs : list Z) : res (list Z) :=
  match cs with
  | [] => Ret []
  | c :: cs' =>
      let '(r, it') := it_lowerBound it (Position c) in
      c' <- match r with
            | Ret current => if current =? Position c then increment c else Ret c
            | Fail ErrIteratorIsNotDereferencable => Ret c
            | Fail e => Fail e
            | Panic => Panic | NoFuel => NoFuel
            end ;;
      cs'' <- prune it' left T cs' ;;
      Ret (if Overlap c' + left >=? T then c' :: cs'' else cs'')
  end.
(* cp_merge.go:83-103; [rid] are the lists from index i on *)
Fixpoint prune_lists (rid : list iter) (T : Z) (cs : list Z) : res (list Z) :=
  match rid, cs with
  | [], _ => Ret cs
  | _, [] => Ret cs
  | it :: rid', _ =>
      cs' <- prune it (zlen rid') T cs ;;
      prune_lists rid' T cs'
  end.
(* cp_merge.go:19-120.  [rid[:minQueries]] panics when minQueries exceeds the
   length (the model takes capacity = length) or is negative. *)
Definition cpMerge (srt : list iter -> list iter) (rid : list iter) (T : Z) (s : St) : res unit * St :=
  let minQueries := zlen rid - T + 1 in
  let rid := srt rid in
  match slice rid 0 minQueries with
  | Ret short =>
      match wrap_err (cs <- scan_lists short [] ;;
                      prune_lists (skipn (Z.to_nat minQueries) rid) T cs) with
      | Ret cs => let '(r, s') := emit T cs s in (wrap_err r, s')
      | Fail e => (Fail e, s) | Panic => (Panic, s) | NoFuel => (NoFuel, s)
      end
  | _ => (Panic, s)
  end.

(** ** MergeSkip *)
(* merge_skip.go:5-8 record; :20 Less *)
Definition rless (a b : record) : bool := snd a <? snd b.
(* merge_skip.go:62-70: a list that is not dereferencable enters with position 0 *)
Fixpoint init_records (i : Z) (rid : list iter) : res (list record) :=
  match rid with
  | [] => Ret []
  | it :: rid' =>
      r <- match it_get it with
           | Ret v => Ret v
           | Fail ErrIteratorIsNotDereferencable => Ret 0
           | Fail e => Fail e
           | Panic => Panic | NoFuel => NoFuel
           end ;;
      rs <- init_records (i + 1) rid' ;;
      Ret ((i, r) :: rs)
  end.
(* merge_skip.go:78-81: pop everything not above position p; k = popped so far *)
Fixpoint pop_le (fuel : nat) (p : Z) (sl : list record) (size : nat) (k : nat) : res (list record * nat * nat) :=
  match fuel with
  | O => NoFuel
  | S fuel' =>
      if (0 <? Z.of_nat size) then
        top <- index sl 0 ;;
        if p >=? snd top then pop_le fuel' p (heap_pop rless sl size) (size - 1) (S k)
        else Ret (sl, size, k)
      else Ret (sl, size, k)
  end.
(* merge_skip.go:114-117: pop up to j more *)
Fixpoint pop_n (j : nat) (sl : list record) (size : nat) (k : nat) : list record * nat * nat :=
  match j with
  | O => (sl, size, k)
  | S j' => if (0 <? Z.of_nat size) then pop_n j' (heap_pop rless sl size) (size - 1) (S k)
            else (sl, size, k)
  end.
(* merge_skip.go:96-112 (topPos = None) and 126-146 (topPos = Some p): advance the
   popped lists, whose records are at indexes start .. start+n-1, and push them
   back.  [i] is the loop index, [n] the iterations left. *)
Fixpoint reinsert (n : nat) (start i : nat) (topPos : option Z) (rid : list iter) (sl : list record) (size : nat)
  : res (list iter * list record * nat) :=
  match n with
  | O => Ret (rid, sl, size)
  | S n' =>
      item <- index sl (Z.of_nat (start + i)) ;;
      cur <- index rid (fst item) ;;
      let push (r : Z) (cur' : iter) :=
        (* h.slice[h.size] = {ridID, r}; heap.Push *)
        let rid' := upd (Z.to_nat (fst item)) cur' rid in
        let sl' := upd size (fst item, r) sl in
        reinsert n' start (S i) topPos rid' (heap_push rless sl' (S size)) (S size) in
      let skip (cur' : iter) :=
        reinsert n' start (S i) topPos (upd (Z.to_nat (fst item)) cur' rid) sl size in
      match topPos with
      | None =>
          if it_hasNext cur then
            match it_next cur with
            | (Ret r, cur') => push r cur'
            | (Fail e, _) => Fail e | (Panic, _) => Panic | (NoFuel, _) => NoFuel
            end
          else skip cur
      | Some p =>
          if it_len cur =? 0 then skip cur
          else
            match it_lowerBound cur p with
            | (Ret r, cur') => push r cur'
            | (Fail ErrIteratorIsNotDereferencable, cur') => skip cur'
            | (Fail e, _) => Fail e | (Panic, _) => Panic | (NoFuel, _) => NoFuel
            end
      end
  end.
(* merge_skip.go:74-148 *)
Fixpoint ms_loop (fuel : nat) (T : Z) (rid : list iter) (sl : list record) (size : nat) (s : St) : res unit * St :=
  match fuel with
  | O => (NoFuel, s)
  | S fuel' =>
      if 0 <? Z.of_nat size then
        match index sl 0 with
        | Ret t =>
            match pop_le (S size) (snd t) sl size 0 with
            | Ret (sl, size, popped) =>
                if Z.of_nat popped >=? T then
                  match collect s (NewMergeCandidate (snd t) (wrap32 (Z.of_nat popped))) with
                  | (Some ErrCollectionTerminated, s') => (Ret tt, s')
                  | (Some e, s') => (Fail e, s')
                  | (None, s') =>
                      match reinsert popped size 0 None rid sl size with
                      | Ret (rid, sl, size) => ms_loop fuel' T rid sl size s'
                      | Fail e => (Fail e, s') | Panic => (Panic, s') | NoFuel => (NoFuel, s')
                      end
                  end
                else
                  let '(sl, size, popped) := pop_n (Z.to_nat (T - 1 - Z.of_nat popped)) sl size popped in
                  if Z.of_nat size =? 0 then (Ret tt, s)
                  else
                    match index sl 0 with
                    | Ret top =>
                        match reinsert popped size 0 (Some (snd top)) rid sl size with
                        | Ret (rid, sl, size) => ms_loop fuel' T rid sl size s
                        | Fail e => (Fail e, s) | Panic => (Panic, s) | NoFuel => (NoFuel, s)
                        end
                    | _ => (Panic, s)
                    end
            | Fail e => (Fail e, s) | Panic => (Panic, s) | NoFuel => (NoFuel, s)
            end
        | _ => (Panic, s)
        end
      else (Ret tt, s)
  end.
(* number of loop rounds allowed: one more than the elements of all lists, counting
   an empty list as one element *)
Definition ms_fuel (rid : list iter) : nat :=
  S (fold_right (fun it n => (Z.to_nat (it_len it) + 1 + n)%nat) 0%nat rid).
(* merge_skip.go:52-151 *)
Definition mergeSkip (rid : list iter) (T : Z) (s : St) : res unit * St :=
  match init_records 0 rid with
  | Ret sl => ms_loop (ms_fuel rid) T rid (heap_init rless sl (length rid)) (length rid) s
  | Fail e => (Fail e, s) | Panic => (Panic, s) | NoFuel => (NoFuel, s)
  end.

(** ** Intersector *)
(* list_intersector.go:43-54: is item in all the other lists *)
Fixpoint in_rest (item : Z) (rest : list iter) : res (bool * list iter) :=
  match rest with
  | [] => Ret (true, [])
  | it :: rest' =>
      match it_lowerBound it item with
      | (Ret lower, it') =>
          if negb (lower =? item) then Ret (false, it' :: rest')
          else '(b, rest'') <- in_rest item rest' ;; Ret (b, it' :: rest'')
      | (Fail ErrIteratorIsNotDereferencable, it') => Ret (false, it' :: rest')
      | (Fail e, _) => Fail e | (Panic, _) => Panic | (NoFuel, _) => NoFuel
      end
  end.
(* list_intersector.go:40-78 *)
Fixpoint intersect_loop (fuel : nat) (n item : Z) (first : iter) (rest : list iter) (s : St) : res unit * St :=
  match fuel with
  | O => (NoFuel, s)
  | S fuel' =>
      match in_rest item rest with
      | Ret (good, rest') =>
          let '(r, s') := if good then collect s (NewMergeCandidate item n) else (None, s) in
          match r with
          | Some ErrCollectionTerminated => (Ret tt, s')
          | Some e => (Fail e, s')
          | None =>
              if negb (it_hasNext first) then (Ret tt, s')
              else match it_next first with
                   | (Ret item', first') => intersect_loop fuel' n item' first' rest' s'
                   | (Fail e, _) => (Fail e, s') | (Panic, _) => (Panic, s') | (NoFuel, _) => (NoFuel, s')
                   end
          end
      | Fail e => (Fail e, s) | Panic => (Panic, s) | NoFuel => (NoFuel, s)
      end
  end.
(* list_intersector.go:23-81 *)
Definition intersect (srt : list iter -> list iter) (rid : list iter) (s : St) : res unit * St :=
  let n := wrap32 (zlen rid) in
  if n =? 0 then (Ret tt, s)
  else match srt rid with
       | [] => (Panic, s)
       | first :: rest =>
           match it_get first with
           | Ret item => intersect_loop (S (Z.to_nat (it_len first))) n item first rest s
           | Fail e => (Fail e, s) | Panic => (Panic, s) | NoFuel => (NoFuel, s)
           end
       end.

(** ** The wrapper around every merger: list_merger.go:73-85 *)
Definition optimized (srt : list iter -> list iter) (m : list iter -> Z -> St -> res unit * St)
    (rid : list iter) (T : Z) (s : St) : res unit * St :=
  let n := zlen rid in
  if (n <? T) || (n =? 0) || (T <? 0) then (Ret tt, s)
  else if n =? T then intersect srt rid s
  else m rid T s.
(* scan_count.go:7-9, cp_merge.go:12-14, merge_skip.go:44-46 *)
Definition ScanCount srt := optimized srt scanCount.
Definition CPMerge srt := optimized srt (cpMerge srt).
Definition MergeSkip srt := optimized srt mergeSkip.
End Merge.

(* collector.go:16-25 SimpleCollector *)
Definition simple_collect (s : list Z) (c : Z) : option err * list Z := (None, s ++ [c]).

Section Divide.
Context {St : Type} (collect : St -> Z -> option err * St).
(* divide_skip.go:48-58: look the candidate up in the long lists *)
Fixpoint in_long (position : Z) (long : list iter) (c : Z) : res (Z * list iter) :=
  match long with
  | [] => Ret (c, [])
  | it :: long' =>
      let '(r, it') := it_lowerBound it position in
      c' <- match r with
            | Ret v => if v =? position then increment c else Ret c
            | Fail ErrIteratorIsNotDereferencable => Ret c
            | Fail e => Fail e
            | Panic => Panic | NoFuel => NoFuel
            end ;;
      '(c'', long'') <- in_long position long' c' ;;
      Ret (c'', it' :: long'')
  end.
(* divide_skip.go:45-73 *)
Fixpoint ds_emit (T : Z) (cs : list Z) (long : list iter) (s : St) : res unit * St :=
  match cs with
  | [] => (Ret tt, s)
  | c :: cs' =>
      match in_long (Position c) long c with
      | Ret (c', long') =>
          if Overlap c' >=? T then
            match collect s c' with
            | (None, s') => ds_emit T cs' long' s'
            | (Some ErrCollectionTerminated, s') => (Ret tt, s')
            | (Some e, s') => (Fail e, s')
            end
          else ds_emit T cs' long' s
      | Fail e => (Fail e, s) | Panic => (Panic, s) | NoFuel => (NoFuel, s)
      end
  end.
(* divide_skip.go:25-74.  [lparam T M] is int(float64(T)/(mu*math.Log(M)+1)): the
   floating-point logarithm is not modelled, the theorems hold for every such
   function subject to stated bounds.  [srtr] is the descending sort. *)
Definition divideSkip (srt srtr : list iter -> list iter) (lparam : Z -> Z -> Z)
    (rid : list iter) (T : Z) (s : St) : res unit * St :=
  let rid := srtr rid in
  match rid with
  | [] => (Panic, s)
  | it0 :: _ =>
      let l := lparam T (it_len it0) in
      match slice rid 0 l, slice rid l (zlen rid) with
      | Ret lLong, Ret lShort =>
          match lShort with
          | [] => MergeSkip collect srt rid T s
          | _ =>
              match MergeSkip simple_collect srt lShort (T - l) [] with
              | (Ret _, cs) => ds_emit T cs lLong s
              | (Fail e, _) => (Fail e, s) | (Panic, _) => (Panic, s) | (NoFuel, _) => (NoFuel, s)
              end
          end
      | _, _ => (Panic, s)
      end
  end.
(* divide_skip.go:12-17 *)
Definition DivideSkip srt srtr lparam := optimized collect srt (divideSkip srt srtr lparam).
End Divide.
