(** Model of the object reuse in a search: the sync.Pools of posting lists
    (pkg/index/codec.go), the sync.Pool of candidate buffers (pkg/merger/cp_merge.go)
    and the searcher (pkg/index/searcher.go) and mergers written against a shared
    memory, so that a search keeps whatever an object it got from a pool still holds.
    Definitions only.

    A search is a program over memory: every access to a shared object is one
    command, and other goroutines may run between any two commands. *)
From Verif Require Import Base GoMap Store Postings Merger Index.
Local Open Scope Z_scope.

(** ** Memory and programs *)
(* codec.go:53-72 the three pools of posting lists; cp_merge.go:122-126 bufPool *)
Inductive pool := PVb | PSk | PBit | PBuf.
(* What an address holds: posting_list.go:16-21, skipping_posting_list.go:13-22,
   bitmap_posting_list.go:12-18 (the bitmap, nil at first, and the rest), or the
   array behind a []MergeCandidate, whose length is the capacity. *)
Inductive cell :=
| CVb (s : vlist) | CSk (s : slist) | CBit (bitmap : option (list Z)) (s : blist)
| CBuf (arr : list Z).
Definition addr := nat.

(* The commands: sync.Pool Get and Put, reading and writing an object, allocating. *)
Inductive prog (A : Type) :=
| Done (a : A)
| Get (q : pool) (k : addr -> prog A)
| Put (q : pool) (a : addr) (k : prog A)
| Load (a : addr) (k : cell -> prog A)
| Save (a : addr) (c : cell) (k : prog A)
| New (c : cell) (k : addr -> prog A).
Arguments Done {A} a. Arguments Get {A} q k. Arguments Put {A} q a k.
Arguments Load {A} a k. Arguments Save {A} a c k. Arguments New {A} c k.

Fixpoint pbind {A B} (p : prog A) (f : A -> prog B) : prog B :=
  match p with
  | Done a => f a
  | Get q k => Get q (fun x => pbind (k x) f)
  | Put q a k => Put q a (pbind k f)
  | Load a k => Load a (fun c => pbind (k c) f)
  | Save a c k => Save a c (pbind k f)
  | New c k => New c (fun x => pbind (k x) f)
  end.
Notation "x <~ p ;; k" := (pbind p (fun x => k))
  (at level 61, p at next level, right associativity).
Notation "' x <~ p ;; k" := (pbind p (fun x => k))
  (at level 61, x pattern, p at next level, right associativity).
(* the same for calls that may return an error or panic *)
Definition rbind {A B} (p : prog (res A)) (f : A -> prog (res B)) : prog (res B) :=
  pbind p (fun r => match r with Ret a => f a | Fail e => Done (Fail e)
                               | Panic => Done Panic | NoFuel => Done NoFuel end).

(* The New functions of the pools: codec.go:54-72, cp_merge.go:122-126 *)
Definition fresh (q : pool) : cell :=
  match q with
  | PVb => CVb (mkVl (mkIn [] 0) 0 0 0)
  | PSk => CSk (mkSk (mkIn [] 0) 0 0 0 0 0 skippingGapSize false)
  | PBit => CBit None (mkBl [] 0 false 0)
  | PBuf => CBuf (repeat 0 1024)
  end.

(** ** Posting list objects *)
(* codec.go:76-88 resolvePostingList: which pool *)
Definition resolve (size : Z) : pool :=
  if size <=? skippingGapSize + 1 then PVb
  else if size <=? maxSkippingLen then PSk else PBit.
(* codec.go:91-104 releasePostingList: the type switch *)
Definition release (a : addr) : prog unit :=
  Load a (fun c =>
    match c with
    | CVb _ => Put PVb a (Done tt)
    | CSk _ => Put PSk a (Done tt)
    | CBit _ _ => Put PBit a (Done tt)
    | CBuf _ => Done tt
    end).

Section Objects.
Context (rb : roaring).
(* what roaring leaves in a bitmap when FromBuffer fails *)
Context (torn : list Z -> bytes -> list Z).
(* Init on an object that still holds what its last user left:
   posting_list.go:94-108, skipping_posting_list.go:170-178,
   bitmap_posting_list.go:74-105.  FromBuffer replaces the contents of the bitmap. *)
Definition init_cell (r : input) (size : Z) (c : cell) : res unit * cell :=
  match c with
  | CVb s =>
      match ReadVUInt32 r with
      | (Ret v, r') => (Ret tt, CVb (mkVl r' 0 size v))
      | (Fail e, r') => (Fail e, CVb (mkVl r' 0 size (vl_cur s)))
      | (Panic, _) => (Panic, CVb s) | (NoFuel, _) => (NoFuel, CVb s)
      end
  | CSk s =>
      let '(x, s') := sk_readSkipping (mkSk r 0 size (sk_cur s) 0 0 (sk_gap s) (sk_last s)) in
      (x, CSk s')
  | CBit bm s =>
      let old := match bm with Some b => b | None => [] end in
      match rb_dec rb (ibuf r) with
      | None => (Fail (ErrOther 1), CBit (Some (torn old (ibuf r))) s)
      | Some [] => (Fail (ErrOther 2), CBit (Some []) s)
      | Some (x :: t) => (Ret tt, CBit (Some (x :: t)) (mkBl t x true (zlen (x :: t))))
      end
  | CBuf arr => (Panic, CBuf arr)
  end.
Definition init (a : addr) (r : input) (size : Z) : prog (res unit) :=
  Load a (fun c => let '(x, c') := init_cell r size c in Save a c' (Done x)).

(* the object as a ListIterator (list_iterator.go:13-26) *)
Definition iter_of (c : cell) : option iter :=
  match c with
  | CVb s => Some (IVb s) | CSk s => Some (ISkip s) | CBit _ s => Some (IBit s)
  | CBuf _ => None
  end.
Definition put_iter (c : cell) (it : iter) : cell :=
  match c, it with
  | CVb _, IVb s => CVb s
  | CSk _, ISkip s => CSk s
  | CBit b _, IBit s => CBit b s
  | _, _ => c
  end.
(* a method call on the object: read its fields, write them back *)
Definition call {A} (a : addr) (f : iter -> res A * iter) : prog (res A) :=
  Load a (fun c =>
    match iter_of c with
    | Some it => let '(x, it') := f it in Save a (put_iter c it') (Done x)
    | None => Done Panic
    end).
(* a method that only reads *)
Definition ask {A} (a : addr) (f : iter -> res A) : prog (res A) :=
  Load a (fun c => match iter_of c with Some it => Done (f it) | None => Done Panic end).

(** ** Slices of candidates *)
(* A []MergeCandidate: the array and the length. *)
Notation slc := (addr * nat)%type.
(* how much the run-time grows a full slice; any function *)
Context (grow : nat -> nat).
Fixpoint upd (l : list Z) (n : nat) (x : Z) : list Z :=
  match l, n with
  | [], _ => []
  | _ :: t, O => x :: t
  | y :: t, S n' => y :: upd t n' x
  end.
(* append(s, x): in place while there is capacity, else a new array *)
Definition append (s : slc) (x : Z) : prog (res slc) :=
  let '(a, n) := s in
  Load a (fun c =>
    match c with
    | CBuf arr =>
        if (n <? length arr)%nat then Save a (CBuf (upd arr n x)) (Done (Ret (a, S n)))
        else New (CBuf (firstn n arr ++ x :: repeat 0 (grow n))) (fun a' => Done (Ret (a', S n)))
    | _ => Done Panic
    end).
(* s[j] *)
Definition elem (s : slc) (j : nat) : prog (res Z) :=
  let '(a, n) := s in
  Load a (fun c =>
    match c with
    | CBuf arr => if (j <? n)%nat then Done (match nth_error arr j with Some x => Ret x | None => Panic end)
                  else Done Panic
    | _ => Done Panic
    end).
(* s[j].increment(), list_merger.go:51-57 *)
Definition incr (s : slc) (j : nat) : prog (res unit) :=
  let '(a, n) := s in
  Load a (fun c =>
    match c with
    | CBuf arr =>
        match (if (j <? n)%nat then nth_error arr j else None) with
        | Some x => match increment x with
                    | Ret y => Save a (CBuf (upd arr j y)) (Done (Ret tt))
                    | _ => Done Panic
                    end
        | None => Done Panic
        end
    | _ => Done Panic
    end).

(** ** CPMerge over memory *)
(* cp_merge.go:51-59, 67-75: HasNext, then Next *)
Definition advance_it (it : addr) : prog (res (option Z)) := call it step_next.
(* cp_merge.go:47-78 *)
Fixpoint scan_p (fuel : nat) (cand : slc) (j : nat) (cur : option Z) (it : addr) (tmp : slc)
  : prog (res slc) :=
  match fuel with
  | O => Done NoFuel
  | S f =>
      if (snd cand <=? j)%nat then
        match cur with
        | None => Done (Ret tmp)
        | Some current =>
            rbind (append tmp (NewMergeCandidate current 1)) (fun tmp' =>
            rbind (advance_it it) (fun cur' => scan_p f cand j cur' it tmp'))
        end
      else
        rbind (elem cand j) (fun c =>
        match cur with
        | None => rbind (append tmp c) (fun tmp' => scan_p f cand (S j) None it tmp')
        | Some current =>
            if Position c >? current then
              rbind (append tmp (NewMergeCandidate current 1)) (fun tmp' =>
              rbind (advance_it it) (fun cur' => scan_p f cand j cur' it tmp'))
            else if Position c <? current then
              rbind (append tmp c) (fun tmp' => scan_p f cand (S j) cur it tmp')
            else
              rbind (incr cand j) (fun _ =>
              rbind (elem cand j) (fun c' =>
              rbind (append tmp c') (fun tmp' =>
              rbind (advance_it it) (fun cur' => scan_p f cand (S j) cur' it tmp'))))
        end)
  end.
(* cp_merge.go:32-81; after each list the two slices change places and the next
   round starts with tmp = tmp[:0] *)
Fixpoint scans_p (rid : list addr) (cand tmp : slc) : prog (res (slc * slc)) :=
  match rid with
  | [] => Done (Ret (cand, tmp))
  | it :: rid' =>
      rbind (ask it get_valid) (fun cur =>
      rbind (ask it (fun i => Ret (it_len i))) (fun len =>
      rbind (scan_p (S (snd cand + Z.to_nat len)) cand 0 cur it (fst tmp, O)) (fun tmp' =>
      scans_p rid' tmp' cand)))
  end.
(* cp_merge.go:86-100; [j] is the index of the range loop *)
Fixpoint prune_p (todo : nat) (cand : slc) (j : nat) (it : addr) (left T : Z) (tmp : slc)
  : prog (res slc) :=
  match todo with
  | O => Done (Ret tmp)
  | S todo' =>
      rbind (elem cand j) (fun c =>
      rbind (call it (fun i =>
               let '(r, i') := it_lowerBound i (Position c) in
               (match r with
                | Ret current => if current =? Position c then increment c else Ret c
                | Fail ErrIteratorIsNotDereferencable => Ret c
                | Fail e => Fail e
                | Panic => Panic | NoFuel => NoFuel
                end, i'))) (fun c' =>
      if Overlap c' + left >=? T
      then rbind (append tmp c') (fun tmp' => prune_p todo' cand (S j) it left T tmp')
      else prune_p todo' cand (S j) it left T tmp))
  end.
(* cp_merge.go:83-103 *)
Fixpoint prunes_p (rid : list addr) (T : Z) (cand tmp : slc) : prog (res (slc * slc)) :=
  match rid with
  | [] => Done (Ret (cand, tmp))
  | it :: rid' =>
      if (snd cand =? 0)%nat then Done (Ret (cand, tmp)) else
      rbind (prune_p (snd cand) cand 0 it (zlen rid') T (fst tmp, O)) (fun tmp' =>
      prunes_p rid' T tmp' cand)
  end.

(* sort.Sort(rid): the order depends on the lengths only (list_merger.go:25-27 Less);
   [order lens] lists the positions in the sorted order *)
Context (order : list Z -> list nat).
Definition permute {X} (o : list nat) (l : list X) : list X :=
  flat_map (fun i => match nth_error l i with Some x => [x] | None => [] end) o.
Fixpoint lens_p (rid : list addr) : prog (res (list Z)) :=
  match rid with
  | [] => Done (Ret [])
  | a :: rid' =>
      rbind (ask a (fun i => Ret (it_len i))) (fun n =>
      rbind (lens_p rid') (fun ns => Done (Ret (n :: ns))))
  end.
Definition sort_p (rid : list addr) : prog (res (list addr)) :=
  rbind (lens_p rid) (fun lens => Done (Ret (permute (order lens) rid))).

Context {St : Type} (collect : St -> Z -> option err * St).
(* cp_merge.go:105-119 *)
Fixpoint emit_p (todo : nat) (cand : slc) (j : nat) (T : Z) (s : St) : prog (res unit * St) :=
  match todo with
  | O => Done (Ret tt, s)
  | S todo' =>
      pbind (elem cand j) (fun r =>
      match r with
      | Ret c =>
          if Overlap c >=? T then
            match collect s c with
            | (None, s') => emit_p todo' cand (S j) T s'
            | (Some ErrCollectionTerminated, s') => Done (Ret tt, s')
            | (Some e, s') => Done (Fail (ErrWrapped e), s')
            end
          else emit_p todo' cand (S j) T s
      | _ => Done (Panic, s)
      end)
  end.
(* cp_merge.go:19-120.  The deferred Puts were given their arguments right after the
   two Gets: the arrays taken from the pool, whatever the variables hold later. *)
Definition cp_p (rid : list addr) (T : Z) (s : St) : prog (res unit * St) :=
  let minQueries := zlen rid - T + 1 in
  pbind (sort_p rid) (fun r =>
  match r with
  | Ret rid =>
      Get PBuf (fun a1 => Get PBuf (fun a2 =>
        pbind (match slice rid 0 minQueries with
               | Ret short =>
                   pbind (rbind (scans_p short (a2, O) (a1, O)) (fun '(cand, tmp) =>
                          prunes_p (skipn (Z.to_nat minQueries) rid) T cand tmp)) (fun r =>
                   match r with
                   | Ret (cand, _) => emit_p (snd cand) cand 0 T s
                   | Fail e => Done (Fail (ErrWrapped e), s)
                   | Panic => Done (Panic, s) | NoFuel => Done (NoFuel, s)
                   end)
               | _ => Done (Panic, s)
               end) (fun out =>
        Put PBuf a2 (Put PBuf a1 (Done out)))))
  | _ => Done (Panic, s)
  end).

(** ** The intersector: list_intersector.go:23-81 *)
(* :43-54 *)
Fixpoint rest_p (item : Z) (rest : list addr) : prog (res bool) :=
  match rest with
  | [] => Done (Ret true)
  | it :: rest' =>
      pbind (call it (fun i => it_lowerBound i item)) (fun r =>
      match r with
      | Ret lower => if negb (lower =? item) then Done (Ret false) else rest_p item rest'
      | Fail ErrIteratorIsNotDereferencable => Done (Ret false)
      | Fail e => Done (Fail e) | Panic => Done Panic | NoFuel => Done NoFuel
      end)
  end.
(* :40-78 *)
Fixpoint inter_p (fuel : nat) (n item : Z) (first : addr) (rest : list addr) (s : St)
  : prog (res unit * St) :=
  match fuel with
  | O => Done (NoFuel, s)
  | S f =>
      pbind (rest_p item rest) (fun r =>
      match r with
      | Ret good =>
          let '(r, s') := if good then collect s (NewMergeCandidate item n) else (None, s) in
          match r with
          | Some ErrCollectionTerminated => Done (Ret tt, s')
          | Some e => Done (Fail e, s')
          | None =>
              pbind (ask first (fun i => Ret (it_hasNext i))) (fun h =>
              match h with
              | Ret true =>
                  pbind (call first it_next) (fun x =>
                  match x with
                  | Ret item' => inter_p f n item' first rest s'
                  | Fail e => Done (Fail e, s') | Panic => Done (Panic, s') | NoFuel => Done (NoFuel, s')
                  end)
              | Ret false => Done (Ret tt, s')
              | _ => Done (Panic, s')
              end)
          end
      | Fail e => Done (Fail e, s) | Panic => Done (Panic, s) | NoFuel => Done (NoFuel, s)
      end)
  end.
Definition intersect_p (rid : list addr) (s : St) : prog (res unit * St) :=
  let n := wrap32 (zlen rid) in
  if n =? 0 then Done (Ret tt, s) else
  pbind (sort_p rid) (fun r =>
  match r with
  | Ret (first :: rest) =>
      pbind (ask first it_get) (fun r =>
      pbind (ask first (fun i => Ret (it_len i))) (fun l =>
      match r, l with
      | Ret item, Ret len => inter_p (S (Z.to_nat len)) n item first rest s
      | Fail e, _ => Done (Fail e, s) | NoFuel, _ => Done (NoFuel, s)
      | _, _ => Done (Panic, s)
      end))
  | _ => Done (Panic, s)
  end).
(* list_merger.go:73-85 *)
Definition merge_p (rid : list addr) (T : Z) (s : St) : prog (res unit * St) :=
  let n := zlen rid in
  if (n <? T) || (n =? 0) || (T <? 0) then Done (Ret tt, s)
  else if n =? T then intersect_p rid s
  else cp_p rid T s.

(** ** The searcher *)
(* searcher.go:39-59: the objects taken so far, in the order they were taken, and
   whether all the terms were opened *)
Fixpoint open_p (iv : inverted) (terms : list term) (held : list addr)
  : prog (list addr * res unit) :=
  match terms with
  | [] => Done (held, Ret tt)
  | t :: ts =>
      match IndexGet iv t with
      | Ret (Some (size, r)) =>
          Get (resolve size) (fun a =>
            pbind (init a r size) (fun x =>
            match x with
            | Ret _ => open_p iv ts (held ++ [a])
            | Fail e => Done (held ++ [a], Fail (ErrWrapped e))
            | Panic => Done (held ++ [a], Panic) | NoFuel => Done (held ++ [a], NoFuel)
            end))
      | Ret None => Get (resolve 0) (fun a => Done (held ++ [a], Panic))
      | Fail e => Done (held, Fail (ErrWrapped e))
      | Panic => Done (held, Panic) | NoFuel => Done (held, NoFuel)
      end
  end.
(* searcher.go:46-50: the deferred releases, last taken first; they also run when
   the search panics *)
Fixpoint release_all (held : list addr) : prog unit :=
  match held with
  | [] => Done tt
  | a :: t => pbind (release a) (fun _ => release_all t)
  end.
(* searcher.go:29-64 *)
Definition search_p (iv : inverted) (terms : list term) (T : Z) (s : St) : prog (res unit * St) :=
  let terms := filterTerms iv terms T 0 in
  if zlen terms <? T then Done (Ret tt, s) else
  pbind (open_p iv terms []) (fun '(held, r) =>
  pbind (match r with
         | Ret _ =>
             pbind (merge_p held T s) (fun '(r, s') =>
             Done (match r with Fail e => Fail (ErrWrapped e) | other => other end, s'))
         | Fail e => Done (Fail e, s) | Panic => Done (Panic, s) | NoFuel => Done (NoFuel, s)
         end) (fun out =>
  pbind (release_all (rev held)) (fun _ => Done out))).
End Objects.

(** ** Goroutines sharing the memory and the pools *)
(* The memory, what every pool holds, and the goroutines. *)
Record world (A : Type) := mkWorld {
  w_heap : addr -> option cell; w_free : pool -> list addr; w_run : list (prog A) }.
Arguments mkWorld {A}. Arguments w_heap {A}. Arguments w_free {A}. Arguments w_run {A}.
Definition pool_eqb (p q : pool) : bool :=
  match p, q with PVb, PVb | PSk, PSk | PBit, PBit | PBuf, PBuf => true | _, _ => false end.
Definition heap_set (h : addr -> option cell) (a : addr) (c : cell) : addr -> option cell :=
  fun b => if (b =? a)%nat then Some c else h b.
Definition free_set (f : pool -> list addr) (q : pool) (l : list addr) : pool -> list addr :=
  fun p => if pool_eqb p q then l else f p.
(* One command of one goroutine.  sync.Pool's contract: Get returns any object that
   was Put and not taken since, or a new one; allocation gives an unused address. *)
Inductive command {A} : (addr -> option cell) -> (pool -> list addr) -> prog A ->
                        (addr -> option cell) -> (pool -> list addr) -> prog A -> Prop :=
| do_reuse h f q k l1 a l2 : f q = l1 ++ a :: l2 ->
    command h f (Get q k) h (free_set f q (l1 ++ l2)) (k a)
| do_fresh h f q k a : h a = None ->
    command h f (Get q k) (heap_set h a (fresh q)) f (k a)
| do_put h f q a k :
    command h f (Put q a k) h (free_set f q (a :: f q)) k
| do_load h f a k c : h a = Some c ->
    command h f (Load a k) h f (k c)
| do_save h f a c c0 k : h a = Some c0 ->
    command h f (Save a c k) (heap_set h a c) f k
| do_new h f c k a : h a = None ->
    command h f (New c k) (heap_set h a c) f (k a).
(* A step: a command of some goroutine, or the collector empties part of a pool. *)
Inductive step {A} : world A -> world A -> Prop :=
| step_run h f before p after h' f' p' : command h f p h' f' p' ->
    step (mkWorld h f (before ++ p :: after)) (mkWorld h' f' (before ++ p' :: after))
| step_gc h f ps q l1 a l2 : f q = l1 ++ a :: l2 ->
    step (mkWorld h f ps) (mkWorld h (free_set f q (l1 ++ l2)) ps).
Inductive steps {A} : world A -> world A -> Prop :=
| steps_refl w : steps w w
| steps_one w w' w'' : steps w w' -> step w' w'' -> steps w w''.
(* the process starts: nothing in memory, nothing in the pools *)
Definition boot {A} (ps : list (prog A)) : world A := mkWorld (fun _ => None) (fun _ => []) ps.
