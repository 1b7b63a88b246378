(** Model of the posting list iterators: pkg/index/posting_list.go,
    skipping_posting_list.go, bitmap_posting_list.go, codec.go and
    pkg/merger/list_iterator.go.  Definitions only. *)
From Verif Require Import Base Store Compression.
Local Open Scope Z_scope.

(** ** Slice iterator (pkg/merger/list_iterator.go) *)
(* list_iterator.go:29-32 SliceIterator *)
Record sliter := mkSl { sl_slice : list Z; sl_index : Z }.

(* Go's sort.Search (standard library): binary search for the smallest index in
   [i,j) where f is true; fuel bounds the number of halvings. *)
Fixpoint sort_search_loop (fuel : nat) (f : Z -> bool) (i j : Z) : res Z :=
  match fuel with
  | O => NoFuel
  | S fuel' =>
      if i <? j then
        let h := Z.shiftr (i + j) 1 in
        if negb (f h) then sort_search_loop fuel' f (h + 1) j
        else sort_search_loop fuel' f i h
      else Ret i
  end.
Definition sort_search (n : Z) (f : Z -> bool) : res Z :=
  sort_search_loop (S (Z.to_nat n)) f 0 n.

(* list_iterator.go:43-49 *)
Definition sl_get (s : sliter) : res Z :=
  if sl_index s <? zlen (sl_slice s) then index (sl_slice s) (sl_index s)
  else Fail ErrIteratorIsNotDereferencable.
(* list_iterator.go:57-59 *)
Definition sl_hasNext (s : sliter) : bool := sl_index s + 1 <? zlen (sl_slice s).
(* list_iterator.go:62-70 *)
Definition sl_next (s : sliter) : res Z * sliter :=
  if negb (sl_hasNext s) then (Fail ErrIteratorIsNotDereferencable, s)
  else let s' := mkSl (sl_slice s) (sl_index s + 1) in (index (sl_slice s') (sl_index s'), s').
(* list_iterator.go:74-90 *)
Definition sl_lowerBound (s : sliter) (to : Z) : res Z * sliter :=
  if negb (sl_index s <? zlen (sl_slice s)) then (Fail ErrIteratorIsNotDereferencable, s)
  else
    match slice (sl_slice s) (sl_index s) (zlen (sl_slice s)) with
    | Ret sub =>
        match sort_search (zlen sub) (fun i => nth (Z.to_nat i) sub 0 >=? to) with
        | Ret j =>
            if (j <? 0) || (j >=? zlen sub)
            then (Fail ErrIteratorIsNotDereferencable, mkSl (sl_slice s) (zlen (sl_slice s)))
            else (index sub j, mkSl (sl_slice s) (sl_index s + j))
        | Fail e => (Fail e, s) | Panic => (Panic, s) | NoFuel => (NoFuel, s)
        end
    | _ => (Panic, s)
    end.

(** ** Sequential varint posting list (posting_list.go) *)
(* posting_list.go:16-21 *)
Record vlist := mkVl { vl_in : input; vl_index : Z; vl_size : Z; vl_cur : Z }.
(* posting_list.go:94-108 Init *)
Definition vl_init (r : input) (size : Z) : res vlist :=
  match ReadVUInt32 r with
  | (Ret c, r') => Ret (mkVl r' 0 size c)
  | (Fail e, _) => Fail e | (Panic, _) => Panic | (NoFuel, _) => NoFuel
  end.
Definition vl_valid (s : vlist) : bool := vl_index s <? vl_size s.
(* posting_list.go:24-30 *)
Definition vl_get (s : vlist) : res Z :=
  if negb (vl_valid s) then Fail ErrIteratorIsNotDereferencable else Ret (vl_cur s).
(* posting_list.go:33-35 *)
Definition vl_hasNext (s : vlist) : bool := vl_index s + 1 <? vl_size s.
(* posting_list.go:38-53 *)
Definition vl_next (s : vlist) : res Z * vlist :=
  if negb (vl_hasNext s) then (Fail ErrIteratorIsNotDereferencable, s)
  else match ReadVUInt32 (vl_in s) with
       | (Ret c, r') =>
           let cur := wrap32 (vl_cur s + c) in
           (Ret cur, mkVl r' (vl_index s + 1) (vl_size s) cur)
       | (Fail e, r') => (Fail e, mkVl r' (vl_index s) (vl_size s) (vl_cur s))
       | (Panic, r') => (Panic, s) | (NoFuel, r') => (NoFuel, s)
       end.
(* posting_list.go:66-80: the scanning loop of LowerBound *)
Fixpoint vl_scan (fuel : nat) (s : vlist) (to : Z) : res Z * vlist :=
  match fuel with
  | O => (NoFuel, s)
  | S fuel' =>
      if vl_hasNext s then
        match vl_next s with
        | (Ret c, s') => if c >=? to then (Ret c, s') else vl_scan fuel' s' to
        | other => other
        end
      else (Fail ErrIteratorIsNotDereferencable,
            mkVl (vl_in s) (vl_size s) (vl_size s) (vl_cur s))
  end.
(* posting_list.go:57-81 *)
Definition vl_lowerBound (s : vlist) (to : Z) : res Z * vlist :=
  if negb (vl_valid s) then (Fail ErrIteratorIsNotDereferencable, s)
  else if vl_cur s >=? to then (Ret (vl_cur s), s)
  else vl_scan (S (Z.to_nat (vl_size s))) s to.

(** ** Skipping posting list (skipping_posting_list.go) *)
(* skipping_posting_list.go:13-22 *)
Record slist := mkSk {
  sk_in : input; sk_index : Z; sk_size : Z; sk_cur : Z;
  sk_skipval : Z; sk_nextpos : Z; sk_gap : Z; sk_last : bool }.
(* skipping_posting_list.go:181-201 readSkipping *)
Definition sk_readSkipping (s : slist) : res unit * slist :=
  match ReadUInt16 (sk_in s) with
  | (Ret d, r1) =>
      let '(position, last) := UnpackPos d in
      match ReadVUInt32 r1 with
      | (Ret c, r2) =>
          let cur := wrap32 (sk_skipval s + c) in
          (Ret tt, mkSk r2 (sk_index s) (sk_size s) cur cur (sk_nextpos s + position) (sk_gap s) last)
      | (Fail e, r2) => (Fail e, mkSk r2 (sk_index s) (sk_size s) (sk_cur s) (sk_skipval s) (sk_nextpos s) (sk_gap s) (sk_last s))
      | (Panic, _) => (Panic, s) | (NoFuel, _) => (NoFuel, s)
      end
  | (Fail e, r1) => (Fail e, s)
  | (Panic, _) => (Panic, s) | (NoFuel, _) => (NoFuel, s)
  end.
(* skipping_posting_list.go:170-178 Init *)
Definition sk_init (gap : Z) (r : input) (size : Z) : res slist :=
  match sk_readSkipping (mkSk r 0 size 0 0 0 gap false) with
  | (Ret _, s) => Ret s
  | (Fail e, _) => Fail e | (Panic, _) => Panic | (NoFuel, _) => NoFuel
  end.
Definition sk_valid (s : slist) : bool := sk_index s <? sk_size s.
(* skipping_posting_list.go:25-31 *)
Definition sk_get (s : slist) : res Z :=
  if negb (sk_valid s) then Fail ErrIteratorIsNotDereferencable else Ret (sk_cur s).
(* skipping_posting_list.go:34-36 *)
Definition sk_hasNext (s : slist) : bool := sk_index s + 1 <? sk_size s.
Definition sk_set_index (s : slist) (i : Z) : slist :=
  mkSk (sk_in s) i (sk_size s) (sk_cur s) (sk_skipval s) (sk_nextpos s) (sk_gap s) (sk_last s).
Definition sk_set_in (s : slist) (r : input) : slist :=
  mkSk r (sk_index s) (sk_size s) (sk_cur s) (sk_skipval s) (sk_nextpos s) (sk_gap s) (sk_last s).
(* skipping_posting_list.go:39-67 Next *)
Definition sk_next (s : slist) : res Z * slist :=
  if negb (sk_hasNext s) then (Fail ErrIteratorIsNotDereferencable, s)
  else match Seek (sk_in s) 0 1 with
       | (Ret curpos, r0) =>
           let s := sk_set_in s r0 in
           if curpos =? sk_nextpos s then
             match sk_readSkipping s with
             | (Ret _, s') => (Ret (sk_cur s'), sk_set_index s' (sk_index s' + 1))
             | (Fail e, s') => (Fail e, s') | (Panic, s') => (Panic, s') | (NoFuel, s') => (NoFuel, s')
             end
           else
             match ReadVUInt32 (sk_in s) with
             | (Ret c, r1) =>
                 let cur := wrap32 (sk_cur s + c) in
                 (Ret cur, mkSk r1 (sk_index s + 1) (sk_size s) cur (sk_skipval s) (sk_nextpos s) (sk_gap s) (sk_last s))
             | (Fail e, r1) => (Fail e, sk_set_in s r1)
             | (Panic, _) => (Panic, s) | (NoFuel, _) => (NoFuel, s)
             end
       | (Fail e, _) => (Fail e, s) | (Panic, _) => (Panic, s) | (NoFuel, _) => (NoFuel, s)
       end.
(* skipping_posting_list.go:130-144: the sequential loop of LowerBound *)
Fixpoint sk_scan (fuel : nat) (s : slist) (to : Z) : res Z * slist :=
  match fuel with
  | O => (NoFuel, s)
  | S fuel' =>
      if sk_hasNext s then
        match sk_next s with
        | (Ret c, s') => if c >=? to then (Ret c, s') else sk_scan fuel' s' to
        | other => other
        end
      else (Fail ErrIteratorIsNotDereferencable, sk_set_index s (sk_size s))
  end.
(* skipping_posting_list.go:158-167 moveToPosition *)
Definition sk_move (s : slist) (position : Z) : res unit * slist :=
  match Seek (sk_in s) position 0 with
  | (Ret _, r) => (Ret tt, sk_set_in s r)
  | (Fail e, _) => (Fail e, s) | (Panic, _) => (Panic, s) | (NoFuel, _) => (NoFuel, s)
  end.
(* skipping_posting_list.go:88-127: the block-skipping loop of LowerBound.  On
   [Ret] the sequential loop follows with the returned state.  [*i = prev] keeps
   the pointer to the same input, so the restored state has the input at the
   position set by the preceding moveToPosition. *)
Fixpoint sk_skip (fuel : nat) (skips : Z) (s : slist) (to : Z) : res unit * slist :=
  match fuel with
  | O => (NoFuel, s)
  | S fuel' =>
      if negb (sk_last s) && sk_hasNext s then
        let prev := s in
        match Seek (sk_in s) 0 1 with
        | (Ret prevPosition, _) =>
            match sk_move s (sk_nextpos s) with
            | (Ret _, s) =>
                let skips := skips + 1 in
                let s := sk_set_index s (skips * sk_gap s - 1) in
                let s := if sk_index s >=? sk_size s then sk_set_index s (sk_size s - 2) else s in
                match sk_next s with
                | (Ret cur, s) =>
                    if (cur <? to) && negb (sk_last s) then sk_skip fuel' skips s to
                    else if cur >=? to then
                      match sk_move s prevPosition with
                      | (Ret _, s') => (Ret tt, sk_set_in prev (sk_in s'))
                      | other => other
                      end
                    else sk_skip fuel' skips s to
                | (Fail e, s) => (Fail e, s) | (Panic, s) => (Panic, s) | (NoFuel, s) => (NoFuel, s)
                end
            | other => other
            end
        | (Fail e, _) => (Fail e, s) | (Panic, _) => (Panic, s) | (NoFuel, _) => (NoFuel, s)
        end
      else (Ret tt, s)
  end.
(* skipping_posting_list.go:71-145 LowerBound; the gap division would panic on 0 *)
Definition sk_lowerBound (s : slist) (to : Z) : res Z * slist :=
  if negb (sk_valid s) then (Fail ErrIteratorIsNotDereferencable, s)
  else if sk_cur s >=? to then (Ret (sk_cur s), s)
  else
    let fuel := S (Z.to_nat (sk_size s)) in
    if (sk_index s >? 0) && (sk_gap s =? 0) then (Panic, s) else
    let skips := if sk_index s >? 0 then Z.quot (sk_index s) (sk_gap s) else 0 in
    match sk_skip fuel skips s to with
    | (Ret _, s') => sk_scan fuel s' to
    | (Fail e, s') => (Fail e, s') | (Panic, s') => (Panic, s') | (NoFuel, s') => (NoFuel, s')
    end.

(** ** Bitmap posting list (bitmap_posting_list.go)

    The roaring library is an oracle: [rb_enc s] are the bytes it writes for the
    ascending set [s], [rb_dec b] the set it reads back.  Its iterator is the
    ascending list of values not yet returned. *)
Record roaring := mkRb { rb_enc : list Z -> bytes; rb_dec : bytes -> option (list Z) }.
(* bitmap.Add, pkg/compression/bitmap.go:25-27: insertion into a sorted set *)
Fixpoint set_add (x : Z) (s : list Z) : list Z :=
  match s with
  | [] => [x]
  | y :: t => if x <? y then x :: s else if x =? y then s else y :: set_add x t
  end.
Definition to_set (l : list Z) : list Z := fold_left (fun s x => set_add x s) l [].
(* pkg/compression/bitmap.go:18-29 Encode *)
Definition bitmapEncode (rb : roaring) (l : list Z) (o : output) : res (Z * output) :=
  let b := rb_enc rb (to_set l) in Ret (zlen b, o ++ b).

(* bitmap_posting_list.go:12-18 *)
Record blist := mkBl { bl_rest : list Z; bl_cur : Z; bl_valid : bool; bl_len : Z }.
(* bitmap_posting_list.go:74-105 Init; FromBuffer is given the whole data of the
   reader (store.SliceAccessible).  ErrOther 1 = "failed to create bitmap",
   ErrOther 2 = "bitmap should not be empty". *)
Definition bl_init (rb : roaring) (r : input) : res blist :=
  match rb_dec rb (ibuf r) with
  | None => Fail (ErrOther 1)
  | Some [] => Fail (ErrOther 2)
  | Some (x :: t) => Ret (mkBl t x true (zlen (x :: t)))
  end.
(* bitmap_posting_list.go:21-27 *)
Definition bl_get (s : blist) : res Z :=
  if negb (bl_valid s) then Fail ErrIteratorIsNotDereferencable else Ret (bl_cur s).
(* bitmap_posting_list.go:30-32 *)
Definition bl_hasNext (s : blist) : bool :=
  bl_valid s && match bl_rest s with [] => false | _ => true end.
(* bitmap_posting_list.go:35-43 *)
Definition bl_next (s : blist) : res Z * blist :=
  if negb (bl_hasNext s) then (Fail ErrIteratorIsNotDereferencable, s)
  else match bl_rest s with
       | x :: t => (Ret x, mkBl t x (bl_valid s) (bl_len s))
       | [] => (Panic, s)
       end.
(* roaring AdvanceIfNeeded: skip values < to *)
Fixpoint advance (to : Z) (l : list Z) : list Z :=
  match l with
  | x :: t => if x <? to then advance to t else l
  | [] => []
  end.
(* bitmap_posting_list.go:47-66 *)
Definition bl_lowerBound (s : blist) (to : Z) : res Z * blist :=
  if negb (bl_valid s) then (Fail ErrIteratorIsNotDereferencable, s)
  else if bl_cur s >=? to then (Ret (bl_cur s), s)
  else match advance to (bl_rest s) with
       | [] => (Fail ErrIteratorIsNotDereferencable, mkBl [] (bl_cur s) false (bl_len s))
       | x :: t => (Ret x, mkBl t x (bl_valid s) (bl_len s))
       end.

(** ** The ListIterator interface (pkg/merger/list_iterator.go:13-26) *)
Inductive iter :=
| ISlice (s : sliter) | IVb (s : vlist) | ISkip (s : slist) | IBit (s : blist).
Definition it_get (i : iter) : res Z :=
  match i with ISlice s => sl_get s | IVb s => vl_get s | ISkip s => sk_get s | IBit s => bl_get s end.
Definition it_hasNext (i : iter) : bool :=
  match i with ISlice s => sl_hasNext s | IVb s => vl_hasNext s | ISkip s => sk_hasNext s | IBit s => bl_hasNext s end.
Definition it_next (i : iter) : res Z * iter :=
  match i with
  | ISlice s => let '(r, s') := sl_next s in (r, ISlice s')
  | IVb s => let '(r, s') := vl_next s in (r, IVb s')
  | ISkip s => let '(r, s') := sk_next s in (r, ISkip s')
  | IBit s => let '(r, s') := bl_next s in (r, IBit s')
  end.
Definition it_lowerBound (i : iter) (to : Z) : res Z * iter :=
  match i with
  | ISlice s => let '(r, s') := sl_lowerBound s to in (r, ISlice s')
  | IVb s => let '(r, s') := vl_lowerBound s to in (r, IVb s')
  | ISkip s => let '(r, s') := sk_lowerBound s to in (r, ISkip s')
  | IBit s => let '(r, s') := bl_lowerBound s to in (r, IBit s')
  end.
Definition it_len (i : iter) : Z :=
  match i with ISlice s => zlen (sl_slice s) | IVb s => vl_size s | ISkip s => sk_size s | IBit s => bl_len s end.

(** ** Choice of format (codec.go) *)
Definition skippingGapSize : Z := 64.   (* codec.go:11 *)
Definition maxSkippingLen : Z := 256.   (* codec.go:12 *)
(* codec.go:39-51 encoder.Encode *)
Definition encodePosting (rb : roaring) (l : list Z) (o : output) : res (Z * output) :=
  if zlen l <=? skippingGapSize + 1 then vbEncode l o
  else if zlen l <=? maxSkippingLen then skipEncode (S (length l)) skippingGapSize l o
  else bitmapEncode rb l o.
(* codec.go:76-88 resolvePostingList followed by Init
   (inverted_index.go / searcher.go): the iterator opened on a stored list.  The
   sync.Pool objects carry no state that Init does not overwrite. *)
Definition openPosting (rb : roaring) (r : input) (size : Z) : res iter :=
  if size <=? skippingGapSize + 1 then (s <- vl_init r size ;; Ret (IVb s))
  else if size <=? maxSkippingLen then (s <- sk_init skippingGapSize r size ;; Ret (ISkip s))
  else (s <- bl_init rb r ;; Ret (IBit s)).
