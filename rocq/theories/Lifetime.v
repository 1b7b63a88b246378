(** Model of the lifetime of mapped files: pkg/utils/mmap_reader.go, the finalizers of
    pkg/store/fs_directory.go, pkg/index/index_reader.go and pkg/lm/binary.go, and a garbage
    collector that may run at any moment.  Definitions only.

    What is modelled: the Go heap as a graph (an object, what it points to, its finalizer); the
    variables the threads still use; the address ranges that are mapped.  A slice of mapped
    memory is no Go pointer to anything: it keeps nothing alive.  The collector follows the
    documentation of runtime.SetFinalizer and its implementation (mgcmark.go, markrootSpans):
    everything an object with a finalizer points to, and everything its finalizer's closure
    captured, is kept; the object itself is not.  A variable counts as in use only as long as
    the code reads it again (the documentation's own example).  Simplifications: a finalizer
    runs in one step; memory that is not reachable is not reused. *)
From Verif Require Import Base.

(** ** utils.MMapReader, sequentially *)
(** mmap_reader.go:47-50: the mapped bytes, or nil. *)
Definition mmap_reader := option bytes.
(** mmap_reader.go:12-20, and io.EOF *)
Inductive merror := MMapIsClosed | MMapInvalidOffset | MEOF.
(* mmap_reader.go:52-64: the second component tells whether the region was unmapped by the call *)
Definition MClose (r : mmap_reader) : option merror * bool * mmap_reader :=
  match r with
  | None => (Some MMapIsClosed, false, None)
  | Some _ => (None, true, None)
  end.
(* mmap_reader.go:66-83 with [n] for len(p): the bytes copied to the front of p, the error *)
Definition MReadAt (r : mmap_reader) (n : nat) (off : Z) : bytes * option merror :=
  match r with
  | None => ([], Some MMapIsClosed)
  | Some data =>
      if ((off <? 0) || (zlen data <? off))%Z then ([], Some MMapInvalidOffset)
      else let got := firstn n (skipn (Z.to_nat off) data) in
           (got, if (length got <? n)%nat then Some MEOF else None)
  end.
(* mmap_reader.go:85-92 *)
Definition MBytes (r : mmap_reader) : bytes * option merror :=
  match r with None => ([], Some MMapIsClosed) | Some data => (data, None) end.

(** ** The heap *)
(** An object's number, a mapping's number (mapping a file again gives a new one), a thread. *)
Notation oid := nat (only parsing).
Inductive kind :=
| KReader (f : nat) (opened : bool)  (* utils.MMapReader: r.data, or nil *)
| KInput (f : nat)                   (* the byteInput of OpenInput *)
| KView (f : nat)                    (* bytes of a mapping: a byteInput of Slice, a slice of Data(), a packedArray *)
| KInverted (f : nat)                (* index.invertedIndex *)
| KIndices (f : nat)                 (* index.invertedIndexIndicesImpl, as Reader.Read returns it *)
| KModel (f : nat)                   (* lm.nGramModel *)
| KLM (f : nat)                      (* lm.languageModel *)
| KDict (f : nat)                    (* dictionary.cdbDictionary *)
| KStruct                            (* anything else that points to objects: suggester, posting list, ... *)
| KService.                          (* suggest.Service: the only one whose pointers change *)
Inductive final :=
| FSelf                              (* mmap_reader.go:42  MMapReader.Close of the object itself *)
| FReader (r : nat)                  (* fs_directory.go:70-72 file.Close() *)
| FInput (i : nat).                  (* index_reader.go:49-51, binary.go:92-94: Input.Close(), which does nothing (byte_input.go:36-39) *)
Record object := mkObj { o_kind : kind; o_refs : list nat; o_fin : option final }.
Record state := mkState {
  heap : list object;                (* object n is the n-th one allocated *)
  vars : list (nat * nat);           (* thread, object: variables in use *)
  mapped : list nat;                 (* the mappings that exist *)
  unmaps : list nat;                 (* munmap calls so far, latest first *)
  next_map : nat;
  faults : list nat }.               (* reads of mappings that no longer exist: SIGSEGV *)
Definition start : state := mkState [] [] [] [] 0 [].

Definition obj (st : state) (x : nat) : option object := nth_error (heap st) x.
Definition kind_of (st : state) (x : nat) : option kind := option_map o_kind (obj st x).

Fixpoint set_nth {A} (l : list A) (n : nat) (a : A) : list A :=
  match l, n with
  | [], _ => []
  | _ :: l', O => a :: l'
  | x :: l', S n' => x :: set_nth l' n' a
  end.
Definition del (n : nat) (l : list nat) : list nat := filter (fun m => negb (Nat.eqb n m)) l.
(* one occurrence: a variable goes out of use *)
Fixpoint del1 (v : nat * nat) (l : list (nat * nat)) : list (nat * nat) :=
  match l with
  | [] => []
  | w :: l' => if (Nat.eqb (fst v) (fst w) && Nat.eqb (snd v) (snd w))%bool then l' else w :: del1 v l'
  end.

(** ** Reachability *)
Inductive reach (h : list object) (S : nat -> Prop) : nat -> Prop :=
| r_here x : S x -> reach h S x
| r_ref x o y : reach h S x -> nth_error h x = Some o -> In y (o_refs o) -> reach h S y.
(** What a finalizer's closure captured. *)
Definition captured (f : final) : list nat :=
  match f with FSelf => [] | FReader r => [r] | FInput i => [i] end.
(** What the collector starts marking from. *)
Definition marked_from (st : state) (x : nat) : Prop :=
  (exists t, In (t, x) (vars st)) \/
  (exists y o f, obj st y = Some o /\ o_fin o = Some f /\ (In x (o_refs o) \/ In x (captured f))).
Definition kept (st : state) (x : nat) : Prop := reach (heap st) (marked_from st) x.

(** ** Finalizers *)
Definition set_obj (st : state) (x : nat) (o : object) : state :=
  mkState (set_nth (heap st) x o) (vars st) (mapped st) (unmaps st) (next_map st) (faults st).
(* mmap_reader.go:52-64 *)
Definition close_reader (st : state) (r : nat) : state :=
  match obj st r with
  | Some (mkObj (KReader f true) refs _) =>
      let st := set_obj st r (mkObj (KReader f false) refs None) in
      mkState (heap st) (vars st) (del f (mapped st)) (f :: unmaps st) (next_map st) (faults st)
  | _ => st                          (* ErrMMapIsClosed *)
  end.
(* the run time takes the finalizer off the object and calls it *)
Definition run_final (st : state) (x : nat) (o : object) (f : final) : state :=
  let st := set_obj st x (mkObj (o_kind o) (o_refs o) None) in
  match f with
  | FSelf => close_reader st x
  | FReader r => close_reader st r
  | FInput _ => st
  end.

(** ** Steps *)
(** New objects, and the variables that hold the results. *)
Definition alloc (st : state) (os : list object) (vs : list (nat * nat)) (maps : list nat) : state :=
  mkState (heap st ++ os) (vs ++ vars st) (maps ++ mapped st) (unmaps st) (next_map st + length maps) (faults st).
(* mmap_reader.go:22-45 *)
Definition NewMMapReader (f : nat) : object := mkObj (KReader f true) [] (Some FSelf).
(* fs_directory.go:54-75, with [r] for the MMapReader: buf is no pointer into the heap *)
Definition OpenInput (f r : nat) : object := mkObj (KInput f) [] (Some (FReader r)).
(* inverted_index.go:39-48 *)
Definition NewInvertedIndex (f i : nat) : object := mkObj (KInverted f) [i] None.
(* index_reader.go:28-54 with [h] for the number of objects before it and [m] for the number of
   mappings: the header's file, the document list's file, an inverted index for each of the [k]
   sizes with terms, the indices *)
Definition Read_objects (h m k : nat) : list object :=
  [NewMMapReader m; OpenInput m h;
   NewMMapReader (m + 1); OpenInput (m + 1) (h + 2)] ++
  repeat (NewInvertedIndex (m + 1) (h + 3)) k ++
  [mkObj (KIndices (m + 1)) (seq (h + 4) k) (Some (FInput (h + 3)))].
(* helpers.go:13-22, cdb_dictionary.go:16-28 *)
Definition OpenCDB_objects (h m : nat) : list object :=
  [NewMMapReader m; mkObj (KDict m) [h] None].
(* binary.go:58-97: the dictionary, the model's file, [k] vectors over its bytes
   (packed_array.go:136-157), the model, the language model *)
Definition RetrieveLM_objects (h m k : nat) : list object :=
  OpenCDB_objects h m ++
  [NewMMapReader (m + 1); OpenInput (m + 1) (h + 2)] ++
  repeat (mkObj (KView (m + 1)) [] None) k ++
  [mkObj (KModel (m + 1)) (seq (h + 4) k) None;
   mkObj (KLM (m + 1)) [h + 4 + k; h + 1] (Some (FInput (h + 3)))].

(** What threads and the collector do. *)
Inductive event :=
| EOpenInput (t : nat)
| EReadIndex (t k : nat)             (* index.Reader.Read *)
| EOpenDict (t : nat)                (* dictionary.OpenCDBDictionary *)
| ELoadLM (t k : nat)                (* lm.RetrieveLMFromBinary *)
| ENewService (t : nat)
| EStruct (t : nat) (xs : list nat)  (* an object pointing to xs, none of them a service *)
| ELoad (t x y : nat)                (* reading a pointer field of x *)
| EGive (t u x : nat)                (* a go statement, a channel, a return *)
| EDrop (t x : nat)                  (* the variable is not read again *)
| ESlice (t x : nat)                 (* a part of x's bytes: Slice, Data, SubVector *)
| ERead (t x : nat)                  (* reading x's bytes *)
| EClose (t x : nat)                 (* Input.Close *)
| EPut (t s x : nat)                 (* service.go:86-87, new value *)
| ERemove (t s x : nat)              (* service.go:86-87, old value *)
| ECollect (x : nat).                (* the collector finds x unreachable and runs its finalizer *)

Definition view_of (k : kind) : option nat :=
  match k with KInput f => Some f | KView f => Some f | _ => None end.

Inductive step (st : state) : event -> state -> Prop :=
| s_open t :
    let h := length (heap st) in
    step st (EOpenInput t) (alloc st [NewMMapReader (next_map st); OpenInput (next_map st) h] [(t, h + 1)] [next_map st])
| s_index t k :
    let h := length (heap st) in
    step st (EReadIndex t k) (alloc st (Read_objects h (next_map st) k) [(t, h + 4 + k)] [next_map st + 1; next_map st])
| s_dict t :
    let h := length (heap st) in
    step st (EOpenDict t) (alloc st (OpenCDB_objects h (next_map st)) [(t, h + 1)] [next_map st])
| s_lm t k :
    let h := length (heap st) in
    step st (ELoadLM t k) (alloc st (RetrieveLM_objects h (next_map st) k) [(t, h + 5 + k)] [next_map st + 1; next_map st])
| s_service t :
    step st (ENewService t) (alloc st [mkObj KService [] None] [(t, length (heap st))] [])
| s_struct t xs :
    (forall x, In x xs -> In (t, x) (vars st) /\ kind_of st x <> Some KService) ->
    step st (EStruct t xs) (alloc st [mkObj KStruct xs None] [(t, length (heap st))] [])
| s_load t x o y :
    In (t, x) (vars st) -> obj st x = Some o -> In y (o_refs o) ->
    step st (ELoad t x y) (alloc st [] [(t, y)] [])
| s_give t u x :
    In (t, x) (vars st) -> step st (EGive t u x) (alloc st [] [(u, x)] [])
| s_drop t x :
    In (t, x) (vars st) ->
    step st (EDrop t x) (mkState (heap st) (del1 (t, x) (vars st)) (mapped st) (unmaps st) (next_map st) (faults st))
| s_slice t x k f :
    In (t, x) (vars st) -> kind_of st x = Some k -> view_of k = Some f ->
    step st (ESlice t x) (alloc st [mkObj (KView f) [] None] [(t, length (heap st))] [])
| s_read t x k f :
    In (t, x) (vars st) -> kind_of st x = Some k -> view_of k = Some f -> In f (mapped st) ->
    step st (ERead t x) st
| s_fault t x k f :
    In (t, x) (vars st) -> kind_of st x = Some k -> view_of k = Some f -> ~ In f (mapped st) ->
    step st (ERead t x) (mkState (heap st) (vars st) (mapped st) (unmaps st) (next_map st) (f :: faults st))
| s_close t x f :
    In (t, x) (vars st) -> kind_of st x = Some (KInput f) -> step st (EClose t x) st
| s_put t s x refs :
    In (t, s) (vars st) -> In (t, x) (vars st) -> obj st s = Some (mkObj KService refs None) ->
    step st (EPut t s x) (set_obj st s (mkObj KService (x :: refs) None))
| s_remove t s x refs :
    In (t, s) (vars st) -> obj st s = Some (mkObj KService refs None) ->
    step st (ERemove t s x) (set_obj st s (mkObj KService (del x refs) None))
| s_collect x o f :
    obj st x = Some o -> o_fin o = Some f -> ~ kept st x ->
    step st (ECollect x) (run_final st x o f).

(** Histories. *)
Inductive exec (st : state) : list event -> state -> Prop :=
| x_nil : exec st [] st
| x_step e st1 es st2 : step st e st1 -> exec st1 es st2 -> exec st (e :: es) st2.
Definition reachable (st : state) : Prop := exists es, exec start es st.
