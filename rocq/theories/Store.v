(** Model of pkg/store: byte outputs, byte inputs, RAM and file-system
    directories.  Definitions only. *)
From Coq Require Import String.
From Verif Require Import Base.
Local Open Scope Z_scope.

(** ** Output (pkg/store/byte_output.go)

    An output is the byte string written so far; a write appends.  The
    underlying io.Writer is taken to be infallible (bytes.Buffer; for a file,
    see the directory model below): Write returns [(len p, nil)]. *)
Definition output := bytes.

(* byte_output.go:21-23 Write *)
Definition Write (o : output) (p : bytes) : res (Z * output) :=
  Ret (zlen p, o ++ p).

(* byte_output.go:26-37 WriteVUInt32.  [slots] is what is left of the 5-byte
   chunk; running out of it is the Go index-out-of-range panic. *)
Fixpoint vuint_chunk (slots : nat) (v : Z) : res bytes :=
  match slots with
  | O => Panic
  | S n =>
      if v >? 127
      then (rest <- vuint_chunk n (Z.shiftr v 7) ;;
            Ret (Z.lor 128 (wrap8 (Z.land v 127)) :: rest))
      else Ret [wrap8 v]
  end.
Definition WriteVUInt32 (o : output) (v : Z) : res (Z * output) :=
  chunk <- vuint_chunk 5 v ;; Write o chunk.

(* byte_output.go:40-46 WriteUInt32; encoding/binary LittleEndian.PutUint32 *)
Definition le32 (v : Z) : bytes :=
  [wrap8 v; wrap8 (Z.shiftr v 8); wrap8 (Z.shiftr v 16); wrap8 (Z.shiftr v 24)].
Definition WriteUInt32 (o : output) (v : Z) : res (Z * output) := Write o (le32 v).

(* byte_output.go:48-54 WriteUInt16 *)
Definition le16 (v : Z) : bytes := [wrap8 v; wrap8 (Z.shiftr v 8)].
Definition WriteUInt16 (o : output) (v : Z) : res (Z * output) := Write o (le16 v).

(* byte_output.go:56-61 WriteByte *)
Definition WriteByte (o : output) (v : Z) : res output :=
  '(_, o') <- Write o [v] ;; Ret o'.

(** ** Input (pkg/store/byte_input.go) *)

(* byte_input.go:31-34 *)
Record input := mkIn { ibuf : bytes; ipos : Z }.
(* byte_input.go:23-28 NewBytesInput *)
Definition NewBytesInput (b : bytes) : input := mkIn b 0.
Definition set_pos (r : input) (i : Z) : input := mkIn (ibuf r) i.

(** Input operations return a result together with the input afterwards (an
    error may or may not have moved the position). *)
Definition ires (A : Type) : Type := (res A * input)%type.

(* byte_input.go:42-51 Read into a destination of length [n]; the result is the
   bytes copied ([n = copy(...)] of them). r.buf[r.i:] panics when r.i is
   outside 0..len, excluded by the guard except for negative r.i. *)
Definition Read (r : input) (n : Z) : ires bytes :=
  if ipos r >=? zlen (ibuf r) then (Fail EOF, r)
  else match slice (ibuf r) (ipos r) (zlen (ibuf r)) with
       | Ret tail => let got := firstn (Z.to_nat n) tail in
                     (Ret got, set_pos r (wrapi64 (ipos r + zlen got)))
       | _ => (Panic, r)
       end.

(* byte_input.go:59-75 ReadAt: the bytes copied and whether io.EOF is also
   returned; the position does not change. *)
Definition ReadAt (r : input) (n off : Z) : ires (bytes * bool) :=
  if off <? 0 then (Fail ErrNegativeOffset, r)
  else if off >=? zlen (ibuf r) then (Fail EOF, r)
  else match slice (ibuf r) off (zlen (ibuf r)) with
       | Ret tail => let got := firstn (Z.to_nat n) tail in
                     (Ret (got, zlen got <? n), r)
       | _ => (Panic, r)
       end.

(* byte_input.go:78-87 ReadByte *)
Definition ReadByte (r : input) : ires Z :=
  if ipos r >=? zlen (ibuf r) then (Fail EOF, r)
  else match index (ibuf r) (ipos r) with
       | Ret b => (Ret b, set_pos r (wrapi64 (ipos r + 1)))
       | _ => (Panic, r)
       end.

(* byte_input.go:91-112 Seek; whence 0/1/2 = SeekStart/SeekCurrent/SeekEnd *)
Definition Seek (r : input) (off : Z) (whence : Z) : ires Z :=
  let abs :=
    if whence =? 0 then Some off
    else if whence =? 1 then Some (wrapi64 (ipos r + off))
    else if whence =? 2 then Some (wrapi64 (zlen (ibuf r) + off))
    else None in
  match abs with
  | None => (Fail ErrInvalidWhence, r)
  | Some a => if a <? 0 then (Fail ErrNegativeOffset, r)
              else (Ret a, set_pos r a)
  end.

(* byte_input.go:115-126 Slice; [off+n] is int64 addition *)
Definition Slice (r : input) (off n : Z) : ires input :=
  if (n <? 0) || (off <? 0) || (zlen (ibuf r) <? wrapi64 (off + n))
  then (Fail ErrOutOfRange, r)
  else match slice (ibuf r) off (wrapi64 (off + n)) with
       | Ret d => (Ret (NewBytesInput d), r)
       | _ => (Panic, r)
       end.

(* byte_input.go:223-245 readVarUInt32Slow; [k] iterations left, [s] the shift *)
Fixpoint slow_loop (k : nat) (b : bytes) (i s v : Z) : res (Z * Z) :=
  match k with
  | O => Fail ErrUInt32Overflow
  | S k' =>
      if i >=? zlen b then Fail ErrUnexpectedEOF
      else (c <- index b i ;;
            let v := Z.lor v (wrap32 (Z.shiftl (Z.land c 127) s)) in
            let i := i + 1 in
            if c <? 128 then Ret (v, i) else slow_loop k' b i (s + 7) v)
  end.

(* byte_input.go:143-190: the unrolled part of ReadVUInt32 *)
Definition fast_read (b : bytes) (i : Z) : res (Z * Z) :=
  b0 <- index b i ;;
  let v := wrap32 (b0 - 128) in
  let i := i + 1 in
  b1 <- index b i ;;
  let i := i + 1 in
  let v := wrap32 (v + wrap32 (Z.shiftl b1 7)) in
  if Z.land b1 128 =? 0 then Ret (v, i) else
  let v := wrap32 (v - Z.shiftl 128 7) in
  b2 <- index b i ;;
  let i := i + 1 in
  let v := wrap32 (v + wrap32 (Z.shiftl b2 14)) in
  if Z.land b2 128 =? 0 then Ret (v, i) else
  let v := wrap32 (v - Z.shiftl 128 14) in
  b3 <- index b i ;;
  let i := i + 1 in
  let v := wrap32 (v + wrap32 (Z.shiftl b3 21)) in
  if Z.land b3 128 =? 0 then Ret (v, i) else
  let v := wrap32 (v - Z.shiftl 128 21) in
  b4 <- index b i ;;
  let i := i + 1 in
  let v := wrap32 (v + wrap32 (Z.shiftl b4 28)) in
  if Z.land b4 128 =? 0 then Ret (v, i) else
  Fail ErrUInt32Overflow.

(* byte_input.go:130-193 ReadVUInt32 (both paths only move r.i on success) *)
Definition ReadVUInt32 (r : input) : ires Z :=
  let i := ipos r in
  let l := zlen (ibuf r) in
  if l <=? i then (Fail ErrUInt32Overflow, r)
  else match index (ibuf r) i with
       | Ret b0 =>
           if b0 <? 128 then (Ret b0, set_pos r (wrapi64 (i + 1)))
           else
             match (if l - i <? 5 then slow_loop 5 (ibuf r) i 0 0
                    else fast_read (ibuf r) i) with
             | Ret (v, i') => (Ret v, set_pos r i')
             | Fail e => (Fail e, r)
             | Panic => (Panic, r)
             | NoFuel => (NoFuel, r)
             end
       | _ => (Panic, r)
       end.

(* byte_input.go:196-205 ReadUInt32; binary.LittleEndian.Uint32 of r.buf[r.i:] *)
Definition ReadUInt32 (r : input) : ires Z :=
  if wrapi64 (ipos r + 4) >? zlen (ibuf r) then (Fail ErrUnexpectedEOF, r)
  else match slice (ibuf r) (ipos r) (zlen (ibuf r)) with
       | Ret (b0 :: b1 :: b2 :: b3 :: _) =>
           (Ret (Z.lor b0 (Z.lor (Z.shiftl b1 8)
                     (Z.lor (Z.shiftl b2 16) (Z.shiftl b3 24)))),
            set_pos r (wrapi64 (ipos r + 4)))
       | _ => (Panic, r)
       end.

(* byte_input.go:208-217 ReadUInt16 *)
Definition ReadUInt16 (r : input) : ires Z :=
  if wrapi64 (ipos r + 2) >? zlen (ibuf r) then (Fail ErrUnexpectedEOF, r)
  else match slice (ibuf r) (ipos r) (zlen (ibuf r)) with
       | Ret (b0 :: b1 :: _) =>
           (Ret (Z.lor b0 (Z.shiftl b1 8)), set_pos r (wrapi64 (ipos r + 2)))
       | _ => (Panic, r)
       end.

(** ** Directories

    A history is a list of operations.  [OCreate n] opens an output on file [n]
    and gives it the next handle number; [OWrite h p] writes through handle
    [h]; [OFlush h k] is bufio.Writer flushing the first [k] pending bytes on
    its own (it does so whenever its buffer fills; the model lets it happen at
    any time and for any amount); [OClose h] closes it. *)
Inductive dop :=
| OCreate (n : string)
| OWrite (h : nat) (p : bytes)
| OFlush (h : nat) (k : nat)
| OClose (h : nat).

Definition fmap := string -> option bytes.
Definition fset (m : fmap) (n : string) (v : bytes) : fmap :=
  fun x => if String.eqb x n then Some v else m x.

(* ram_directory.go:10-12: files; an output is a pointer to the buffer of its
   file, which is never replaced, so a handle is the file name. *)
Record ramdir := mkRam { rd_files : fmap; rd_handles : list string }.
Definition NewRAMDirectory : ramdir := mkRam (fun _ => None) [].
(* ram_directory.go:22-28 CreateOutput; byte_output.go:21-23; Close is a no-op
   for a bytes.Buffer (byte_output.go:63-76) *)
Definition ram_step (d : ramdir) (o : dop) : ramdir :=
  match o with
  | OCreate n =>
      mkRam (match rd_files d n with
             | Some _ => rd_files d
             | None => fset (rd_files d) n []
             end) (rd_handles d ++ [n])
  | OWrite h p =>
      match nth_error (rd_handles d) h with
      | Some n => match rd_files d n with
                  | Some b => mkRam (fset (rd_files d) n (b ++ p)) (rd_handles d)
                  | None => d
                  end
      | None => d
      end
  | OFlush _ _ => d
  | OClose _ => d
  end.
(* ram_directory.go:31-39 OpenInput *)
Definition ram_open (d : ramdir) (n : string) : option bytes := rd_files d n.
Definition ram_run (d : ramdir) (h : list dop) : ramdir := fold_left ram_step h d.

(* fs_directory.go: an output is a bufio.Writer over an *os.File: the file
   offset, the pending bytes, and whether it is open (a write or flush on a closed
   file changes nothing on disk). *)
Record fhandle := mkFh { fh_name : string; fh_off : nat; fh_pend : bytes; fh_open : bool }.
Record fsdir := mkFs { fs_files : fmap; fs_handles : list fhandle }.
Definition NewFSDirectory : fsdir := mkFs (fun _ => None) [].

(* write(2) at an offset; a gap past the end of the file is filled with zeros *)
Definition pwrite (b : bytes) (off : nat) (p : bytes) : bytes :=
  firstn off (b ++ repeat 0 (off - List.length b)) ++ p ++ skipn (off + List.length p) b.

Fixpoint set_nth {A} (n : nat) (x : A) (l : list A) : list A :=
  match n, l with
  | _, [] => []
  | O, _ :: t => x :: t
  | S n', y :: t => y :: set_nth n' x t
  end.

Definition fs_flush (d : fsdir) (h k : nat) (close : bool) : fsdir :=
  match nth_error (fs_handles d) h with
  | Some f =>
      if fh_open f then
        let out := firstn k (fh_pend f) in
        match fs_files d (fh_name f) with
        | Some b =>
            mkFs (match out with
                  | [] => fs_files d
                  | _ => fset (fs_files d) (fh_name f) (pwrite b (fh_off f) out)
                  end)
                 (set_nth h (mkFh (fh_name f) (fh_off f + List.length out)%nat
                                  (skipn k (fh_pend f)) (negb close)) (fs_handles d))
        | None => d
        end
      else d
  | None => d
  end.

(* fs_directory.go:40-52 CreateOutput (O_CREATE|O_WRONLY|O_TRUNC; the open is
   assumed to succeed); bufio.Writer.Write; byte_output.go:63-76 Close = Flush
   then close *)
Definition fs_step (d : fsdir) (o : dop) : fsdir :=
  match o with
  | OCreate n => mkFs (fset (fs_files d) n []) (fs_handles d ++ [mkFh n 0 [] true])
  | OWrite h p =>
      match nth_error (fs_handles d) h with
      | Some f => mkFs (fs_files d)
                       (set_nth h (mkFh (fh_name f) (fh_off f) (fh_pend f ++ p) (fh_open f))
                                (fs_handles d))
      | None => d
      end
  | OFlush h k => fs_flush d h k false
  | OClose h =>
      match nth_error (fs_handles d) h with
      | Some f => fs_flush d h (List.length (fh_pend f)) true
      | None => d
      end
  end.
(* fs_directory.go:55-75 OpenInput: the file's content as mapped *)
Definition fs_open (d : fsdir) (n : string) : option bytes := fs_files d n.
Definition fs_run (d : fsdir) (h : list dop) : fsdir := fold_left fs_step h d.
