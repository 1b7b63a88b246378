(** Independent specifications for pkg/store. *)
From Coq Require Import String.
From Verif Require Import Base Store.
Local Open Scope Z_scope.

(** Little-endian base-128 value of a group of bytes (continuation bits ignored). *)
Definition leb_value (l : bytes) : Z :=
  fold_right (fun b acc => b mod 128 + 128 * acc) 0 l.

(** The number starting at the head of [l] ends at byte [n]: bytes 0..n-1 have the
    continuation bit, byte [n] has not. *)
Definition ends_at (l : bytes) (n : nat) : Prop :=
  (n < List.length l)%nat /\
  (forall j, (j < n)%nat -> 128 <= nth j l 0) /\ nth n l 0 < 128.

(** Typed values written to / read from a stream. *)
Inductive item :=
| IU16 (v : Z) | IU32 (v : Z) | IVar (v : Z) | IByte (v : Z) | IRaw (p : bytes).
Definition item_ok (x : item) : Prop :=
  match x with
  | IU16 v => is_u16 v | IU32 v => is_u32 v | IVar v => is_u32 v
  | IByte v => is_byte v | IRaw p => p <> [] /\ Forall is_byte p
  end.
(** write one item / write all items in order, with the model's writers *)
Definition put (o : output) (x : item) : res output :=
  match x with
  | IU16 v => '(_, o') <- WriteUInt16 o v ;; Ret o'
  | IU32 v => '(_, o') <- WriteUInt32 o v ;; Ret o'
  | IVar v => '(_, o') <- WriteVUInt32 o v ;; Ret o'
  | IByte v => WriteByte o v
  | IRaw p => '(_, o') <- Write o p ;; Ret o'
  end.
Fixpoint put_all (o : output) (l : list item) : res output :=
  match l with [] => Ret o | x :: r => o' <- put o x ;; put_all o' r end.
(** read back one item of the same type as [x] (raw strings: same length) *)
Definition get (r : input) (x : item) : ires item :=
  let map (f : Z -> item) (p : ires Z) : ires item :=
    match p with
    | (Ret v, r') => (Ret (f v), r')
    | (Fail e, r') => (Fail e, r') | (Panic, r') => (Panic, r') | (NoFuel, r') => (NoFuel, r')
    end in
  match x with
  | IU16 _ => map IU16 (ReadUInt16 r)
  | IU32 _ => map IU32 (ReadUInt32 r)
  | IVar _ => map IVar (ReadVUInt32 r)
  | IByte _ => map IByte (ReadByte r)
  | IRaw p => match Read r (zlen p) with
              | (Ret b, r') => (Ret (IRaw b), r')
              | (Fail e, r') => (Fail e, r') | (Panic, r') => (Panic, r') | (NoFuel, r') => (NoFuel, r')
              end
  end.
Fixpoint get_all (r : input) (l : list item) : ires (list item) :=
  match l with
  | [] => (Ret [], r)
  | x :: t =>
      match get r x with
      | (Ret y, r1) =>
          match get_all r1 t with
          | (Ret ys, r2) => (Ret (y :: ys), r2)
          | (Fail e, r2) => (Fail e, r2) | (Panic, r2) => (Panic, r2) | (NoFuel, r2) => (NoFuel, r2)
          end
      | (Fail e, r1) => (Fail e, r1) | (Panic, r1) => (Panic, r1) | (NoFuel, r1) => (NoFuel, r1)
      end
  end.

(** ** Cursor operations (C04) *)
Inductive iop :=
| PRead (n : Z) | PReadAt (n off : Z) | PReadByte | PSeek (off whence : Z)
| PSlice (off n : Z) | PVar | PU32 | PU16.
Inductive iout :=
| OBytes (b : bytes) | OBytesEof (b : bytes) (eof : bool) | OVal (v : Z) | OSub (r : input).
Definition lift {A} (f : A -> iout) (p : ires A) : ires iout :=
  match p with
  | (Ret v, r') => (Ret (f v), r')
  | (Fail e, r') => (Fail e, r') | (Panic, r') => (Panic, r') | (NoFuel, r') => (NoFuel, r')
  end.
Definition istep (r : input) (o : iop) : ires iout :=
  match o with
  | PRead n => lift OBytes (Read r n)
  | PReadAt n off => lift (fun p => OBytesEof (fst p) (snd p)) (ReadAt r n off)
  | PReadByte => lift OVal (ReadByte r)
  | PSeek off w => lift OVal (Seek r off w)
  | PSlice off n => lift OSub (Slice r off n)
  | PVar => lift OVal (ReadVUInt32 r)
  | PU32 => lift OVal (ReadUInt32 r)
  | PU16 => lift OVal (ReadUInt16 r)
  end.
Definition istep_state (r : input) (o : iop) : input := snd (istep r o).
(** the input after a history of operations *)
Definition irun (r : input) (h : list iop) : input := fold_left istep_state h r.
(** the arguments of an operation are machine integers *)
Definition iop_i64 (o : iop) : Prop :=
  match o with
  | PRead n => 0 <= n < 2 ^ 63
  | PReadAt n off => 0 <= n < 2 ^ 63 /\ is_i64 off
  | PSeek off w => is_i64 off /\ is_i64 w
  | PSlice off n => is_i64 off /\ is_i64 n
  | _ => True
  end.

(** little-endian value of bytes *)
Fixpoint le_value (l : bytes) : Z :=
  match l with [] => 0 | b :: r => b + 256 * le_value r end.

(** What a non-failing operation must answer, in terms of the data and the
    position only: bytes of [data] at the right place, and the new position. *)
Definition answer_ok (data : bytes) (pos : Z) (o : iop) (out : iout) (pos' : Z) : Prop :=
  let tail := skipn (Z.to_nat pos) data in
  match o, out with
  | PRead n, OBytes b => b = firstn (Z.to_nat n) tail /\ tail <> [] /\ pos' = pos + zlen b
  | PReadAt n off, OBytesEof b e =>
      b = firstn (Z.to_nat n) (skipn (Z.to_nat off) data) /\ 0 <= off < zlen data /\
      (e = true <-> zlen b < n) /\ pos' = pos
  | PReadByte, OVal v => nth_error data (Z.to_nat pos) = Some v /\ pos' = pos + 1
  | PSeek off w, OVal v =>
      v = pos' /\ 0 <= v /\
      (w = 0 /\ v = off \/ w = 1 /\ v = pos + off \/ w = 2 /\ v = zlen data + off)
  | PSlice off n, OSub s =>
      ibuf s = firstn (Z.to_nat n) (skipn (Z.to_nat off) data) /\
      zlen (ibuf s) = n /\ ipos s = 0 /\ pos' = pos
  | PVar, OVal v => exists n, (n < 5)%nat /\ ends_at tail n /\
      v = leb_value (firstn (S n) tail) mod 2 ^ 32 /\ pos' = pos + Z.of_nat (S n)
  | PU32, OVal v => v = le_value (firstn 4 tail) /\ (4 <= List.length tail)%nat /\ pos' = pos + 4
  | PU16, OVal v => v = le_value (firstn 2 tail) /\ (2 <= List.length tail)%nat /\ pos' = pos + 2
  | _, _ => False
  end.

(** ** Directories (C05): what a reader should see.  [written_since h n] is the
    concatenation of the writes, in history [h], through the handle of the last
    [OCreate n]; [None] if the file was never created. *)
Fixpoint count_creates (h : list dop) : nat :=
  match h with
  | [] => O
  | OCreate _ :: t => S (count_creates t)
  | _ :: t => count_creates t
  end.
(** bytes written through handle number [k] *)
Fixpoint writes_to (k : nat) (h : list dop) : bytes :=
  match h with
  | [] => []
  | OWrite j p :: t => if Nat.eqb j k then p ++ writes_to k t else writes_to k t
  | _ :: t => writes_to k t
  end.
Definition no_create (n : string) (h : list dop) : Prop := ~ In (OCreate n) h.
(** handle [k] is not written, flushed or closed in [h] *)
Definition no_use (k : nat) (h : list dop) : Prop :=
  (forall p, ~ In (OWrite k p) h) /\ (forall j, ~ In (OFlush k j) h) /\ ~ In (OClose k) h.

(** exactly the operations that panic, by position (findings: unchecked int64
    additions in Slice, ReadUInt32 and ReadUInt16) *)
Definition overflow_panic (pos : Z) (o : iop) : Prop :=
  match o with
  | PSlice off n => 0 <= off /\ 0 <= n /\ 2 ^ 63 <= off + n
  | PU32 => 2 ^ 63 <= pos + 4
  | PU16 => 2 ^ 63 <= pos + 2
  | _ => False
  end.
(** when an operation may answer with an error, and which *)
Definition error_ok (data : bytes) (pos : Z) (o : iop) (e : err) : Prop :=
  let tail := skipn (Z.to_nat pos) data in
  match o with
  | PRead _ | PReadByte => tail = [] /\ e = EOF
  | PReadAt n off => (off < 0 /\ e = ErrNegativeOffset) \/ (zlen data <= off /\ e = EOF)
  | PSeek off w =>
      (w <> 0 /\ w <> 1 /\ w <> 2 /\ e = ErrInvalidWhence) \/
      (e = ErrNegativeOffset /\
       exists t, (w = 0 /\ t = off \/ w = 1 /\ t = pos + off \/ w = 2 /\ t = zlen data + off) /\
                 (t < 0 \/ 2 ^ 63 <= t))
  | PSlice off n => (off < 0 \/ n < 0 \/ zlen data < off + n) /\ e = ErrOutOfRange
  | PVar => (forall n, (n < 5)%nat -> ~ ends_at tail n) /\
            (e = ErrUnexpectedEOF \/ e = ErrUInt32Overflow)
  | PU32 => (List.length tail < 4)%nat /\ e = ErrUnexpectedEOF
  | PU16 => (List.length tail < 2)%nat /\ e = ErrUnexpectedEOF
  end.

(** name of the file that handle number [j] of a history was created for *)
Fixpoint handle_name (h : list dop) (j : nat) : option string :=
  match h with
  | [] => None
  | OCreate n :: t => match j with O => Some n | S j' => handle_name t j' end
  | _ :: t => handle_name t j
  end.
