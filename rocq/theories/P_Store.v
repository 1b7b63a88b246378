(** Properties C01-C05 (pkg/store). *)
From Coq Require Import String.
From Verif Require Import Base Store StoreSpec StoreProofs StoreProofs2 P_StoreLemmas.
Local Open Scope Z_scope.

(** C01.  Writing any uint32 to an output holding any bytes appends between one and
    five bytes; reading at that place, whatever bytes follow, gives the value back
    and stops right after them. *)
Theorem C01_varint_roundtrip : forall (v : Z) (pre suf : bytes),
  is_u32 v -> Forall is_byte suf -> zlen pre + 5 + zlen suf < 2 ^ 63 ->
  exists w : bytes,
    WriteVUInt32 pre v = Ret (zlen w, pre ++ w) /\ 1 <= zlen w <= 5 /\
    ReadVUInt32 (mkIn (pre ++ w ++ suf) (zlen pre)) =
      (Ret v, mkIn (pre ++ w ++ suf) (zlen pre + zlen w)).
Proof. exact c01. Qed.
Print Assumptions C01_varint_roundtrip.
Example C01_nonvacuous :
  is_u32 4294967295 /\
  WriteVUInt32 [7] 300 = Ret (2, [7; 172; 2]) /\
  ReadVUInt32 (mkIn [7; 172; 2; 9] 1) = (Ret 300, mkIn [7; 172; 2; 9] 3) /\
  WriteVUInt32 [] 4294967295 = Ret (5, [255; 255; 255; 255; 15]).
Proof. unfold is_u32; vm_compute; intuition congruence. Qed.

(** C02.  On arbitrary bytes the reader returns the base-128 meaning of the bytes up
    to the first without continuation bit (fast and slow path alike); otherwise an
    error, with the position unchanged. *)
Theorem C02_varint_reader_is_leb128 : forall (data : bytes) (pos : Z),
  Forall is_byte data -> zlen data < 2 ^ 63 -> 0 <= pos ->
  let tail := skipn (Z.to_nat pos) data in
  let r := mkIn data pos in
  (forall n, (n < 5)%nat -> ends_at tail n ->
     ReadVUInt32 r = (Ret (leb_value (firstn (S n) tail) mod 2 ^ 32),
                      mkIn data (pos + Z.of_nat (S n)))) /\
  (tail = [] -> ReadVUInt32 r = (Fail ErrUInt32Overflow, r)) /\
  (tail <> [] -> (List.length tail < 5)%nat -> Forall (fun b => 128 <= b) tail ->
     ReadVUInt32 r = (Fail ErrUnexpectedEOF, r)) /\
  ((5 <= List.length tail)%nat -> Forall (fun b => 128 <= b) (firstn 5 tail) ->
     ReadVUInt32 r = (Fail ErrUInt32Overflow, r)).
Proof. exact c02. Qed.
Print Assumptions C02_varint_reader_is_leb128.
Example C02_nonvacuous :
  ends_at [255; 255; 255; 255; 127; 1] 4 /\
  ReadVUInt32 (mkIn [255; 255; 255; 255; 127; 1] 0) =
    (Ret 4294967295, mkIn [255; 255; 255; 255; 127; 1] 5) /\
  ReadVUInt32 (mkIn [128; 128] 0) = (Fail ErrUnexpectedEOF, mkIn [128; 128] 0) /\
  ReadVUInt32 (mkIn [1; 2] 2) = (Fail ErrUInt32Overflow, mkIn [1; 2] 2).
Proof.
  split; [|vm_compute; intuition congruence].
  split; [cbn; lia|]. split; [|cbn; lia].
  intros j Hj. do 4 (destruct j as [|j]; [cbn; lia|]). lia.
Qed.

(** C03.  Any typed write stream reads back. *)
Theorem C03_typed_stream_roundtrip : forall (pre : bytes) (l : list item) (suf : bytes),
  Forall item_ok l -> Forall is_byte suf ->
  exists w : bytes, put_all pre l = Ret (pre ++ w) /\
    (zlen (pre ++ w ++ suf) < 2 ^ 63 ->
     get_all (mkIn (pre ++ w ++ suf) (zlen pre)) l =
       (Ret l, mkIn (pre ++ w ++ suf) (zlen pre + zlen w))).
Proof. exact c03. Qed.
Print Assumptions C03_typed_stream_roundtrip.
Example C03_nonvacuous :
  let l := [IU16 513; IVar 300; IRaw [1; 2; 3]; IU32 4294967295; IByte 255; IVar 0] in
  Forall item_ok l /\
  exists w, put_all [] l = Ret w /\ fst (get_all (NewBytesInput w) l) = Ret l.
Proof.
  cbn zeta. split.
  - repeat apply Forall_cons; try apply Forall_nil; cbn [item_ok]; unfold is_u16, is_u32, is_byte; try lia.
    split; [discriminate|]. repeat apply Forall_cons; try apply Forall_nil; lia.
  - eexists; split; [vm_compute; reflexivity|]. vm_compute; reflexivity.
Qed.

(** C04.  The full property ("never panics") is false: an offset near the top of
    int64 makes the bounds check overflow. *)
Theorem C04_input_never_panics_refuted :
  exists (data : bytes) (h : list iop) (o : iop),
    Forall is_byte data /\ Forall iop_i64 h /\ iop_i64 o /\
    fst (istep (irun (NewBytesInput data) h) o) = Panic.
Proof. exact c04_refuted. Qed.
Print Assumptions C04_input_never_panics_refuted.
(** What holds: after every history, every operation answers from the data exactly
    as specified or reports a justified error without moving, and it panics iff
    the int64 addition inside Slice/ReadUInt32/ReadUInt16 overflows.  Missing from
    the property: those overflow panics. *)
Theorem C04_input_cursor_partial : forall (data : bytes) (h : list iop) (o : iop),
  Forall is_byte data -> zlen data < 2 ^ 63 -> Forall iop_i64 h -> iop_i64 o ->
  let r := irun (NewBytesInput data) h in
  ibuf r = data /\
  match istep r o with
  | (Ret out, r') => ibuf r' = data /\ answer_ok data (ipos r) o out (ipos r')
                     /\ ~ overflow_panic (ipos r) o
  | (Fail e, r') => r' = r /\ error_ok data (ipos r) o e /\ ~ overflow_panic (ipos r) o
  | (Panic, r') => overflow_panic (ipos r) o
  | (NoFuel, _) => False
  end.
Proof. exact c04_exact. Qed.
Print Assumptions C04_input_cursor_partial.
Example C04_nonvacuous :
  let h := [PVar; PSeek 2 1; PReadByte] in
  Forall iop_i64 h /\ irun (NewBytesInput [1; 2; 3; 4; 5; 6]) h = mkIn [1; 2; 3; 4; 5; 6] 4 /\
  istep (mkIn [1; 2; 3; 4; 5; 6] 4) PU16 = (Ret (OVal 1541), mkIn [1; 2; 3; 4; 5; 6] 6).
Proof. cbn zeta. split; [repeat apply Forall_cons; try apply Forall_nil; cbn [iop_i64]; unfold is_i64; try lia; exact I|]. vm_compute; auto. Qed.

(** C05, file system directory: after a file is (re-)created, written through the
    new handle and closed, opening it gives exactly those bytes, whatever happened
    before or to other files. *)
Theorem C05_fs_create_replaces : forall (h1 h2 h3 : list dop) (n : string) (k : nat),
  k = count_creates h1 ->
  no_create n (h2 ++ h3) -> ~ In (OClose k) h2 ->
  (forall j, j <> k -> handle_name (h1 ++ OCreate n :: h2 ++ OClose k :: h3) j = Some n ->
     no_use j (h2 ++ h3)) ->
  fs_open (fs_run NewFSDirectory (h1 ++ OCreate n :: h2 ++ OClose k :: h3)) n =
  Some (writes_to k h2).
Proof. exact fs_recreate. Qed.
Print Assumptions C05_fs_create_replaces.
(** C05, RAM directory: false, the old contents stay in front. *)
Theorem C05_ram_create_replaces_refuted :
  exists (h1 h2 h3 : list dop) (n : string) (k : nat),
    k = count_creates h1 /\
    no_create n (h2 ++ h3) /\ ~ In (OClose k) h2 /\
    (forall j, j <> k -> handle_name (h1 ++ OCreate n :: h2 ++ OClose k :: h3) j = Some n ->
       no_use j (h2 ++ h3)) /\
    ram_open (ram_run NewRAMDirectory (h1 ++ OCreate n :: h2 ++ OClose k :: h3)) n <>
    Some (writes_to k h2).
Proof. exact c05_ram_refuted. Qed.
Print Assumptions C05_ram_create_replaces_refuted.
(** RAM directory: holds for a name created for the first time.  Missing: re-creation. *)
Theorem C05_ram_create_fresh_partial : forall (h1 h2 : list dop) (n : string) (k : nat),
  k = count_creates h1 -> no_create n h1 -> no_create n h2 ->
  ram_open (ram_run NewRAMDirectory (h1 ++ OCreate n :: h2)) n = Some (writes_to k h2).
Proof. exact ram_fresh. Qed.
Print Assumptions C05_ram_create_fresh_partial.
Example C05_nonvacuous :
  let h1 := [OCreate "a"; OWrite 0 [1]; OClose 0; OCreate "b"; OWrite 1 [5]]%string in
  let h2 := [OWrite 2 [2; 3]; OWrite 1 [6]; OFlush 2 1; OWrite 2 [4]] in
  let h := h1 ++ OCreate "a"%string :: h2 ++ OClose 2 :: [OWrite 1 [7]] in
  fs_open (fs_run NewFSDirectory h) "a" = Some [2; 3; 4] /\ writes_to 2 h2 = [2; 3; 4] /\
  ram_open (ram_run NewRAMDirectory h) "a" = Some [1; 2; 3; 4] /\
  ram_open (ram_run NewRAMDirectory h) "b" = Some [5; 6; 7].
Proof. vm_compute; auto. Qed.
