(** Model of pkg/compression (binary, varint, skipping).  The roaring bitmap
    encoder is an oracle, see Postings.v.  Definitions only. *)
From Verif Require Import Base Store.
Local Open Scope Z_scope.

(** ** binary.go *)
(* binary.go:24-39 Encode *)
Fixpoint binEncode (l : list Z) (o : output) : res (Z * output) :=
  match l with
  | [] => Ret (0, o)
  | v :: t => '(n, o1) <- Write o (le32 v) ;;
              '(m, o2) <- binEncode t o1 ;; Ret (n + m, o2)
  end.

(* binary.go:43-59 Decode into a buffer of [k] elements, returning the values
   decoded.  io.EOF (which ReadUInt32 never returns) would be swallowed. *)
Fixpoint binDecode (r : input) (k : nat) : ires (list Z) :=
  match k with
  | O => (Ret [], r)
  | S k' =>
      match ReadUInt32 r with
      | (Ret v, r1) =>
          match binDecode r1 k' with
          | (Ret vs, r2) => (Ret (v :: vs), r2)
          | other => other
          end
      | (Fail EOF, r1) => (Ret [], r1)
      | (Fail e, r1) => (Fail e, r1)
      | (Panic, r1) => (Panic, r1)
      | (NoFuel, r1) => (NoFuel, r1)
      end
  end.

(** ** varint.go *)
(* varint.go:36-56 varIntEncode; v - prev is uint32 subtraction *)
Fixpoint varIntEncode (l : list Z) (o : output) (prev : Z) : res (Z * output) :=
  match l with
  | [] => Ret (0, o)
  | v :: t => '(n, o1) <- WriteVUInt32 o (wrap32 (v - prev)) ;;
              '(m, o2) <- varIntEncode t o1 v ;; Ret (n + m, o2)
  end.

(* varint.go:58-78 varIntDecode into a buffer of [k] elements, returning the
   values stored (their number is the Go result [total]); io.EOF and
   io.ErrUnexpectedEOF end the list silently. *)
Fixpoint varIntDecode (r : input) (k : nat) (prev : Z) : ires (list Z) :=
  match k with
  | O => (Ret [], r)
  | S k' =>
      match ReadVUInt32 r with
      | (Ret v, r1) =>
          let prev := wrap32 (prev + v) in
          match varIntDecode r1 k' prev with
          | (Ret vs, r2) => (Ret (prev :: vs), r2)
          | other => other
          end
      | (Fail EOF, r1) => (Ret [], r1)
      | (Fail ErrUnexpectedEOF, r1) => (Ret [], r1)
      | (Fail e, r1) => (Fail e, r1)
      | (Panic, r1) => (Panic, r1)
      | (NoFuel, r1) => (NoFuel, r1)
      end
  end.

(* varint.go:26-28, 32-34 *)
Definition vbEncode (l : list Z) (o : output) : res (Z * output) := varIntEncode l o 0.
Definition vbDecode (r : input) (k : nat) : ires (list Z) := varIntDecode r k 0.

(** ** skipping.go *)
(* skipping.go:20-24 *)
Definition lastBlockFlag : Z := 2 ^ 15.
Definition maxSkippingGap : Z := 2 ^ 14 / 5.

(* skipping.go:37-57 SkippingEncoder / SkippingDecoder: the accepted gap *)
Definition SkippingEncoder (gap : Z) : res Z :=
  if gap >=? maxSkippingGap then Fail ErrGapOverflow else Ret gap.
Definition SkippingDecoder (gap : Z) : res Z := SkippingEncoder gap.

(* skipping.go:80-112, the loop of Encode; [total] so far *)
Fixpoint skipEncode_loop (fuel : nat) (gap : Z) (l : list Z) (i prev total : Z) (o : output)
  : res (Z * output) :=
  match fuel with
  | O => NoFuel
  | S fuel' =>
      if i <? zlen l then
        let j := i + gap in
        let j := if j >? zlen l then zlen l else j in
        blk <- slice l i j ;;
        '(n, body) <- varIntEncode blk [] prev ;;
        prev' <- index l i ;;
        let pos := n + 2 in
        let total := total + pos in
        let pos := if j =? zlen l then Z.lor pos lastBlockFlag else pos in
        '(_, o1) <- WriteUInt16 o (wrap16 pos) ;;
        '(_, o2) <- Write o1 body ;;
        skipEncode_loop fuel' gap l (i + gap) prev' total o2
      else Ret (total, o)
  end.
(* skipping.go:67-78: the length test and the negative-capacity panic of
   make([]byte, 0, gap*5) *)
Definition skipEncode (fuel : nat) (gap : Z) (l : list Z) (o : output) : res (Z * output) :=
  if zlen l <? gap then Fail ErrGapShouldBeGreater
  else if gap * 5 <? 0 then Panic
  else skipEncode_loop fuel gap l 0 0 0 o.

(* skipping.go:119-146 Decode into [buf]; returns the Go result (the final i) and
   the buffer.  varIntDecode stores its values at buf[i..]. *)
Fixpoint skipDecode_loop (fuel : nat) (gap : Z) (r : input) (buf : list Z) (i prev : Z)
  : ires (Z * list Z) :=
  match fuel with
  | O => (NoFuel, r)
  | S fuel' =>
      if i <? zlen buf then
        match ReadUInt16 r with
        | (Ret _, r1) =>
            let j := i + gap in
            let j := if j >? zlen buf then zlen buf else j in
            match slice buf i j with
            | Ret part =>
                match varIntDecode r1 (List.length part) prev with
                | (Ret vs, r2) =>
                    let buf' := firstn (Z.to_nat i) buf ++ vs ++
                                skipn (Z.to_nat i + List.length vs) buf in
                    match index buf' i with
                    | Ret prev' => skipDecode_loop fuel' gap r2 buf' (i + gap) prev'
                    | _ => (Panic, r2)
                    end
                | (Fail e, r2) => (Fail e, r2)
                | (Panic, r2) => (Panic, r2)
                | (NoFuel, r2) => (NoFuel, r2)
                end
            | _ => (Panic, r1)
            end
        | (Fail e, r1) => (Fail e, r1)
        | (Panic, r1) => (Panic, r1)
        | (NoFuel, r1) => (NoFuel, r1)
        end
      else (Ret (i, buf), r)
  end.
Definition skipDecode (fuel : nat) (gap : Z) (r : input) (buf : list Z) : ires (Z * list Z) :=
  skipDecode_loop fuel gap r buf 0 0.

(* skipping.go:149-151 UnpackPos *)
Definition UnpackPos (packed : Z) : Z * bool :=
  (Z.land packed (lastBlockFlag - 1), Z.land packed lastBlockFlag =? lastBlockFlag).
