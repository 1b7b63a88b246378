(** Model of Store and Load of packed_array.go and ngram_model.go, and of the binary file of
    binary.go (the n-gram model followed by the hash table).  Definitions only. *)
From Coq Require Import String.
From Verif Require Import Base Store Decimal NGram Mph.
Local Open Scope Z_scope.

(** ** uint64 slices as bytes (serialization_unsafe.go:13-40, serialization_generic.go:9-31:
    little endian; the unsafe version shares memory with the input, which is not written) *)
Definition le64 (v : Z) : bytes := le32 (wrap32 v) ++ le32 (Z.shiftr v 32).
Definition uint64SliceAsByteSlice (l : list Z) : bytes := flat_map le64 l.
Fixpoint u64s_of (k : nat) (b : bytes) : list Z :=
  match k with
  | O => []
  | S k' => fold_right (fun c a => c + 256 * a) 0 (firstn 8 b) :: u64s_of k' (skipn 8 b)
  end.
Definition byteSliceAsUint64Slice (b : bytes) : res (list Z) :=
  if negb (zlen b mod 8 =? 0) then Panic else Ret (u64s_of (Z.to_nat (zlen b / 8)) b).

(** ** fmt.Fscanln of three uint32 from an Input (read byte by byte: store.Input is no
    RuneScanner).  Spaces, then decimal digits.  The forms Fprintln never writes (leading
    zeros, base prefixes, underscores) are all taken to be errors, and the position after an error
    is taken to be unchanged. *)
Definition is_space (c : Z) : bool := (c =? 32) || (c =? 9) || (c =? 11) || (c =? 12) || (c =? 13).
Fixpoint skip_space (s : bytes) : bytes :=
  match s with c :: t => if is_space c then skip_space t else s | [] => [] end.
Definition scan_uint32 (s : bytes) : res (Z * bytes) :=
  match skip_space s with
  | [] => Fail ErrUnexpectedEOF
  | (c :: _) as s' =>
      let '(d, r) := take_digits s' in
      if zlen d =? 0 then Fail (ErrOther 40)
      else if (c =? 48) && (1 <? zlen d) then Fail (ErrOther 41)
      else if 2 ^ 32 <=? digits_val d then Fail (ErrOther 42)
      else Ret (digits_val d, r)
  end.
Definition scan_newline (s : bytes) : res bytes :=
  match skip_space s with
  | [] => Ret []
  | c :: t => if c =? 10 then Ret t else Fail (ErrOther 43)
  end.
Definition Fscanln3 (r : input) : ires (Z * Z * Z) :=
  match slice (ibuf r) (Z.min (ipos r) (zlen (ibuf r))) (zlen (ibuf r)) with
  | Ret s =>
      match ('(a, s) <- scan_uint32 s ;; '(b, s) <- scan_uint32 s ;; '(c, s) <- scan_uint32 s ;;
             s <- scan_newline s ;; Ret (a, b, c, s)) with
      | Ret (a, b, c, s) => (Ret (a, b, c), set_pos r (zlen (ibuf r) - zlen s))
      | Fail e => (Fail e, r)
      | _ => (Panic, r)
      end
  | _ => (Panic, r)
  end.

(** ** Packed arrays *)
(* packed_array.go:95-118; fmt.Fprintln writes its line with one Write *)
Definition header (a b c : Z) : bytes := dec a ++ [32] ++ dec b ++ [32] ++ dec c ++ [10].
Definition StoreVector (s : packed) (o : output) : res (Z * output) :=
  let containersSize := wrap32 (8 * zlen (containers s)) in
  let valuesSize := wrap32 (8 * zlen (pvalues s)) in
  '(p, o) <- Write o (header containersSize valuesSize (total s)) ;;
  '(n, o) <- Write o (uint64SliceAsByteSlice (containers s)) ;;
  let p := p + n in
  '(n, o) <- Write o (uint64SliceAsByteSlice (pvalues s)) ;;
  Ret (p + n, o).
(* :120-160, for an input that gives access to its bytes (both directories' do) *)
Definition LoadVector (r : input) : ires (packed * Z) :=
  match Fscanln3 r with
  | (Ret (containersSize, valuesSize, tot), r) =>
      match Seek r 0 1 with
      | (Ret p, r) =>
          let n := wrap32 (containersSize + valuesSize) in
          match slice (ibuf r) p (p + n) with
          | Ret data =>
              match Seek r (wrapi64 (p + n)) 0 with
              | (Ret _, r) =>
                  ( cs <- slice data 0 containersSize ;;
                    cs <- byteSliceAsUint64Slice cs ;;
                    vs <- slice data containersSize (zlen data) ;;
                    vs <- byteSliceAsUint64Slice vs ;;
                    Ret (mkPA cs vs tot, p + n), r)
              | (Fail e, r) => (Fail e, r) | (_, r) => (Panic, r)
              end
          | _ => (Panic, r)
          end
      | (Fail e, r) => (Fail e, r) | (_, r) => (Panic, r)
      end
  | (Fail e, r) => (Fail e, r)
  | (_, r) => (Panic, r)
  end.

(** ** Models *)
(* ngram_model.go:24 *)
Definition modelVersion : bytes := bs "0.0.2".
(* :101-122 *)
Fixpoint store_vectors (vs : list packed) (o : output) (p : Z) : res (Z * output) :=
  match vs with
  | [] => Ret (p, o)
  | v :: vs' => '(n, o) <- StoreVector v o ;; store_vectors vs' o (p + n)
  end.
Definition StoreModel (m : nGramModel) (o : output) : res (Z * output) :=
  '(_, o) <- Write o modelVersion ;;
  o <- WriteByte o (wrap8 (nGramOrder m)) ;;
  store_vectors (indices m) o 6.
(* :129-159; a short read of the version leaves zero bytes in it, and no error *)
Fixpoint load_vectors (k : nat) (r : input) (p : Z) : ires (list packed * Z) :=
  match k with
  | O => (Ret ([], p), r)
  | S k' =>
      match LoadVector r with
      | (Ret (v, n), r) => let '(x, r) := load_vectors k' r (p + n) in ('(vs, p) <- x ;; Ret (v :: vs, p), r)
      | (Fail e, r) => (Fail e, r)
      | (_, r) => (Panic, r)
      end
  end.
Definition LoadModel (r : input) : ires (nGramModel * Z) :=
  match Read r 5 with
  | (Ret got, r) =>
      if negb (if list_eq_dec Z.eq_dec (firstn 5 (got ++ repeat 0 5)) modelVersion then true else false) then (Fail (ErrOther 44), r)
      else match ReadByte r with
           | (Ret order, r) =>
               let '(x, r) := load_vectors (Z.to_nat order) r (zlen got + 1) in
               ('(vs, p) <- x ;; Ret (mkModel vs order, p), r)
           | (Fail e, r) => (Fail e, r)
           | (_, r) => (Panic, r)
           end
  | (Fail e, r) => (Fail e, r)
  | (_, r) => (Panic, r)
  end.

(** ** The binary file *)
(* binary.go:38-48: model and table into one output *)
Definition StoreBinary (m : nGramModel) (t : mph) (o : output) : res output :=
  '(_, o) <- StoreModel m o ;;
  '(_, o) <- StoreMph t o ;;
  Ret o.
(* binary.go:75-81 *)
Definition LoadBinary (r : input) : ires (nGramModel * mph) :=
  match LoadModel r with
  | (Ret (m, _), r) =>
      match LoadMph r with
      | (Ret (t, _), r) => (Ret (m, t), r)
      | (Fail e, r) => (Fail e, r)
      | (_, r) => (Panic, r)
      end
  | (Fail e, r) => (Fail e, r)
  | (_, r) => (Panic, r)
  end.
