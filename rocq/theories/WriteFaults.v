(** Model of writing to a disk that fails: pkg/store/byte_output.go and fs_directory.go with
    bufio.Writer (4096 bytes) and os.File made explicit, and what is written through them:
    pkg/compression, pkg/index/codec.go and indexer_writer.go, pkg/lm/ngram_writer.go,
    ngram_model.go, packed_array.go, binary.go, pkg/mph/mph.go.  Definitions only.

    A machine decides for each system call whether it succeeds: an open by the file's name, a
    write by its number, of how many bytes it takes at most (0: none).  os.File.Write repeats a
    short write(2) until everything is taken or there is an error, so that one of ours that
    takes too little is one that ended with an error.  A failed call can be followed by ones that
    succeed.  close(2) is not there: the program never closes these files (bufio.Writer
    is no io.Closer, byte_output.go:71), so that what only close or fsync would report is lost. *)
From Coq Require Import String.
From Verif Require Import Base GoMap Store Compression Postings Merger CountTrie Float64 Decimal NGram Mph NGramStore GoogleNGram Index.
Local Open Scope Z_scope.

Inductive syscall := COpen (n : string) (ok : bool) | CWrite (n : string) (given : bytes) (taken : Z).
Record machine := mkMachine { can_open : string -> bool; room : nat -> Z }.
(* bufio.Writer: what is in its buffer, and whether it met an error, which it keeps *)
Record bufw := mkBuf { b_name : string; b_buf : bytes; b_err : bool }.
Definition bufSize : Z := 4096.
(* the files, the outputs in the order they were created, the system calls so far *)
Record world := mkWorld { w_files : fmap; w_outs : list bufw; w_calls : list syscall }.
Definition io (A : Type) := world -> res A * world.
Definition lift {A} (r : res A) : io A := fun w => (r, w).
Definition ibind {A B} (p : io A) (q : A -> io B) : io B := fun w =>
  match p w with
  | (Ret a, w') => q a w'
  | (Fail e, w') => (Fail e, w')
  | (Panic, w') => (Panic, w')
  | (NoFuel, w') => (NoFuel, w')
  end.
(* fmt.Errorf("...: %w", err) *)
Definition wrap_err {A} (p : io A) : io A := fun w => match p w with (Fail e, w') => (Fail (ErrWrapped e), w') | r => r end.
Definition ENOSPC : err := ErrOther 28.

Section Machine.
Context (M : machine) (pieces : bytes -> list bytes).

(* os.File.Write to a file opened with O_TRUNC and only written to: at its end *)
Definition os_write (n : string) (p : bytes) (w : world) : Z * bool * world :=
  let k := Z.min (zlen p) (Z.max 0 (room M (List.length (w_calls w)))) in
  let old := match w_files w n with Some b => b | None => [] end in
  (k, k <? zlen p, mkWorld (fset (w_files w) n (old ++ firstn (Z.to_nat k) p)) (w_outs w) (w_calls w ++ [CWrite n p k])).
(* bufio.Writer.Flush *)
Definition flush (b : bufw) (w : world) : bufw * world :=
  if b_err b then (b, w)
  else if zlen (b_buf b) =? 0 then (b, w)
  else let '(k, failed, w') := os_write (b_name b) (b_buf b) w in
       if failed then (mkBuf (b_name b) (skipn (Z.to_nat k) (b_buf b)) true, w') else (mkBuf (b_name b) [] false, w').
(* bufio.Writer.Write: the loop over what does not fit, then the rest into the buffer *)
Fixpoint buf_write (fuel : nat) (p : bytes) (nn : Z) (b : bufw) (w : world) : option (Z * bufw * world) :=
  match fuel with
  | O => None
  | S f =>
      if (zlen p >? bufSize - zlen (b_buf b)) && negb (b_err b) then
        if zlen (b_buf b) =? 0 then
          let '(k, failed, w') := os_write (b_name b) p w in
          buf_write f (skipn (Z.to_nat k) p) (nn + k) (mkBuf (b_name b) [] failed) w'
        else
          let k := bufSize - zlen (b_buf b) in
          let '(b', w') := flush (mkBuf (b_name b) (b_buf b ++ firstn (Z.to_nat k) p) false) w in
          buf_write f (skipn (Z.to_nat k) p) (nn + k) b' w'
      else if b_err b then Some (nn, b, w)
      else Some (nn + zlen p, mkBuf (b_name b) (b_buf b ++ p) false, w)
  end.
Definition set_out (w : world) (h : nat) (b : bufw) : world := mkWorld (w_files w) (set_nth h b (w_outs w)) (w_calls w).
(* byte_output.go:21-23 *)
Definition out_write (h : nat) (p : bytes) : io Z := fun w =>
  match nth_error (w_outs w) h with
  | None => (Panic, w)
  | Some b => match buf_write 4 p 0 b w with
              | None => (NoFuel, w)
              | Some (nn, b', w') => ((if b_err b' then Fail ENOSPC else Ret nn), set_out w' h b')
              end
  end.
(* byte_output.go:63-76 *)
Definition out_close (h : nat) : io unit := fun w =>
  match nth_error (w_outs w) h with
  | None => (Panic, w)
  | Some b => let '(b', w') := flush b w in ((if b_err b' then Fail ENOSPC else Ret tt), set_out w' h b')
  end.
(* fs_directory.go:40-52; the output's number *)
Definition create_output (n : string) : io nat := fun w =>
  if can_open M n then (Ret (List.length (w_outs w)), mkWorld (fset (w_files w) n []) (w_outs w ++ [mkBuf n [] false]) (w_calls w ++ [COpen n true]))
  else (Fail (ErrWrapped (ErrOther 13)), mkWorld (w_files w) (w_outs w) (w_calls w ++ [COpen n false])).

(** ** byte_output.go *)
(* :26-37, :40-46, :49-54, :57-61 *)
Definition out_vuint32 (h : nat) (v : Z) : io Z := ibind (lift (vuint_chunk 5 v)) (fun c => out_write h c).
Definition out_uint32 (h : nat) (v : Z) : io Z := out_write h (le32 v).
Definition out_uint16 (h : nat) (v : Z) : io Z := out_write h (le16 v).
Definition out_byte (h : nat) (v : Z) : io unit := ibind (out_write h [v]) (fun _ => lift (Ret tt)).

(** ** Encoders *)
(* varint.go:36-56 *)
Fixpoint varint_to (h : nat) (l : list Z) (prev : Z) : io Z :=
  match l with
  | [] => lift (Ret 0)
  | v :: t => ibind (out_vuint32 h (wrap32 (v - prev))) (fun n => ibind (varint_to h t v) (fun m => lift (Ret (n + m))))
  end.
(* skipping.go:80-112; the block goes into a bytes.Buffer, which does not fail, and from there
   (WriteTo) in one Write, none if it is empty *)
Fixpoint skip_to (fuel : nat) (h : nat) (gap : Z) (l : list Z) (i prev total : Z) : io Z :=
  match fuel with
  | O => lift NoFuel
  | S fuel' =>
      if i <? zlen l then
        let j := i + gap in
        let j := if j >? zlen l then zlen l else j in
        ibind (lift (blk <- slice l i j ;; varIntEncode blk [] prev)) (fun nb =>
        ibind (lift (index l i)) (fun prev' =>
        let pos := fst nb + 2 in
        let total := total + pos in
        let pos := if j =? zlen l then Z.lor pos lastBlockFlag else pos in
        ibind (out_uint16 h (wrap16 pos)) (fun _ =>
        ibind (if zlen (snd nb) =? 0 then lift (Ret 0) else out_write h (snd nb)) (fun _ =>
        skip_to fuel' h gap l (i + gap) prev' total))))
      else lift (Ret total)
  end.
Definition skipping_to (h : nat) (gap : Z) (l : list Z) : io Z :=
  if zlen l <? gap then lift (Fail ErrGapShouldBeGreater)
  else if gap * 5 <? 0 then lift Panic
  else skip_to (S (List.length l)) h gap l 0 0 0.
(* io.WriterTo of a library: its bytes in pieces, up to the first error *)
Fixpoint pieces_to (h : nat) (ps : list bytes) (n : Z) : io Z :=
  match ps with
  | [] => lift (Ret n)
  | p :: ps' => ibind (out_write h p) (fun k => pieces_to h ps' (n + k))
  end.
(* bitmap.go:18-29 *)
Definition bitmap_to (rb : roaring) (h : nat) (l : list Z) : io Z := pieces_to h (pieces (rb_enc rb (to_set l))) 0.
(* codec.go:41-53 *)
Definition posting_to (rb : roaring) (h : nat) (l : list Z) : io Z :=
  if zlen l <=? skippingGapSize + 1 then varint_to h l 0
  else if zlen l <=? maxSkippingLen then skipping_to h skippingGapSize l
  else bitmap_to rb h l.

(** ** indexer_writer.go *)
(* :106-134 *)
Fixpoint commit_index_to (rb : roaring) (h : nat) (c : Z) (m : index_map) (pos : Z) : io (list desc * Z) :=
  match m with
  | [] => lift (Ret ([], pos))
  | (t, l) :: m' =>
      ibind (posting_to rb h l) (fun n =>
      ibind (commit_index_to rb h c m' (pos + n)) (fun r =>
      lift (Ret (mkDesc t (wrap32 c) (wrap32 n) (wrap32 pos) (wrap32 (zlen l)) :: fst r, snd r))))
  end.
Fixpoint commit_indices_to (rb : roaring) (ord : Z -> index_map -> index_map) (h : nat) (c : Z) (w : windices) (pos : Z) : io (list desc * Z) :=
  match w with
  | [] => lift (Ret ([], pos))
  | None :: w' => commit_indices_to rb ord h (c + 1) w' pos
  | Some m :: w' =>
      ibind (commit_index_to rb h c (ord c m) pos) (fun r1 =>
      ibind (commit_indices_to rb ord h (c + 1) w' (snd r1)) (fun r2 =>
      lift (Ret (fst r1 ++ fst r2, snd r2))))
  end.
(* :147-167; gob writes its messages in pieces *)
Definition header_to (g : gobcodec) (hn : string) (hdr : header) : io unit :=
  ibind (wrap_err (create_output hn)) (fun h =>
  ibind (wrap_err (pieces_to h (pieces (gob_enc g hdr)) 0)) (fun _ => wrap_err (out_close h))).
(* :89-145 *)
Definition commit_to (rb : roaring) (g : gobcodec) (ord : Z -> index_map -> index_map) (dn hn : string) (w : windices) : io unit :=
  ibind (wrap_err (create_output dn)) (fun h =>
  ibind (commit_indices_to rb ord h 0 w 0) (fun r =>
  ibind (header_to g hn (mkHeader IndexVersion (wrap32 (zlen w)) (fst r))) (fun _ => wrap_err (out_close h)))).

(** ** Language models *)
(* pkg/lm/ngram_writer.go:53-65; fmt.Fprintf writes its line with one Write *)
Definition ngram_to (hs : list nat) (w : world) (gr : list bytes) (c : Z) : option err * world :=
  match gr with
  | [] => (None, w)
  | _ => match nth_error hs (List.length gr - 1) with
         | None => (Some (ErrOther 22), w)
         | Some h => match out_write h (ngram_line gr c) w with
                     | (Ret _, w') => (None, w')
                     | (Fail e, w') => (Some (ErrWrapped e), w')
                     | (_, w') => (Some (ErrOther 22), w')
                     end
         end
  end.
(* :39-49: the outputs of files i, i+1, ... *)
Fixpoint create_all (names : list string) : io (list nat) :=
  match names with
  | [] => lift (Ret [])
  | n :: ns => ibind (wrap_err (create_output n)) (fun h => ibind (create_all ns) (fun hs => lift (Ret (h :: hs))))
  end.
(* :69-73 *)
Fixpoint close_all (hs : list nat) : io unit :=
  match hs with
  | [] => lift (Ret tt)
  | h :: hs' => ibind (wrap_err (out_close h)) (fun _ => close_all hs')
  end.
(* :38-76; [names]: "1-gm", "2-gm", ... *)
Definition ngrams_to (ord : list Z -> list (Z * node) -> list (Z * node)) (names : list string) (t : trie) : io unit :=
  ibind (create_all names) (fun hs =>
  ibind (fun w => Walk ord (ngram_to hs) t w) (fun _ => close_all hs)).

(* packed_array.go:95-118 *)
Definition vector_to (h : nat) (s : packed) : io Z :=
  ibind (out_write h (NGramStore.header (wrap32 (8 * zlen (containers s))) (wrap32 (8 * zlen (pvalues s))) (total s))) (fun p =>
  ibind (out_write h (uint64SliceAsByteSlice (containers s))) (fun n =>
  ibind (out_write h (uint64SliceAsByteSlice (pvalues s))) (fun n' => lift (Ret (p + n + n'))))).
(* ngram_model.go:101-124 *)
Fixpoint vectors_to (h : nat) (vs : list packed) (p : Z) : io Z :=
  match vs with
  | [] => lift (Ret p)
  | v :: vs' => ibind (vector_to h v) (fun n => vectors_to h vs' (p + n))
  end.
Definition model_to (h : nat) (m : nGramModel) : io Z :=
  ibind (out_write h modelVersion) (fun _ =>
  ibind (out_byte h (wrap8 (nGramOrder m))) (fun _ => vectors_to h (indices m) 6)).
(* mph.go:159-192 *)
Fixpoint uint32s_to (h : nat) (l : list Z) (n : Z) : io Z :=
  match l with
  | [] => lift (Ret n)
  | v :: t => ibind (wrap_err (out_uint32 h v)) (fun s => uint32s_to h t (n + s))
  end.
Definition table_to (h : nat) (t : mph) : io Z :=
  ibind (wrap_err (out_uint32 h (wrap32 (zlen (values t))))) (fun n =>
  ibind (uint32s_to h (values t) n) (fun n =>
  ibind (wrap_err (out_uint32 h (wrap32 (zlen (auxiliary t))))) (fun s =>
  uint32s_to h (map wrap32 (auxiliary t)) (n + s)))).
(* binary.go:37-55: model and table into one file *)
Definition binary_to (name : string) (m : nGramModel) (t : mph) : io unit :=
  ibind (wrap_err (create_output name)) (fun h =>
  ibind (wrap_err (model_to h m)) (fun _ =>
  ibind (wrap_err (table_to h t)) (fun _ => wrap_err (out_close h)))).
End Machine.
