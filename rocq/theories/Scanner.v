(** Model of bufio.Scanner (standard library) as pkg/lm and pkg/dictionary use it, of
    bufio.ScanLines, and of the split function of pkg/lm/sentence_retriever.go.
    Definitions only.

    The reader returns at least one byte while there are any, at most as many as asked for
    ([chunk] says how many), and io.EOF on its own at the end, as os.File and byteInput do. *)
From Verif Require Import Base Text.
Local Open Scope Z_scope.

(* bufio/scan.go: MaxScanTokenSize, startBufSize *)
Definition maxTokenSize : Z := 65536.
Definition startBufSize : Z := 4096.

(* a split function: data and atEOF to advance and token; none of the two used here
   returns an error *)
Notation splitter := (bytes -> bool -> nat * option bytes).

(** buf[start:end] is [sc_data]; [sc_size] is len(buf); [sc_eof]: s.err is io.EOF;
    [sc_rest] is what the reader has left; [sc_reads] counts the reads. *)
Record scanner := mkSc { sc_start : Z; sc_data : bytes; sc_size : Z; sc_eof : bool; sc_empties : Z; sc_rest : bytes; sc_reads : nat }.
Definition NewScanner (text : bytes) : scanner := mkSc 0 [] 0 false 0 text 0.

(** One iteration of the loop of Scan: a token (Scan returns true; the next call starts
    with the loop again), the end (false, no error), an error (false), a panic, or another
    round. *)
Inductive outcome := Token (t : bytes) (s : scanner) | Done | Stop (e : err) | Panics | More (s : scanner).
Definition ErrTooLong : err := ErrOther 50.
Definition ErrAdvanceTooFar : err := ErrOther 51.

Section Scan.
Context (split : splitter) (chunk : nat -> nat).
(* bufio/scan.go Scan, from "Must read more data" on *)
Definition fill (s : scanner) : outcome :=
  if sc_eof s then Done
  else
    let end_ := sc_start s + zlen (sc_data s) in
    let shift := (0 <? sc_start s) && ((end_ =? sc_size s) || (sc_size s / 2 <? sc_start s)) in
    let start := if shift then 0 else sc_start s in
    let end_ := start + zlen (sc_data s) in
    if (end_ =? sc_size s) && (maxTokenSize <=? sc_size s) then Stop ErrTooLong
    else
      let grown := Z.min (if sc_size s =? 0 then startBufSize else sc_size s * 2) maxTokenSize in
      let size := if end_ =? sc_size s then grown else sc_size s in
      let start := if end_ =? sc_size s then 0 else start in
      let end_ := start + zlen (sc_data s) in
      match sc_rest s with
      | [] => More (mkSc start (sc_data s) size true (sc_empties s) [] (S (sc_reads s)))
      | _ =>
          let n := Nat.min (Z.to_nat (size - end_)) (Nat.max 1 (chunk (sc_reads s))) in
          More (mkSc start (sc_data s ++ firstn n (sc_rest s)) size false 0 (skipn n (sc_rest s)) (S (sc_reads s)))
      end.
Definition step (s : scanner) : outcome :=
  if negb (zlen (sc_data s) =? 0) || sc_eof s then
    let '(adv, tok) := split (sc_data s) (sc_eof s) in
    if (List.length (sc_data s) <? adv)%nat then Stop ErrAdvanceTooFar
    else
      let s' := mkSc (sc_start s + Z.of_nat adv) (skipn adv (sc_data s)) (sc_size s) (sc_eof s) (sc_empties s) (sc_rest s) (sc_reads s) in
      match tok with
      | Some t =>
          if negb (sc_eof s) || (0 <? adv)%nat
          then Token t (mkSc (sc_start s') (sc_data s') (sc_size s') (sc_eof s') 0 (sc_rest s') (sc_reads s'))
          else if 100 <? sc_empties s + 1 then Panics
          else Token t (mkSc (sc_start s') (sc_data s') (sc_size s') (sc_eof s') (sc_empties s + 1) (sc_rest s') (sc_reads s'))
      | None => fill s'
      end
  else fill s.
(** for scanner.Scan() { ... }: the tokens, and the value of scanner.Err() after the loop *)
Fixpoint scan_all (fuel : nat) (s : scanner) : list bytes * res unit :=
  match fuel with
  | O => ([], NoFuel)
  | S f =>
      match step s with
      | Token t s' => let '(ts, r) := scan_all f s' in (t :: ts, r)
      | More s' => scan_all f s'
      | Done => ([], Ret tt)
      | Stop e => ([], Fail e)
      | Panics => ([], Panic)
      end
  end.
End Scan.

(* bufio.ScanLines *)
Fixpoint index_nl (d : bytes) : option nat :=
  match d with [] => None | c :: t => if c =? 10 then Some O else option_map S (index_nl t) end.
Definition dropCR (d : bytes) : bytes :=
  match rev d with 13 :: t => rev t | _ => d end.
Definition ScanLines (data : bytes) (atEOF : bool) : nat * option bytes :=
  if atEOF && (zlen data =? 0) then (O, None)
  else match index_nl data with
       | Some i => (S i, Some (dropCR (firstn i data)))
       | None => if atEOF then (List.length data, Some (dropCR data)) else (O, None)
       end.

(* sentence_retriever.go:52-81; [has] is the alphabet of separators *)
Section Sentence.
Context (has : Z -> bool).
(* :59-65 *)
Fixpoint skip_seps (fuel : nat) (data : bytes) (start : nat) : nat :=
  match fuel with
  | O => start
  | S f =>
      match skipn start data with
      | [] => start
      | d => let '(char, width) := decode_rune d in if has char then skip_seps f data (start + width) else start
      end
  end.
(* :67-73 *)
Fixpoint find_sep (fuel : nat) (data : bytes) (i : nat) : option (nat * nat) :=
  match fuel with
  | O => None
  | S f =>
      match skipn i data with
      | [] => None
      | d => let '(char, width) := decode_rune d in if has char then Some (i, width) else find_sep f data (i + width)
      end
  end.
Definition scanSentence (data : bytes) (atEOF : bool) : nat * option bytes :=
  let start := skip_seps (S (List.length data)) data 0 in
  match find_sep (S (List.length data)) data start with
  | Some (i, width) => ((i + width)%nat, Some (firstn (i - start) (skipn start data)))
  | None => if atEOF && (start <? List.length data)%nat then (List.length data, Some (skipn start data)) else (start, None)
  end.
End Sentence.

Section Retrieve.
Context (tokenize : bytes -> list bytes) (has : Z -> bool) (chunk : nat -> nat).
(* sentence_retriever.go:44-50 called until it gives nil: Err() is not looked at *)
Definition retrieve_all (fuel : nat) (text : bytes) : list (list bytes) :=
  map tokenize (fst (scan_all (scanSentence has) chunk fuel (NewScanner text))).
End Retrieve.

(* dictionary/helpers.go:25-48 OpenRAMDictionary: the words of the dictionary; Err() is not
   looked at *)
Definition OpenRAMDictionary (chunk : nat -> nat) (fuel : nat) (file : bytes) : list bytes :=
  fst (scan_all ScanLines chunk fuel (NewScanner file)).
