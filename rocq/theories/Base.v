(** Common definitions: results of Go calls, machine-integer wrapping, byte
    strings.  No proofs about the repository here. *)
From Coq Require Export List Arith ZArith Lia Bool.
From Coq Require Import String Ascii.
Export ListNotations.
Local Open Scope Z_scope.

(** Errors the code returns, by their Go names. *)
Inductive err :=
| EOF                       (* io.EOF *)
| ErrUnexpectedEOF          (* io.ErrUnexpectedEOF *)
| ErrUInt32Overflow         (* pkg/store/byte_input.go:12-13 *)
| ErrNegativeOffset         (* pkg/store/byte_input.go:14-15 *)
| ErrOutOfRange             (* pkg/store/byte_input.go:16-17 *)
| ErrInvalidWhence          (* pkg/store/byte_input.go:18-19 *)
| ErrGapShouldBeGreater     (* pkg/compression/skipping.go:12-14 *)
| ErrGapOverflow            (* pkg/compression/skipping.go:15-17 *)
| ErrIteratorIsNotDereferencable (* pkg/merger/list_iterator.go *)
| ErrCollectionTerminated   (* pkg/merger/collector.go *)
| ErrWrapped (e : err)       (* fmt.Errorf("...: %w", e) *)
| ErrOther (code : Z).      (* any other error value (fmt.Errorf, a callback's own error) *)

(** The outcome of a Go call: a value, a returned error, a run-time panic, or
    (for loops modelled with fuel) the fuel ran out. *)
Inductive res (A : Type) :=
| Ret (a : A)
| Fail (e : err)
| Panic
| NoFuel.
Arguments Ret {A} a.
Arguments Fail {A} e.
Arguments Panic {A}.
Arguments NoFuel {A}.

Definition bind {A B} (r : res A) (f : A -> res B) : res B :=
  match r with
  | Ret a => f a
  | Fail e => Fail e
  | Panic => Panic
  | NoFuel => NoFuel
  end.

Notation "x <- r ;; k" := (bind r (fun x => k))
  (at level 61, r at next level, right associativity).
Notation "' p <- r ;; k" := (bind r (fun p => k))
  (at level 61, p pattern, r at next level, right associativity).

(** Go's unsigned wrap-around for 8, 16, 32 and 64 bits. *)
Definition wrap8 (x : Z) : Z := x mod 2 ^ 8.
Definition wrap16 (x : Z) : Z := x mod 2 ^ 16.
Definition wrap32 (x : Z) : Z := x mod 2 ^ 32.
Definition wrap64 (x : Z) : Z := x mod 2 ^ 64.
(** Go's signed 64-bit wrap-around (two's complement); [int] is 64-bit. *)
Definition wrapi64 (x : Z) : Z := (x + 2 ^ 63) mod 2 ^ 64 - 2 ^ 63.

Definition is_byte (x : Z) : Prop := 0 <= x < 2 ^ 8.
Definition is_u16 (x : Z) : Prop := 0 <= x < 2 ^ 16.
Definition is_u32 (x : Z) : Prop := 0 <= x < 2 ^ 32.
Definition is_u64 (x : Z) : Prop := 0 <= x < 2 ^ 64.
Definition is_i64 (x : Z) : Prop := - 2 ^ 63 <= x < 2 ^ 63.

Definition bytes := list Z.

(** length of a Go slice, as an int *)
Definition zlen {A} (l : list A) : Z := Z.of_nat (List.length l).

(** indexing a Go slice: panics out of range *)
Definition index {A} (l : list A) (i : Z) : res A :=
  if (0 <=? i) && (i <? zlen l) then
    match nth_error l (Z.to_nat i) with
    | Some a => Ret a
    | None => Panic
    end
  else Panic.

(** slicing [l[a:b]]: panics unless 0 <= a <= b <= len.  (Go's bound is the
    capacity; the model takes capacity = length, see DESIGN.md.) *)
Definition slice {A} (l : list A) (a b : Z) : res (list A) :=
  if (0 <=? a) && (a <=? b) && (b <=? zlen l)
  then Ret (firstn (Z.to_nat (b - a)) (skipn (Z.to_nat a) l))
  else Panic.

(** Bytes of a Coq string literal (used only to write examples readably). *)
Fixpoint bs (s : string) : bytes :=
  match s with
  | EmptyString => []
  | String c s' => Z.of_nat (nat_of_ascii c) :: bs s'
  end.
