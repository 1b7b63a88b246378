(** Properties C11-C14 (posting lists). *)
From Verif Require Import Base Store Compression Postings PostingsSpec PostingsDrive P_PostingsLemmas.
Local Open Scope Z_scope.

(** C11: a stored varint posting list, written anywhere in a file, is a cursor over
    the list, for every sequence of calls. *)
Theorem C11_varint_list_is_cursor : forall (l : list Z) (pre suf : bytes),
  ascending l -> l <> [] -> Forall is_byte pre -> Forall is_byte suf ->
  exists w, vbEncode l pre = Ret (zlen w, pre ++ w) /\
  (zlen (pre ++ w ++ suf) < 2 ^ 63 ->
   exists s, vl_init (mkIn (pre ++ w ++ suf) (zlen pre)) (zlen l) = Ret s /\
     forall ops, iter_run (IVb s) ops = cursor_run (zlen l) l ops).
Proof. exact c11. Qed.
Print Assumptions C11_varint_list_is_cursor.

(** C12: the same for the skipping list, for every accepted positive gap.  The
    reader must start at the list (index readers hand out sliced inputs). *)
Theorem C12_skipping_list_is_cursor : forall (gap : Z) (l : list Z) (suf : bytes) (fuel : nat),
  ascending l -> SkippingEncoder gap = Ret gap -> 1 <= gap <= zlen l ->
  Forall is_byte suf -> (length l < fuel)%nat ->
  exists w, skipEncode fuel gap l [] = Ret (zlen w, w) /\
  (zlen (w ++ suf) < 2 ^ 63 ->
   exists s, sk_init gap (NewBytesInput (w ++ suf)) (zlen l) = Ret s /\
     forall ops, iter_run (ISkip s) ops = cursor_run (zlen l) l ops).
Proof. exact c12. Qed.
Print Assumptions C12_skipping_list_is_cursor.

(** C13: the same for the bitmap list, given the contract of the bitmap library. *)
Theorem C13_bitmap_list_is_cursor : forall (rb : roaring) (l : list Z),
  roaring_ok rb -> posting l -> l <> [] ->
  exists w, bitmapEncode rb l [] = Ret (zlen w, w) /\
  exists s, bl_init rb (NewBytesInput w) = Ret s /\
     forall ops, iter_run (IBit s) ops = cursor_run (zlen l) l ops.
Proof.
  intros rb l Hrb Hp Hne. destruct (c13 rb l Hrb (proj2 Hp) Hne) as (w & Ew & _ & H). exists w. split; [exact Ew|]. rewrite to_set_sorted in H by apply Hp. exact H.
Qed.
Print Assumptions C13_bitmap_list_is_cursor.
(** A list given in any order and with repetitions reads as its values in ascending order, each once. *)
Theorem C13_any_list : forall (rb : roaring) (l : list Z),
  roaring_ok rb -> Forall is_u32 l -> l <> [] ->
  posting (each_once l) /\ (forall x, In x (each_once l) <-> In x l) /\
  exists w, bitmapEncode rb l [] = Ret (zlen w, w) /\
  exists s, bl_init rb (NewBytesInput w) = Ret s /\
     forall ops, iter_run (IBit s) ops = cursor_run (zlen (each_once l)) (each_once l) ops.
Proof.
  intros rb l Hrb Hu Hne. destruct (to_set_spec l Hu) as [H1 H2]. split; [exact H1|]. split; [exact H2|].
  destruct (c13 rb l Hrb Hu Hne) as (w & Ew & _ & H). exists w. split; [exact Ew|exact H].
Qed.
Print Assumptions C13_any_list.

(** C14: writer and reader agree on the format whatever the length, and the opened
    iterator is indistinguishable from an in-memory slice iterator. *)
Theorem C14_format_invisible : forall (rb : roaring) (l : list Z),
  roaring_ok rb -> posting l -> l <> [] ->
  exists w, encodePosting rb l [] = Ret (zlen w, w) /\ Forall is_byte w /\
  (zlen w < 2 ^ 63 ->
   exists i, openPosting rb (NewBytesInput w) (zlen l) = Ret i /\
     (forall ops, iter_run i ops = cursor_run (zlen l) l ops) /\
     (forall ops, iter_run i ops = iter_run (ISlice (mkSl l 0)) ops)).
Proof. exact c14. Qed.
Print Assumptions C14_format_invisible.
(** With repetitions (an entry whose n-grams repeat is listed once per occurrence) the
    format is visible: up to 256 elements the repetitions are kept, beyond they are not.
    Nothing else changes. *)
Theorem C14_repetitions : forall (rb : roaring) (l : list Z),
  roaring_ok rb -> ascending l -> l <> [] ->
  exists w, encodePosting rb l [] = Ret (zlen w, w) /\ Forall is_byte w /\
  (zlen w < 2 ^ 63 ->
   exists i, openPosting rb (NewBytesInput w) (zlen l) = Ret i /\
     forall ops, iter_run i ops = cursor_run (zlen (stored l)) (stored l) ops).
Proof. exact c14_any. Qed.
Print Assumptions C14_repetitions.

(** Non-vacuity. *)
Definition upto (n : nat) : list Z := map (fun i => 7 * Z.of_nat i) (seq 0 n).
Example C11_C14_nonvacuous_contract : roaring_ok rb4.
Proof. exact rb4_ok. Qed.
Definition demo_ops : list cop :=
  [CGet; CHasNext; CNext; CLowerBound 450; CNext; CLowerBound 3; CGet; CLowerBound 100000; CGet; CNext; CHasNext; CLen].
Example C12_nonvacuous :
  let l := upto 200 in
  match encodePosting rb4 l [] with
  | Ret (n, w) => n = zlen w /\
      match openPosting rb4 (NewBytesInput w) (zlen l) with
      | Ret i => iter_run i demo_ops =
          [AVal (Ret 0); ABool true; AVal (Ret 7); AVal (Ret 455); AVal (Ret 462); AVal (Ret 462); AVal (Ret 462);
           AVal (Fail ErrIteratorIsNotDereferencable); AVal (Fail ErrIteratorIsNotDereferencable);
           AVal (Fail ErrIteratorIsNotDereferencable); ABool false; ALen 200]
      | _ => False
      end
  | _ => False
  end.
Proof. vm_compute. repeat split. Qed.
Example C14_repetitions_nonvacuous :
  ascending [3; 3; 70000; 70000; 4294967295] /\ stored [3; 3; 70000; 70000; 4294967295] = [3; 3; 70000; 70000; 4294967295] /\
  stored (flat_map (fun x => [x; x]) (upto 200)) = upto 200 /\
  match encodePosting rb4 (flat_map (fun x => [x; x]) (upto 60)) [] with
  | Ret (n, w) =>
      match openPosting rb4 (NewBytesInput w) 120 with
      | Ret i => iter_run i [CGet; CNext; CNext; CLowerBound 301; CNext; CNext; CLen] =
          [AVal (Ret 0); AVal (Ret 0); AVal (Ret 7); AVal (Ret 301); AVal (Ret 301); AVal (Ret 308); ALen 120]
      | _ => False
      end
  | _ => False
  end.
Proof.
  split; [|vm_compute; repeat split].
  split.
  - repeat apply SSorted_cons; try apply SSorted_nil; repeat apply Forall_cons; try apply Forall_nil; lia.
  - repeat apply Forall_cons; try apply Forall_nil; unfold is_u32; lia.
Qed.
Example C11_nonvacuous : posting [3; 300; 70000; 4294967295].
Proof.
  split.
  - repeat apply SSorted_cons; try apply SSorted_nil; repeat apply Forall_cons; try apply Forall_nil; reflexivity.
  - repeat apply Forall_cons; try apply Forall_nil; unfold is_u32; lia.
Qed.
