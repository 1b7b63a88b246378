(** Properties C06-C10 (pkg/compression). *)
From Coq Require Import Lia.
From Verif Require Import Base Store StoreSpec Compression P_CompressionLemmas.
Local Open Scope Z_scope.

(** C06. *)
Theorem C06_binary_roundtrip : forall (l : list Z) (pre suf : bytes),
  Forall is_u32 l ->
  exists w, binEncode l pre = Ret (zlen w, pre ++ w) /\ zlen w = 4 * zlen l /\
   (zlen (pre ++ w ++ suf) < 2 ^ 63 ->
    binDecode (mkIn (pre ++ w ++ suf) (zlen pre)) (length l) =
    (Ret l, mkIn (pre ++ w ++ suf) (zlen pre + zlen w))).
Proof. exact c06. Qed.
Print Assumptions C06_binary_roundtrip.
Example C06_nonvacuous :
  binEncode [513; 4294967295] [] = Ret (8, [1; 2; 0; 0; 255; 255; 255; 255]) /\
  fst (binDecode (NewBytesInput [1; 2; 0; 0; 255; 255; 255; 255]) 2) = Ret [513; 4294967295].
Proof. vm_compute; repeat split. Qed.

(** C07: no ordering is assumed; deltas wrap modulo 2^32. *)
Theorem C07_varint_list_roundtrip : forall (l : list Z) (pre suf : bytes),
  Forall is_u32 l -> Forall is_byte suf ->
  exists w, vbEncode l pre = Ret (zlen w, pre ++ w) /\ zlen l <= zlen w <= 5 * zlen l /\
   (zlen (pre ++ w ++ suf) < 2 ^ 63 ->
    vbDecode (mkIn (pre ++ w ++ suf) (zlen pre)) (length l) =
    (Ret l, mkIn (pre ++ w ++ suf) (zlen pre + zlen w))).
Proof. exact c07. Qed.
Print Assumptions C07_varint_list_roundtrip.
Example C07_nonvacuous :
  vbEncode [824; 829; 215406] [] = Ret (6, [184; 6; 5; 177; 140; 13]) /\
  fst (vbDecode (NewBytesInput [184; 6; 5; 177; 140; 13]) 3) = Ret [824; 829; 215406] /\
  match vbEncode [5; 1; 4294967295; 1] [] with
  | Ret (n, w) => n = zlen w /\ fst (vbDecode (NewBytesInput w) 4) = Ret [5; 1; 4294967295; 1]
  | _ => False
  end.
Proof. vm_compute; repeat split. Qed.

(** C08: for every accepted positive gap; a list shorter than the gap is refused.
    (Non-positive gaps are accepted too, see C10.) *)
Theorem C08_skipping_roundtrip : forall (gap : Z) (l : list Z) (fuel : nat) (pre suf : bytes),
  SkippingEncoder gap = Ret gap -> 1 <= gap -> Forall is_u32 l -> Forall is_byte suf ->
  (length l < fuel)%nat ->
  (zlen l < gap -> skipEncode fuel gap l pre = Fail ErrGapShouldBeGreater) /\
  (gap <= zlen l -> exists w n,
     skipEncode fuel gap l pre = Ret (zlen w, pre ++ w) /\
     gap * (n - 1) < zlen l <= gap * n /\
     (zlen (pre ++ w ++ suf) < 2 ^ 63 ->
      forall buf, zlen buf = zlen l ->
       skipDecode fuel gap (mkIn (pre ++ w ++ suf) (zlen pre)) buf =
       (Ret (gap * n, l), mkIn (pre ++ w ++ suf) (zlen pre + zlen w)))).
Proof. exact c08. Qed.
Print Assumptions C08_skipping_roundtrip.
Example C08_nonvacuous :
  let l := [1; 13; 29; 101; 506; 10003; 10004; 12000; 12901] in
  SkippingEncoder 3 = Ret 3 /\
  match skipEncode 10 3 l [] with
  | Ret (n, w) => n = zlen w /\ fst (skipDecode 10 3 (NewBytesInput w) (map (fun _ => 7) l)) = Ret (9, l)
  | _ => False
  end /\
  SkippingEncoder 3275 = Ret 3275 /\ SkippingEncoder 3276 = Fail ErrGapOverflow.
Proof. vm_compute; repeat split. Qed.

(** C09: every block header unpacks to the byte distance to the next header and the
    last-block flag. *)
Theorem C09_block_headers : forall (gap : Z) (l : list Z) (fuel : nat) (pre : bytes),
  SkippingEncoder gap = Ret gap -> 1 <= gap <= zlen l -> (length l < fuel)%nat ->
  exists bs : list (Z * bytes),
    let w := concat (map (fun p => le16 (fst p) ++ snd p) bs) in
    skipEncode fuel gap l pre = Ret (zlen w, pre ++ w) /\
    gap * (zlen bs - 1) < zlen l <= gap * zlen bs /\
    forall i h body, nth_error bs i = Some (h, body) ->
      is_u16 h /\ UnpackPos h = (zlen body + 2, Nat.eqb (S i) (length bs)).
Proof. exact c09. Qed.
Print Assumptions C09_block_headers.
Example C09_nonvacuous :
  skipEncode 9 2 [1; 300; 301] [] = Ret (9, [5; 0; 1; 171; 2; 4; 128; 172; 2]) /\
  UnpackPos 5 = (5, false) /\ UnpackPos (4 + 128 * 256) = (4, true).
Proof. vm_compute. auto. Qed.

(** C10: gap 0 is accepted and the encoder then never terminates on a non-empty
    list; negative gaps are accepted and panic. *)
Theorem C10_encoder_terminates_refuted : exists gap l,
  SkippingEncoder gap = Ret gap /\ forall fuel, skipEncode fuel gap l [] = NoFuel.
Proof. exact c10_refuted. Qed.
Print Assumptions C10_encoder_terminates_refuted.
Theorem C10_negative_gap_panics_refuted : forall gap l fuel o,
  gap < 0 -> SkippingEncoder gap = Ret gap /\ skipEncode fuel gap l o = Panic.
Proof. exact c10_negative. Qed.
Print Assumptions C10_negative_gap_panics_refuted.
(** C10, second half: the decoder's count is not the number of decoded values. *)
Theorem C10_decoder_count_refuted : exists gap l fuel w r n,
  1 <= gap <= zlen l /\ skipEncode fuel gap l [] = Ret (zlen w, w) /\
  skipDecode fuel gap (NewBytesInput w) (map (fun _ => 0) l) = (Ret (n, l), r) /\ n <> zlen l.
Proof. exact c10_count_refuted. Qed.
Print Assumptions C10_decoder_count_refuted.
(* more fuel does not change a result *)
Lemma loop_fuel : forall fuel fuel' gap l i prev total o r, (fuel <= fuel')%nat -> skipEncode_loop fuel gap l i prev total o = Ret r -> skipEncode_loop fuel' gap l i prev total o = Ret r.
Proof.
  induction fuel as [|f IH]; intros fuel' gap l i prev total o r Hf H; [discriminate|]. destruct fuel' as [|f']; [lia|]. cbn [skipEncode_loop] in *. destruct (i <? zlen l); [|exact H].
  destruct (slice l i _) as [blk| | |]; try discriminate. cbn [bind] in *. destruct (varIntEncode blk [] prev) as [[n body]| | |]; try discriminate. cbn [bind] in *. destruct (index l i) as [pv| | |]; try discriminate. cbn [bind] in *.
  destruct (WriteUInt16 o _) as [[x1 o1]| | |]; try discriminate. cbn [bind] in *. destruct (Write o1 body) as [[x2 o2]| | |]; try discriminate. cbn [bind] in *. eapply IH; [|exact H]. lia.
Qed.
Lemma c10_fuel fuel fuel' gap l o r : (fuel <= fuel')%nat -> skipEncode fuel gap l o = Ret r -> skipEncode fuel' gap l o = Ret r.
Proof. intros Hf. unfold skipEncode. destruct (zlen l <? gap); [auto|]. destruct (gap * 5 <? 0); [auto|]. apply loop_fuel. exact Hf. Qed.
(** What holds: an accepted gap from 1 encodes every list of uint32 after at most one round
    per value (more fuel changes nothing), or refuses it as too short; the decoder's count is
    right when the length is a multiple of the gap. *)
Theorem C10_positive_gap_partial : forall gap l pre, SkippingEncoder gap = Ret gap -> 1 <= gap -> Forall is_u32 l ->
  exists out, (exists r, out = Ret r \/ out = Fail ErrGapShouldBeGreater) /\ (forall fuel, (length l < fuel)%nat -> skipEncode fuel gap l pre = out) /\
  ((gap | zlen l) -> gap <= zlen l -> forall w, out = Ret (zlen w, pre ++ w) -> zlen (pre ++ w) < 2 ^ 63 ->
     forall fuel buf, (length l < fuel)%nat -> zlen buf = zlen l -> fst (skipDecode fuel gap (mkIn (pre ++ w) (zlen pre)) buf) = Ret (zlen l, l)).
Proof.
  intros gap l pre Ha Hg Hl. destruct (Z_lt_le_dec (zlen l) gap) as [Hs|Hs].
  - exists (Fail ErrGapShouldBeGreater). split; [exists (0, []); right; reflexivity|]. split; [|lia]. intros fuel Hf. apply (C08_skipping_roundtrip gap l fuel pre [] Ha Hg Hl (Forall_nil _) Hf). exact Hs.
  - destruct (C09_block_headers gap l (S (length l)) pre Ha (conj Hg Hs) (Nat.lt_succ_diag_r _)) as (bs0 & E0 & _ & _). eexists. split; [exists (zlen (concat (map (fun p => le16 (fst p) ++ snd p) bs0)), pre ++ concat (map (fun p => le16 (fst p) ++ snd p) bs0)); left; reflexivity|].
    assert (forall fuel, (length l < fuel)%nat -> skipEncode fuel gap l pre = Ret (zlen (concat (map (fun p => le16 (fst p) ++ snd p) bs0)), pre ++ concat (map (fun p => le16 (fst p) ++ snd p) bs0))) as Hall.
    { intros fuel Hf. eapply c10_fuel; [|exact E0]. lia. }
    split; [exact Hall|]. intros [q Hq] _ w Ew Hw fuel buf Hf Hb. destruct (C08_skipping_roundtrip gap l fuel pre [] Ha Hg Hl (Forall_nil _) Hf) as [_ H]. destruct (H Hs) as (w' & n & Ee & Hn & Hd).
    pose proof (eq_trans (eq_sym (eq_trans (Hall fuel Hf) Ew)) Ee) as Ew'. injection Ew' as _ Ew'. clear Ee. rename Ew' into Ee. apply app_inv_head in Ee. subst w'. rewrite !app_nil_r in Hd. rewrite (Hd Hw buf Hb). cbn [fst]. do 2 f_equal. rewrite Hq in *. assert (n = q) as -> by nia. lia.
Qed.
Print Assumptions C10_positive_gap_partial.
Example C10_positive_nonvacuous : SkippingEncoder 3 = Ret 3 /\ (3 | zlen [1; 2; 9; 11; 12; 700]) /\
  match skipEncode 7 3 [1; 2; 9; 11; 12; 700] [] with Ret (n, w) => n = zlen w /\ fst (skipDecode 7 3 (mkIn w 0) (repeat 0 6)) = Ret (6, [1; 2; 9; 11; 12; 700]) | _ => False end.
Proof. split; [reflexivity|]. split; [exists 2; reflexivity|]. vm_compute. split; reflexivity. Qed.
