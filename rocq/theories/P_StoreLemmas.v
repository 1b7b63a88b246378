(** Statements of C01-C05 proved from the store lemmas. *)
From Coq Require Import String ZifyBool.
From Verif Require Import Base BaseLemmas Store StoreSpec StoreProofs StoreProofs2.
Local Open Scope Z_scope.

Lemma c01 (v : Z) (pre suf : bytes) :
  is_u32 v -> Forall is_byte suf -> zlen pre + 5 + zlen suf < 2 ^ 63 ->
  exists w : bytes,
    WriteVUInt32 pre v = Ret (zlen w, pre ++ w) /\ 1 <= zlen w <= 5 /\
    ReadVUInt32 (mkIn (pre ++ w ++ suf) (zlen pre)) =
      (Ret v, mkIn (pre ++ w ++ suf) (zlen pre + zlen w)).
Proof.
  intros Hv Hs Hl. exists (vbytes v). pose proof (vbytes_len v Hv).
  split; [apply write_var; exact Hv|]. split; [unfold zlen; lia|].
  apply read_var_app; auto. rewrite !zlen_app. unfold zlen in *. lia.
Qed.

Lemma c02 (data : bytes) (pos : Z) :
  Forall is_byte data -> zlen data < 2 ^ 63 -> 0 <= pos ->
  let tail := skipn (Z.to_nat pos) data in
  let r := mkIn data pos in
  (forall n, (n < 5)%nat -> ends_at tail n ->
     ReadVUInt32 r = (Ret (leb_value (firstn (S n) tail) mod 2 ^ 32),
                      mkIn data (pos + Z.of_nat (S n)))) /\
  (tail = [] -> ReadVUInt32 r = (Fail ErrUInt32Overflow, r)) /\
  (tail <> [] -> (List.length tail < 5)%nat -> Forall (fun b => 128 <= b) tail ->
     ReadVUInt32 r = (Fail ErrUnexpectedEOF, r)) /\
  ((5 <= List.length tail)%nat -> Forall (fun b => 128 <= b) (firstn 5 tail) ->
     ReadVUInt32 r = (Fail ErrUInt32Overflow, r)).
Proof.
  intros Hb Hl Hp tail r.
  destruct (Z.lt_ge_cases pos (zlen data)) as [Hlt|Hge].
  - destruct (split_at data pos ltac:(lia)) as [E El]. fold tail in E.
    assert (Forall is_byte tail) as Ht by (apply Forall_skipn; exact Hb).
    unfold r. clearbody tail. set (p := firstn (Z.to_nat pos) data) in *. clearbody p.
    clear r. subst data. subst pos.
    split; [|split; [|split]].
    + intros n Hn He. apply read_var_ends; auto.
    + intros ->. rewrite app_nil_r in Hlt. lia.
    + intros Hne Hln Hf. apply read_var_trunc; auto.
    + intros Hln Hf. apply read_var_over; auto.
  - assert (tail = []) as Et by (apply skipn_nil_iff; lia).
    split; [|split; [|split]].
    + intros n Hn [H _]. rewrite Et in H. cbn in H. lia.
    + intros _. apply read_var_end. exact Hge.
    + congruence.
    + rewrite Et. cbn. lia.
Qed.

Lemma c03 (pre : bytes) (l : list item) (suf : bytes) :
  Forall item_ok l -> Forall is_byte suf ->
  exists w : bytes, put_all pre l = Ret (pre ++ w) /\
    (zlen (pre ++ w ++ suf) < 2 ^ 63 ->
     get_all (mkIn (pre ++ w ++ suf) (zlen pre)) l =
       (Ret l, mkIn (pre ++ w ++ suf) (zlen pre + zlen w))).
Proof.
  intros Hl Hs. exists (concat (map item_bytes l)).
  split; [apply put_all_ok; exact Hl|]. intros Hlen.
  rewrite get_all_ok by assumption. rewrite zlen_app. reflexivity.
Qed.

Lemma c04_refuted :
  exists (data : bytes) (h : list iop) (o : iop),
    Forall is_byte data /\ Forall iop_i64 h /\ iop_i64 o /\
    fst (istep (irun (NewBytesInput data) h) o) = Panic.
Proof.
  exists [1; 2; 3], [], (PSlice (2 ^ 63 - 1) 1).
  split; [repeat constructor; unfold is_byte; lia|]. split; [constructor|].
  split; [cbn; unfold is_i64; lia|]. vm_compute. reflexivity.
Qed.

Lemma c05_ram_refuted :
  exists (h1 h2 h3 : list dop) (n : string) (k : nat),
    k = count_creates h1 /\
    no_create n (h2 ++ h3) /\ ~ In (OClose k) h2 /\
    (forall j, j <> k -> handle_name (h1 ++ OCreate n :: h2 ++ OClose k :: h3) j = Some n ->
       no_use j (h2 ++ h3)) /\
    ram_open (ram_run NewRAMDirectory (h1 ++ OCreate n :: h2 ++ OClose k :: h3)) n <>
    Some (writes_to k h2).
Proof.
  exists [OCreate "i"%string; OWrite 0 [1]; OClose 0], [OWrite 1 [2]], [], "i"%string, 1%nat.
  split; [reflexivity|]. split; [intros [H|[]]; discriminate|]. split; [intros [H|[]]; discriminate|].
  split; [|vm_compute; discriminate].
  intros j Hj _. split; [|split]; intros; intros [H|[]]; try discriminate.
  injection H; intros; congruence.
Qed.
