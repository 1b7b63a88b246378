(** Cursor safety (C04) and directories (C05). *)
From Coq Require Import String ZifyBool.
From Verif Require Import Base BaseLemmas Store StoreSpec StoreProofs.
Local Open Scope Z_scope.
Ltac Zify.zify_post_hook ::= Z.div_mod_to_equations.

Lemma split_at (data : bytes) pos : 0 <= pos <= zlen data ->
  data = firstn (Z.to_nat pos) data ++ skipn (Z.to_nat pos) data /\
  zlen (firstn (Z.to_nat pos) data) = pos.
Proof.
  intros H. split; [symmetry; apply firstn_skipn|].
  unfold zlen in *. rewrite firstn_length. lia.
Qed.

Lemma first_small (l : bytes) : forall k, Forall is_byte l ->
  (exists n, (n < k)%nat /\ ends_at l n) \/
  ((length l < k)%nat /\ Forall (fun b => 128 <= b) l) \/
  ((k <= length l)%nat /\ Forall (fun b => 128 <= b) (firstn k l)).
Proof.
  induction l as [|b l IH]; intros k Hb.
  - destruct k; [right; right; split; [cbn; lia|constructor]|right; left; split; [cbn; lia|constructor]].
  - destruct k as [|k]; [right; right; split; [cbn; lia|constructor]|].
    inversion Hb; subst. destruct (Z.lt_ge_cases b 128) as [Hs|Hs].
    + left. exists 0%nat. split; [lia|]. split; [cbn; lia|]. split; [intros; lia|cbn; lia].
    + destruct (IH k H2) as [(n & Hn & He)|[[Hl Hf]|[Hl Hf]]].
      * left. exists (S n). split; [lia|]. destruct He as [E1 [E2 E3]].
        split; [cbn [length]; lia|]. split; [|exact E3].
        intros [|j] Hj; cbn [nth]; [exact Hs|]. apply E2; lia.
      * right; left. split; [cbn [length]; lia|]. constructor; assumption.
      * right; right. split; [cbn [length]; lia|]. cbn [firstn]. constructor; assumption.
Qed.

Definition step_ok (data : bytes) (pos : Z) (o : iop) : Prop :=
  match istep (mkIn data pos) o with
  | (Ret out, r') => ibuf r' = data /\ 0 <= ipos r' < 2 ^ 63 /\ answer_ok data pos o out (ipos r')
                     /\ ~ overflow_panic pos o
  | (Fail e, r') => r' = mkIn data pos /\ error_ok data pos o e /\ ~ overflow_panic pos o
  | (Panic, r') => r' = mkIn data pos /\ overflow_panic pos o
  | (NoFuel, _) => False
  end.

Lemma skipn_nil_iff (data : bytes) pos : 0 <= pos -> zlen data <= pos -> skipn (Z.to_nat pos) data = [].
Proof. intros. apply skipn_all2. unfold zlen in *. lia. Qed.

Lemma slice_tail (data : bytes) pos : 0 <= pos <= zlen data ->
  slice data pos (zlen data) = Ret (skipn (Z.to_nat pos) data).
Proof.
  intros H. destruct (split_at data pos H) as [E El].
  set (p := firstn (Z.to_nat pos) data) in *. set (t := skipn (Z.to_nat pos) data) in *.
  rewrite E. rewrite <- El. apply slice_app_tail.
Qed.

Lemma slice_mid (data : bytes) a b : 0 <= a <= b -> b <= zlen data ->
  slice data a b = Ret (firstn (Z.to_nat (b - a)) (skipn (Z.to_nat a) data)).
Proof.
  intros H1 H2. unfold slice.
  replace ((0 <=? a) && (a <=? b) && (b <=? zlen data)) with true by lia. reflexivity.
Qed.
Lemma slice_panic {A} (data : list A) a b : ~ (0 <= a <= b /\ b <= zlen data) -> slice data a b = Panic.
Proof.
  intros H. unfold slice.
  replace ((0 <=? a) && (a <=? b) && (b <=? zlen data)) with false by lia. reflexivity.
Qed.

Lemma zlen_skipn (l : bytes) k : 0 <= k <= zlen l -> zlen (skipn (Z.to_nat k) l) = zlen l - k.
Proof. intros. unfold zlen in *. rewrite skipn_length. lia. Qed.
Lemma zlen_firstn (l : bytes) k : 0 <= k -> zlen (firstn (Z.to_nat k) l) = Z.min k (zlen l).
Proof. intros. unfold zlen in *. rewrite firstn_length. lia. Qed.

Lemma step_all data pos o : Forall is_byte data -> zlen data < 2 ^ 63 -> 0 <= pos < 2 ^ 63 ->
  iop_i64 o -> step_ok data pos o.
Proof.
  intros Hb Hl Hp Ho. unfold step_ok.
  pose proof (zlen_nonneg data) as Hnn.
  destruct o as [n|n off| |off w|off n| | |]; cbn [istep iop_i64] in *.
  - (* Read *)
    unfold Read. cbn [ibuf ipos].
    destruct (Z.geb_spec pos (zlen data)) as [Hge|Hlt].
    + cbn [lift]. split; [reflexivity|]. split; [|cbn; tauto].
      split; [apply skipn_nil_iff; lia|reflexivity].
    + rewrite slice_tail by lia. cbn [lift ibuf ipos set_pos].
      pose proof (zlen_skipn data pos ltac:(lia)).
      pose proof (zlen_firstn (skipn (Z.to_nat pos) data) n ltac:(lia)).
      rewrite wrapi64_small by lia.
      split; [reflexivity|]. split; [lia|]. split; [|cbn; tauto].
      cbn [answer_ok]. split; [reflexivity|]. split; [|reflexivity].
      intros E. rewrite E in *. rewrite zlen_nil in *. lia.
  - (* ReadAt *)
    unfold ReadAt, is_i64 in *. cbn [ibuf ipos].
    destruct (Z.ltb_spec off 0).
    { cbn [lift]. split; [reflexivity|]. split; [left; split; [lia|reflexivity]|cbn; tauto]. }
    destruct (Z.geb_spec off (zlen data)).
    { cbn [lift]. split; [reflexivity|]. split; [right; split; [lia|reflexivity]|cbn; tauto]. }
    rewrite slice_tail by lia. cbn [lift ibuf ipos set_pos fst snd].
    split; [reflexivity|]. split; [lia|]. split; [|cbn; tauto].
    cbn [answer_ok]. split; [reflexivity|]. split; [lia|]. split; [|reflexivity]. lia.
  - (* ReadByte *)
    unfold ReadByte. cbn [ibuf ipos].
    destruct (Z.geb_spec pos (zlen data)) as [Hge|Hlt].
    + cbn [lift]. split; [reflexivity|]. split; [|cbn; tauto].
      split; [apply skipn_nil_iff; lia|reflexivity].
    + rewrite (index_nth _ _ 0) by lia. cbn [lift ibuf ipos set_pos].
      rewrite wrapi64_small by lia.
      split; [reflexivity|]. split; [lia|]. split; [|cbn; tauto].
      cbn [answer_ok]. split; [|reflexivity]. apply nth_error_nth'. unfold zlen in *. lia.
  - (* Seek *)
    unfold Seek, is_i64 in *. cbn [ibuf ipos].
    destruct (Z.eqb_spec w 0) as [->|H0]; [|destruct (Z.eqb_spec w 1) as [->|H1];
      [|destruct (Z.eqb_spec w 2) as [->|H2]]].
    + destruct (Z.ltb_spec off 0); cbn [lift ibuf ipos set_pos].
      * split; [reflexivity|]. split; [|cbn; tauto]. right. split; [reflexivity|].
        exists off. split; [left; split; reflexivity|lia].
      * split; [reflexivity|]. split; [lia|]. split; [|cbn; tauto].
        cbn [answer_ok]. split; [reflexivity|]. split; [lia|]. left. split; reflexivity.
    + destruct (Z.ltb_spec (wrapi64 (pos + off)) 0); cbn [lift ibuf ipos set_pos].
      * split; [reflexivity|]. split; [|cbn; tauto]. right. split; [reflexivity|].
        exists (pos + off). split; [right; left; split; reflexivity|].
        destruct (Z.lt_ge_cases (pos + off) (2 ^ 63)); [|right; lia].
        rewrite wrapi64_small in * by lia. left; lia.
      * assert (pos + off < 2 ^ 63).
        { unfold wrapi64 in *. lia. }
        rewrite wrapi64_small in * by lia.
        split; [reflexivity|]. split; [lia|]. split; [|cbn; tauto].
        cbn [answer_ok]. split; [reflexivity|]. split; [lia|]. right; left. split; reflexivity.
    + destruct (Z.ltb_spec (wrapi64 (zlen data + off)) 0); cbn [lift ibuf ipos set_pos].
      * split; [reflexivity|]. split; [|cbn; tauto]. right. split; [reflexivity|].
        exists (zlen data + off). split; [right; right; split; reflexivity|].
        destruct (Z.lt_ge_cases (zlen data + off) (2 ^ 63)); [|right; lia].
        rewrite wrapi64_small in * by lia. left; lia.
      * assert (zlen data + off < 2 ^ 63).
        { unfold wrapi64 in *. lia. }
        rewrite wrapi64_small in * by lia.
        split; [reflexivity|]. split; [lia|]. split; [|cbn; tauto].
        cbn [answer_ok]. split; [reflexivity|]. split; [lia|]. right; right. split; reflexivity.
    + cbn [lift]. split; [reflexivity|]. split; [|cbn; tauto]. left. auto.
  - (* Slice *)
    unfold Slice, is_i64 in *. cbn [ibuf ipos].
    destruct ((n <? 0) || (off <? 0) || (zlen data <? wrapi64 (off + n))) eqn:Eg.
    + cbn [lift]. split; [reflexivity|].
      assert (0 <= off -> 0 <= n -> off + n < 2 ^ 63).
      { intros. destruct (Z.lt_ge_cases (off + n) (2 ^ 63)); [assumption|].
        assert (wrapi64 (off + n) < 0) by (unfold wrapi64; lia). lia. }
      split.
      * cbn [error_ok]. split; [|reflexivity].
        destruct (Z.lt_ge_cases off 0); [left; assumption|].
        destruct (Z.lt_ge_cases n 0); [right; left; assumption|]. right; right.
        rewrite wrapi64_small in Eg by lia. lia.
      * cbn [overflow_panic]. lia.
    + destruct (Z.lt_ge_cases (off + n) (2 ^ 63)).
      * rewrite wrapi64_small in * by lia.
        rewrite slice_mid by lia. cbn [lift ibuf ipos].
        split; [reflexivity|]. split; [lia|]. split; [|cbn; lia].
        cbn [answer_ok NewBytesInput ibuf ipos].
        replace (off + n - off) with n by lia.
        split; [reflexivity|]. split; [|split; reflexivity].
        rewrite zlen_firstn by lia. rewrite zlen_skipn by lia. lia.
      * rewrite slice_panic.
        -- cbn [lift]. split; [reflexivity|]. cbn. lia.
        -- assert (wrapi64 (off + n) < 0) by (unfold wrapi64; lia). lia.
  - (* VUInt32 *)
    assert (~ overflow_panic pos PVar) as Hno by (cbn; tauto).
    destruct (Z.lt_ge_cases pos (zlen data)) as [Hlt|Hge].
    + destruct (split_at data pos ltac:(lia)) as [E El].
      set (p := firstn (Z.to_nat pos) data) in *.
      set (t := skipn (Z.to_nat pos) data) in *.
      assert (Forall is_byte t) as Ht by (unfold t; apply Forall_skipn; exact Hb).
      assert (t <> []) as Hne.
      { intros Et. rewrite Et, app_nil_r in E. rewrite E in Hlt. lia. }
      destruct (first_small t 5 Ht) as [(n & Hn & He)|[[Hlen Hf]|[Hlen Hf]]].
      * assert (ReadVUInt32 (mkIn data pos) =
          (Ret (leb_value (firstn (S n) t) mod 2 ^ 32), mkIn data (pos + Z.of_nat (S n)))) as ->.
        { rewrite E, <- El. apply read_var_ends; auto. rewrite <- E; exact Hl. }
        cbn [lift ibuf ipos]. split; [reflexivity|].
        assert ((S n <= length t)%nat) by (destruct He; lia).
        assert (zlen data = pos + Z.of_nat (length t)) by (rewrite E, zlen_app, El; reflexivity).
        split; [lia|]. split; [|exact Hno].
        exists n. unfold t in *. auto.
      * assert (ReadVUInt32 (mkIn data pos) = (Fail ErrUnexpectedEOF, mkIn data pos)) as ->.
        { rewrite E, <- El. apply read_var_trunc; auto. }
        cbn [lift]. split; [reflexivity|]. split; [|exact Hno]. split; [|left; reflexivity].
        intros n Hn [H1 [H2 H3]]. rewrite Forall_forall in Hf. fold t in H1, H3.
        specialize (Hf _ (nth_In t 0 H1)). cbn beta in Hf. lia.
      * assert (ReadVUInt32 (mkIn data pos) = (Fail ErrUInt32Overflow, mkIn data pos)) as ->.
        { rewrite E, <- El. apply read_var_over; auto. }
        cbn [lift]. split; [reflexivity|]. split; [|exact Hno]. split; [|right; reflexivity].
        intros n Hn [H1 [H2 H3]]. fold t in H1, H3. rewrite Forall_forall in Hf.
        assert (In (nth n t 0) (firstn 5 t)) as Hin.
        { rewrite <- (firstn_skipn 5 t) at 1. rewrite app_nth1 by (rewrite firstn_length; lia).
          apply nth_In. rewrite firstn_length; lia. }
        specialize (Hf _ Hin). cbn beta in Hf. lia.
    + rewrite read_var_end by (cbn; lia). cbn [lift]. split; [reflexivity|]. split; [|exact Hno].
      split; [|right; reflexivity].
      intros n Hn [H1 _]. rewrite skipn_nil_iff in H1 by lia. cbn in H1. lia.
  - (* UInt32 *)
    destruct (Z.lt_ge_cases (pos + 4) (2 ^ 63)) as [Hsm|Hbig].
    + assert (~ overflow_panic pos PU32) as Hno by (cbn; lia).
      destruct (Z.lt_ge_cases (zlen data) (pos + 4)) as [Hsh|Hen].
      * unfold ReadUInt32. cbn [ibuf ipos]. rewrite wrapi64_small by lia.
        replace (pos + 4 >? zlen data) with true by lia. cbn [lift].
        split; [reflexivity|]. split; [|exact Hno]. split; [|reflexivity].
        rewrite skipn_length. unfold zlen in *. lia.
      * destruct (split_at data pos ltac:(lia)) as [E El].
        set (p := firstn (Z.to_nat pos) data) in *.
        assert (Forall is_byte (skipn (Z.to_nat pos) data)) as Ht by (apply Forall_skipn; exact Hb).
        assert (4 <= length (skipn (Z.to_nat pos) data))%nat as Htl
          by (rewrite skipn_length; unfold zlen in *; lia).
        cbn [answer_ok].
        set (t := skipn (Z.to_nat pos) data) in *.
        destruct t as [|b0 [|b1 [|b2 [|b3 r]]]] eqn:Et; cbn [length] in Htl; try lia.
        assert (Hl' := Hl). rewrite E in Hl' at 1. clearbody p. clearbody t.
        repeat match goal with H : Forall is_byte (?x :: ?y) |- _ =>
          let H' := fresh in pose proof (Forall_inv H) as H'; apply Forall_inv_tail in H end.
        assert (ReadUInt32 (mkIn data pos) =
          (Ret (b0 + b1 * 2 ^ 8 + b2 * 2 ^ 16 + b3 * 2 ^ 24), mkIn data (pos + 4))) as ->.
        { rewrite E, <- El. apply read_u32; try assumption. }
        cbn [lift ibuf ipos]. split; [reflexivity|]. split; [lia|]. split; [|exact Hno].
        cbn [firstn le_value length]. lia.
    + unfold ReadUInt32. cbn [ibuf ipos].
      assert (wrapi64 (pos + 4) < 0) by (unfold wrapi64; lia).
      replace (wrapi64 (pos + 4) >? zlen data) with false by lia.
      assert (overflow_panic pos PU32) as Hov by (cbn; lia).
      destruct (Z.lt_ge_cases (zlen data) pos).
      * rewrite slice_panic by lia. cbn [lift]. split; [reflexivity|exact Hov].
      * rewrite slice_tail by lia. pose proof (zlen_skipn data pos ltac:(lia)).
        destruct (skipn (Z.to_nat pos) data) as [|b0 [|b1 [|b2 [|b3 r]]]]; rewrite ?zlen_cons in *;
          cbn [lift]; try (split; [reflexivity|exact Hov]).
        pose proof (zlen_nonneg r). lia.
  - (* UInt16 *)
    destruct (Z.lt_ge_cases (pos + 2) (2 ^ 63)) as [Hsm|Hbig].
    + assert (~ overflow_panic pos PU16) as Hno by (cbn; lia).
      destruct (Z.lt_ge_cases (zlen data) (pos + 2)) as [Hsh|Hen].
      * unfold ReadUInt16. cbn [ibuf ipos]. rewrite wrapi64_small by lia.
        replace (pos + 2 >? zlen data) with true by lia. cbn [lift].
        split; [reflexivity|]. split; [|exact Hno]. split; [|reflexivity].
        rewrite skipn_length. unfold zlen in *. lia.
      * destruct (split_at data pos ltac:(lia)) as [E El].
        set (p := firstn (Z.to_nat pos) data) in *.
        assert (Forall is_byte (skipn (Z.to_nat pos) data)) as Ht by (apply Forall_skipn; exact Hb).
        assert (2 <= length (skipn (Z.to_nat pos) data))%nat as Htl
          by (rewrite skipn_length; unfold zlen in *; lia).
        cbn [answer_ok].
        set (t := skipn (Z.to_nat pos) data) in *.
        destruct t as [|b0 [|b1 r]] eqn:Et; cbn [length] in Htl; try lia.
        assert (Hl' := Hl). rewrite E in Hl' at 1. clearbody p. clearbody t.
        repeat match goal with H : Forall is_byte (?x :: ?y) |- _ =>
          let H' := fresh in pose proof (Forall_inv H) as H'; apply Forall_inv_tail in H end.
        assert (ReadUInt16 (mkIn data pos) = (Ret (b0 + b1 * 256), mkIn data (pos + 2))) as ->.
        { rewrite E, <- El. apply read_u16; try assumption. }
        cbn [lift ibuf ipos]. split; [reflexivity|]. split; [lia|]. split; [|exact Hno].
        cbn [firstn le_value length]. lia.
    + unfold ReadUInt16. cbn [ibuf ipos].
      assert (wrapi64 (pos + 2) < 0) by (unfold wrapi64; lia).
      replace (wrapi64 (pos + 2) >? zlen data) with false by lia.
      assert (overflow_panic pos PU16) as Hov by (cbn; lia).
      destruct (Z.lt_ge_cases (zlen data) pos).
      * rewrite slice_panic by lia. cbn [lift]. split; [reflexivity|exact Hov].
      * rewrite slice_tail by lia. pose proof (zlen_skipn data pos ltac:(lia)).
        destruct (skipn (Z.to_nat pos) data) as [|b0 [|b1 r]]; rewrite ?zlen_cons in *;
          cbn [lift]; try (split; [reflexivity|exact Hov]).
        pose proof (zlen_nonneg r). lia.
Qed.

Lemma run_inv data h : Forall is_byte data -> zlen data < 2 ^ 63 -> Forall iop_i64 h ->
  ibuf (irun (NewBytesInput data) h) = data /\ 0 <= ipos (irun (NewBytesInput data) h) < 2 ^ 63.
Proof.
  intros Hb Hl Hh. unfold irun, NewBytesInput.
  enough (forall pos, 0 <= pos < 2 ^ 63 ->
    ibuf (fold_left istep_state h (mkIn data pos)) = data /\
    0 <= ipos (fold_left istep_state h (mkIn data pos)) < 2 ^ 63) as Hg by (apply Hg; lia).
  induction Hh as [|o h Ho Hh IH]; intros pos Hp; cbn [fold_left]; [split; [reflexivity|exact Hp]|].
  pose proof (step_all data pos o Hb Hl Hp Ho) as Hs. unfold step_ok in Hs.
  assert (exists p', istep_state (mkIn data pos) o = mkIn data p' /\ 0 <= p' < 2 ^ 63) as (p' & -> & Hp').
  { unfold istep_state.
    destruct (istep (mkIn data pos) o) as [[out|e| |] [d' p']]; cbn [snd ibuf ipos] in *.
    - destruct Hs as (-> & Hp' & _). eauto.
    - destruct Hs as (E & _). injection E as -> ->. eauto.
    - destruct Hs as (E & _). injection E as -> ->. eauto.
    - contradiction. }
  apply IH; exact Hp'.
Qed.

Lemma c04_exact data h o : Forall is_byte data -> zlen data < 2 ^ 63 ->
  Forall iop_i64 h -> iop_i64 o ->
  let r := irun (NewBytesInput data) h in
  ibuf r = data /\
  match istep r o with
  | (Ret out, r') => ibuf r' = data /\ answer_ok data (ipos r) o out (ipos r')
                     /\ ~ overflow_panic (ipos r) o
  | (Fail e, r') => r' = r /\ error_ok data (ipos r) o e /\ ~ overflow_panic (ipos r) o
  | (Panic, r') => overflow_panic (ipos r) o
  | (NoFuel, _) => False
  end.
Proof.
  intros Hb Hl Hh Ho r. destruct (run_inv data h Hb Hl Hh) as [E Hp]. fold r in E, Hp.
  split; [exact E|].
  pose proof (step_all data (ipos r) o Hb Hl Hp Ho) as Hs. unfold step_ok in Hs.
  assert (r = mkIn data (ipos r)) as Er by (destruct r; cbn in *; subst; reflexivity).
  rewrite <- Er in Hs.
  destruct (istep r o) as [[out|e| |] r'].
  - destruct Hs as (H1 & H2 & H3 & H4). auto.
  - destruct Hs as (H1 & H2 & H3). auto.
  - apply Hs.
  - exact Hs.
Qed.

(** ** Directories *)
Lemma nth_error_set_nth {A} n (x : A) l : (n < length l)%nat -> nth_error (set_nth n x l) n = Some x.
Proof. revert l; induction n; intros [|y l] H; cbn in *; try lia; auto. apply IHn; lia. Qed.
Lemma nth_error_set_nth_ne {A} n m (x : A) l : n <> m -> nth_error (set_nth n x l) m = nth_error l m.
Proof. revert m l; induction n; intros [|m] [|y l] H; cbn; auto; try congruence. Qed.
Lemma set_nth_length {A} n (x : A) l : length (set_nth n x l) = length l.
Proof. revert l; induction n; intros [|y l]; cbn; auto. Qed.
Lemma set_nth_same {A} n (x : A) l : nth_error l n = Some x -> set_nth n x l = l.
Proof. revert l; induction n; intros [|y l] H; cbn in *; try congruence. f_equal; auto. Qed.

Lemma pwrite_end b p : pwrite b (length b) p = b ++ p.
Proof.
  unfold pwrite. rewrite Nat.sub_diag. cbn [repeat]. rewrite app_nil_r, firstn_all.
  rewrite skipn_all2 by lia. rewrite app_nil_r. reflexivity.
Qed.

(** handles keep their names *)
Definition names_ok (hs : list fhandle) (h : list dop) : Prop :=
  length hs = count_creates h /\
  forall j, option_map fh_name (nth_error hs j) = handle_name h j.

Lemma handle_name_app h1 h2 j :
  handle_name (h1 ++ h2) j =
  if (j <? count_creates h1)%nat then handle_name h1 j else handle_name h2 (j - count_creates h1).
Proof.
  revert j; induction h1 as [|o h1 IH]; intros j; cbn [app].
  - cbn. rewrite Nat.sub_0_r. reflexivity.
  - destruct o; cbn [handle_name count_creates]; try apply IH.
    destruct j as [|j]; [reflexivity|]. rewrite IH.
    change (S j <? S (count_creates h1))%nat with (j <? count_creates h1)%nat.
    reflexivity.
Qed.
Lemma count_creates_app h1 h2 : count_creates (h1 ++ h2) = (count_creates h1 + count_creates h2)%nat.
Proof. induction h1 as [|o h1 IH]; [reflexivity|]. destruct o; cbn; lia. Qed.

Lemma names_set_nth hs h j f f' : names_ok hs h -> nth_error hs j = Some f -> fh_name f' = fh_name f ->
  names_ok (set_nth j f' hs) h.
Proof.
  intros [Hl Hn] Hj Hf. split; [rewrite set_nth_length; exact Hl|].
  intros i. rewrite <- Hn. destruct (Nat.eq_dec j i) as [->|Hne].
  - rewrite nth_error_set_nth by (apply nth_error_Some; congruence). rewrite Hj. cbn. congruence.
  - rewrite nth_error_set_nth_ne by assumption. reflexivity.
Qed.

(** invariant: every handle's file exists *)
Definition fs_inv (d : fsdir) (h : list dop) : Prop :=
  names_ok (fs_handles d) h /\
  forall j f, nth_error (fs_handles d) j = Some f -> exists b, fs_files d (fh_name f) = Some b.

Lemma fset_eq m n v : fset m n v n = Some v.
Proof. unfold fset. rewrite String.eqb_refl. reflexivity. Qed.
Lemma fset_ne m n v x : x <> n -> fset m n v x = m x.
Proof. intros H. unfold fset. apply String.eqb_neq in H. rewrite H. reflexivity. Qed.
Lemma fset_some m n v x b : m x = Some b -> exists b', fset m n v x = Some b'.
Proof. intros H. unfold fset. destruct (String.eqb x n); eauto. Qed.

Lemma names_noncreate hs h o : names_ok hs h -> (forall n, o <> OCreate n) -> names_ok hs (h ++ [o]).
Proof.
  intros [Hl Hn] Ho. split.
  - rewrite count_creates_app. destruct o; cbn; try lia. destruct (Ho n eq_refl).
  - intros j. rewrite Hn, handle_name_app.
    destruct (Nat.ltb_spec j (count_creates h)); [reflexivity|].
    rewrite <- Hn, (proj2 (nth_error_None hs j)) by lia.
    destruct o; try reflexivity. destruct (Ho n eq_refl).
Qed.

Lemma fs_flush_inv d h j k c : fs_inv d h -> fs_inv (fs_flush d j k c) h.
Proof.
  intros [Hn Hf]. unfold fs_flush.
  destruct (nth_error (fs_handles d) j) as [f|] eqn:Ej; [|split; assumption].
  destruct (fh_open f); [|split; assumption].
  destruct (Hf j f Ej) as [b Eb]. rewrite Eb. split; cbn [fs_handles fs_files].
  - apply names_set_nth with (f := f); auto.
  - intros i g Hg.
    assert (exists g0, nth_error (fs_handles d) i = Some g0 /\ fh_name g0 = fh_name g) as (g0 & Hg0 & En).
    { destruct (Nat.eq_dec j i) as [->|Hne].
      - rewrite nth_error_set_nth in Hg by (apply nth_error_Some; congruence).
        injection Hg as <-. exists f. auto.
      - rewrite nth_error_set_nth_ne in Hg by assumption. eauto. }
    destruct (Hf i g0 Hg0) as [b0 Eb0]. rewrite <- En.
    destruct (firstn k (fh_pend f)); [eauto|]. eapply fset_some; eauto.
Qed.

Lemma fs_step_inv d h o : fs_inv d h -> fs_inv (fs_step d o) (h ++ [o]).
Proof.
  intros Hinv. pose proof Hinv as [[Hl Hn] Hf]. destruct o as [n|j p|j k|j]; cbn [fs_step].
  - split; cbn [fs_handles fs_files].
    + split; [rewrite app_length, count_creates_app; cbn; lia|].
      intros j. rewrite handle_name_app.
      destruct (Nat.ltb_spec j (count_creates h)).
      * rewrite nth_error_app1 by lia. apply Hn.
      * rewrite nth_error_app2 by lia. rewrite Hl.
        destruct (j - count_creates h)%nat as [|i]; cbn; [reflexivity|].
        destruct i; reflexivity.
    + intros j f Hj. destruct (Nat.lt_ge_cases j (length (fs_handles d))).
      * rewrite nth_error_app1 in Hj by assumption. destruct (Hf j f Hj) as [b Eb].
        eapply fset_some; eauto.
      * rewrite nth_error_app2 in Hj by assumption.
        destruct (j - length (fs_handles d))%nat as [|i]; cbn in Hj.
        -- injection Hj as <-. cbn. rewrite fset_eq. eauto.
        -- destruct i; discriminate.
  - destruct (nth_error (fs_handles d) j) as [f|] eqn:Ej.
    + split; cbn [fs_handles fs_files].
      * apply names_noncreate; [|intros; discriminate]. apply names_set_nth with (f := f); auto. split; auto.
      * intros i g Hg. destruct (Nat.eq_dec j i) as [->|Hne].
        -- rewrite nth_error_set_nth in Hg by (apply nth_error_Some; congruence).
           injection Hg as <-. cbn. eauto.
        -- rewrite nth_error_set_nth_ne in Hg by assumption. eauto.
    + split; [apply names_noncreate; [split; auto|intros; discriminate]|assumption].
  - apply (fs_flush_inv d h j k false) in Hinv as [Hn' Hf'].
    split; [apply names_noncreate; [assumption|intros; discriminate]|assumption].
  - destruct (nth_error (fs_handles d) j) as [f|] eqn:Ej.
    + apply (fs_flush_inv d h j (length (fh_pend f)) true) in Hinv as [Hn' Hf'].
      split; [apply names_noncreate; [assumption|intros; discriminate]|assumption].
    + split; [apply names_noncreate; [split; auto|intros; discriminate]|assumption].
Qed.

Lemma fs_run_inv h : fs_inv (fs_run NewFSDirectory h) h.
Proof.
  induction h as [|o h IH] using rev_ind.
  - split; [split; [reflexivity|intros [|j]; reflexivity]|]. intros [|j] f Hj; discriminate.
  - unfold fs_run in *. rewrite fold_left_app. cbn [fold_left]. apply fs_step_inv. exact IH.
Qed.

Definition op_handle (o : dop) : option nat :=
  match o with OCreate _ => None | OWrite j _ => Some j | OFlush j _ => Some j | OClose j => Some j end.

(** an operation on another handle, of a different file, leaves file and handle alone *)
Lemma fs_step_other d o n k :
  o <> OCreate n ->
  (forall j, op_handle o = Some j ->
     j <> k /\ option_map fh_name (nth_error (fs_handles d) j) <> Some n) ->
  fs_files (fs_step d o) n = fs_files d n /\
  ((k < length (fs_handles d))%nat -> nth_error (fs_handles (fs_step d o)) k = nth_error (fs_handles d) k).
Proof.
  intros Hc Ho.
  assert (forall j m c, op_handle o = Some j ->
    fs_files (fs_flush d j m c) n = fs_files d n /\
    ((k < length (fs_handles d))%nat -> nth_error (fs_handles (fs_flush d j m c)) k = nth_error (fs_handles d) k)) as Hflush.
  { intros j m c Hj. destruct (Ho j Hj) as [Hjk Hname]. unfold fs_flush.
    destruct (nth_error (fs_handles d) j) as [f|] eqn:Ej; [|auto].
    destruct (fh_open f); [|auto]. destruct (fs_files d (fh_name f)); [|auto].
    cbn [fs_files fs_handles]. split.
    - destruct (firstn m (fh_pend f)); [reflexivity|]. apply fset_ne. cbn in Hname. congruence.
    - intros _. apply nth_error_set_nth_ne. exact Hjk. }
  destruct o as [n'|j p|j m|j]; cbn [fs_step op_handle] in *.
  - cbn [fs_files fs_handles]. split; [apply fset_ne; congruence|].
    intros Hk. apply nth_error_app1. exact Hk.
  - destruct (Ho j eq_refl) as [Hjk _].
    destruct (nth_error (fs_handles d) j) as [f|]; [|auto]. cbn [fs_files fs_handles].
    split; [reflexivity|]. intros _. apply nth_error_set_nth_ne. exact Hjk.
  - apply Hflush. reflexivity.
  - destruct (nth_error (fs_handles d) j) as [f|] eqn:Ej; [|auto]. apply Hflush. reflexivity.
Qed.

(** while handle [k] of file [n] is open: the file holds what was flushed, the
    handle the rest *)
Definition writing (d : fsdir) (n : string) (k : nat) (w : bytes) : Prop :=
  exists b f, fs_files d n = Some b /\ nth_error (fs_handles d) k = Some f /\
    fh_name f = n /\ fh_open f = true /\ fh_off f = length b /\ b ++ fh_pend f = w.

Lemma writes_to_app k h1 h2 : writes_to k (h1 ++ h2) = writes_to k h1 ++ writes_to k h2.
Proof.
  induction h1 as [|o h1 IH]; [reflexivity|]. destruct o; cbn; try apply IH.
  destruct (Nat.eqb h k); rewrite ?IH, ?app_assoc; reflexivity.
Qed.

Definition others_quiet (full : list dop) (n : string) (k : nat) (h : list dop) : Prop :=
  forall j, j <> k -> handle_name full j = Some n -> no_use j h.

Lemma in_use_not j o h : op_handle o = Some j -> In o h -> ~ no_use j h.
Proof.
  intros Hj Hin (H1 & H2 & H3). destruct o; cbn in Hj; try discriminate; injection Hj as ->.
  - eapply H1; eauto.
  - eapply H2; eauto.
  - auto.
Qed.

Lemma handle_name_prefix h1 h2 j : (j < count_creates h1)%nat -> handle_name (h1 ++ h2) j = handle_name h1 j.
Proof. intros H. rewrite handle_name_app. apply Nat.ltb_lt in H. rewrite H. reflexivity. Qed.

Lemma quiet_step h1 o h2 n k d :
  fs_inv d h1 -> others_quiet (h1 ++ o :: h2) n k (o :: h2) ->
  forall j, op_handle o = Some j -> j <> k -> option_map fh_name (nth_error (fs_handles d) j) <> Some n.
Proof.
  intros [[Hl Hn] _] Hq j Hj Hjk E. rewrite Hn in E.
  assert (j < count_creates h1)%nat as Hlt.
  { rewrite <- Hl. apply nth_error_Some. intros E0. rewrite <- Hn, E0 in E. discriminate. }
  apply (in_use_not j o (o :: h2) Hj (or_introl eq_refl)).
  apply Hq; [exact Hjk|]. rewrite handle_name_prefix by exact Hlt. exact E.
Qed.

Lemma fs_writing_run h2 : forall h1 d n k w h3, fs_inv d h1 -> (k < count_creates h1)%nat ->
  writing d n k w ->
  no_create n h2 -> ~ In (OClose k) h2 -> others_quiet (h1 ++ h2 ++ h3) n k (h2 ++ h3) ->
  writing (fs_run d h2) n k (w ++ writes_to k h2).
Proof.
  induction h2 as [|o h2 IH]; intros h1 d n k w h3 Hinv Hk Hw Hc Hcl Hq.
  - cbn. rewrite app_nil_r. exact Hw.
  - unfold fs_run. cbn [fold_left]. fold (fs_run (fs_step d o) h2).
    assert (writing (fs_step d o) n k (w ++ writes_to k [o])) as Hw'.
    { destruct Hw as (b & f & Hb & Hf & Hfn & Hfo & Hoff & Hpend).
      destruct (op_handle o) as [j|] eqn:Ej; [destruct (Nat.eq_dec j k) as [->|Hjk]|].
      - destruct o as [n'|j p|j m|j]; cbn in Ej; try discriminate; injection Ej as ->;
          cbn [fs_step writes_to].
        + rewrite Hf, Nat.eqb_refl. exists b, (mkFh (fh_name f) (fh_off f) (fh_pend f ++ p) (fh_open f)).
          cbn [fs_files fs_handles]. split; [exact Hb|].
          split; [apply nth_error_set_nth; apply nth_error_Some; congruence|].
          cbn. rewrite app_assoc, Hpend, app_nil_r. auto.
        + unfold fs_flush. rewrite Hf, Hfo, Hfn, Hb, app_nil_r.
          exists (b ++ firstn m (fh_pend f)),
                 (mkFh n (fh_off f + length (firstn m (fh_pend f))) (skipn m (fh_pend f)) true).
          cbn [fs_files fs_handles negb].
          split.
          { destruct (firstn m (fh_pend f)) eqn:Em; [rewrite app_nil_r; exact Hb|].
            rewrite fset_eq, Hoff, pwrite_end. reflexivity. }
          split; [apply nth_error_set_nth; apply nth_error_Some; congruence|].
          cbn. rewrite app_length, <- app_assoc, firstn_skipn. repeat split; auto.
        + exfalso. apply Hcl. left; reflexivity.
      - assert (o <> OCreate n) as Hoc by (intros ->; discriminate).
        destruct (fs_step_other d o n k Hoc) as [E1 E2].
        { intros j' Hj'. rewrite Ej in Hj'. injection Hj' as <-. split; [exact Hjk|].
          eapply quiet_step; eauto. }
        assert (writes_to k [o] = []) as ->.
        { destruct o; cbn in Ej |- *; try discriminate; try reflexivity.
          injection Ej as ->. apply Nat.eqb_neq in Hjk. rewrite Hjk. reflexivity. }
        rewrite app_nil_r. exists b, f. rewrite E1, E2; [auto 10|].
        apply nth_error_Some; congruence.
      - assert (o <> OCreate n) as Hoc by (intros ->; apply Hc; left; reflexivity).
        destruct (fs_step_other d o n k Hoc) as [E1 E2].
        { intros j' Hj'. congruence. }
        assert (writes_to k [o] = []) as -> by (destruct o; cbn in Ej |- *; try discriminate; reflexivity).
        rewrite app_nil_r. exists b, f. rewrite E1, E2; [auto 10|].
        apply nth_error_Some; congruence. }
    replace (w ++ writes_to k (o :: h2)) with ((w ++ writes_to k [o]) ++ writes_to k h2).
    2:{ rewrite <- app_assoc, <- writes_to_app. reflexivity. }
    apply IH with (h1 := h1 ++ [o]) (h3 := h3).
    + apply fs_step_inv; exact Hinv.
    + rewrite count_creates_app. lia.
    + exact Hw'.
    + intros Hin. apply Hc. right; exact Hin.
    + intros Hin. apply Hcl. right; exact Hin.
    + intros j Hj Hname. rewrite <- app_assoc in Hname. cbn [app] in Hname.
      specialize (Hq j Hj Hname). destruct Hq as (Q1 & Q2 & Q3).
      split; [|split]; intros; intros Hin.
      * eapply Q1. right; exact Hin.
      * eapply Q2. right; exact Hin.
      * apply Q3. right; exact Hin.
Qed.

(** after [k] is closed, nothing touches file [n] *)
Lemma fs_closed_run h3 : forall h1 d n k v, fs_inv d h1 ->
  fs_files d n = Some v -> (exists f, nth_error (fs_handles d) k = Some f /\ fh_open f = false) ->
  no_create n h3 -> others_quiet (h1 ++ h3) n k h3 ->
  fs_files (fs_run d h3) n = Some v.
Proof.
  induction h3 as [|o h3 IH]; intros h1 d n k v Hinv Hv (f & Hf & Hfo) Hc Hq; [exact Hv|].
  unfold fs_run. cbn [fold_left]. fold (fs_run (fs_step d o) h3).
  assert (fs_files (fs_step d o) n = Some v /\
          exists f, nth_error (fs_handles (fs_step d o)) k = Some f /\ fh_open f = false) as [Hv' Hf'].
  { assert (o <> OCreate n) as Hoc by (intros ->; apply Hc; left; reflexivity).
    destruct (op_handle o) as [j|] eqn:Ej; [destruct (Nat.eq_dec j k) as [->|Hjk]|].
    - destruct o as [n'|j p|j m|j]; cbn in Ej; try discriminate; injection Ej as ->; cbn [fs_step].
      + rewrite Hf. cbn [fs_files fs_handles]. split; [exact Hv|].
        eexists. split; [apply nth_error_set_nth; apply nth_error_Some; congruence|exact Hfo].
      + unfold fs_flush. rewrite Hf, Hfo. eauto.
      + rewrite Hf. unfold fs_flush. rewrite Hf, Hfo. eauto.
    - destruct (fs_step_other d o n k Hoc) as [E1 E2].
      { intros j' Hj'. rewrite Ej in Hj'. injection Hj' as <-. split; [exact Hjk|].
        eapply quiet_step; eauto. }
      rewrite E1, E2 by (apply nth_error_Some; congruence). eauto.
    - destruct (fs_step_other d o n k Hoc) as [E1 E2]; [intros; congruence|].
      rewrite E1, E2 by (apply nth_error_Some; congruence). eauto. }
  apply IH with (h1 := h1 ++ [o]) (k := k); auto.
  - apply fs_step_inv; exact Hinv.
  - intros Hin. apply Hc. right; exact Hin.
  - intros j Hj Hname. rewrite <- app_assoc in Hname. cbn [app] in Hname.
    specialize (Hq j Hj Hname). destruct Hq as (Q1 & Q2 & Q3).
    split; [|split]; intros; intros Hin.
    + eapply Q1. right; exact Hin.
    + eapply Q2. right; exact Hin.
    + apply Q3. right; exact Hin.
Qed.

Lemma fs_recreate h1 h2 h3 n k :
  k = count_creates h1 ->
  no_create n (h2 ++ h3) -> ~ In (OClose k) h2 ->
  (forall j, j <> k -> handle_name (h1 ++ OCreate n :: h2 ++ OClose k :: h3) j = Some n ->
     no_use j (h2 ++ h3)) ->
  fs_open (fs_run NewFSDirectory (h1 ++ OCreate n :: h2 ++ OClose k :: h3)) n = Some (writes_to k h2).
Proof.
  intros -> Hc Hcl Hq. set (k := count_creates h1) in *.
  unfold fs_open, fs_run. rewrite fold_left_app. cbn [fold_left]. rewrite fold_left_app. cbn [fold_left].
  fold (fs_run NewFSDirectory h1). set (d1 := fs_run NewFSDirectory h1).
  pose proof (fs_run_inv h1) as Hi1. fold d1 in Hi1.
  pose proof (fs_step_inv d1 h1 (OCreate n) Hi1) as Hi2.
  set (d2 := fs_step d1 (OCreate n)) in *.
  fold (fs_run d2 h2). 
  assert (others_quiet ((h1 ++ [OCreate n]) ++ h2 ++ OClose k :: h3) n k (h2 ++ h3)) as Hq'.
  { intros j Hj Hname. rewrite <- app_assoc in Hname. cbn [app] in Hname. apply Hq; assumption. }
  assert (forall j, j <> k -> no_use j (h2 ++ h3) -> no_use j (h2 ++ OClose k :: h3)) as Huse.
  { intros j Hj (Q1 & Q2 & Q3). split; [|split]; intros; rewrite in_app_iff; cbn.
    - intros [H|[H|H]]; [|congruence|]; eapply Q1; apply in_app_iff; eauto.
    - intros [H|[H|H]]; [|congruence|]; eapply Q2; apply in_app_iff; eauto.
    - intros [H|[H|H]]; [|congruence|]; apply Q3; apply in_app_iff; eauto. }
  assert (writing d2 n k []) as Hw.
  { exists [], (mkFh n 0 [] true). unfold d2. cbn. rewrite fset_eq.
    split; [reflexivity|]. split; [|auto].
    destruct Hi1 as [[Hl _] _]. rewrite nth_error_app2 by lia. rewrite Hl. fold k.
    rewrite Nat.sub_diag. reflexivity. }
  assert (no_create n h2) as Hc2 by (intros H; apply Hc; apply in_app_iff; auto).
  assert (no_create n h3) as Hc3 by (intros H; apply Hc; apply in_app_iff; auto).
  pose proof (fs_writing_run h2 (h1 ++ [OCreate n]) d2 n k [] (OClose k :: h3) Hi2) as Hrun.
  cbn [app] in Hrun. destruct Hrun as (b & f & Hb & Hf & Hfn & Hfo & Hoff & Hpend); auto.
  { rewrite count_creates_app. fold k. cbn. lia. }
  { intros j Hj Hname. apply Huse; [exact Hj|]. apply Hq'; auto. }
  set (d3 := fs_run d2 h2) in *.
  assert (fs_inv d3 ((h1 ++ [OCreate n]) ++ h2)) as Hi3.
  { pose proof (fs_run_inv ((h1 ++ [OCreate n]) ++ h2)) as Hi.
    unfold fs_run in Hi. rewrite !fold_left_app in Hi. exact Hi. }
  pose proof (fs_step_inv d3 _ (OClose k) Hi3) as Hi4.
  assert (fs_files (fs_step d3 (OClose k)) n = Some (writes_to k h2) /\
          exists f', nth_error (fs_handles (fs_step d3 (OClose k))) k = Some f' /\ fh_open f' = false)
    as [Hv Hcf].
  { cbn [fs_step]. rewrite Hf. unfold fs_flush. rewrite Hf, Hfo, Hfn, Hb, firstn_all.
    cbn [fs_files fs_handles negb]. split.
    - destruct (fh_pend f) eqn:Ep; [rewrite app_nil_r in Hpend; congruence|].
      rewrite fset_eq, Hoff, pwrite_end. congruence.
    - eexists. split; [apply nth_error_set_nth; apply nth_error_Some; congruence|reflexivity]. }
  apply (fs_closed_run h3 (((h1 ++ [OCreate n]) ++ h2) ++ [OClose k]) (fs_step d3 (OClose k)) n k);
    auto.
  intros j Hj Hname.
  assert (no_use j (h2 ++ h3)) as (Q1 & Q2 & Q3).
  { apply Hq; auto. rewrite <- !app_assoc in Hname. exact Hname. }
  split; [|split]; intros; intros Hin.
  - eapply Q1; apply in_app_iff; eauto.
  - eapply Q2; apply in_app_iff; eauto.
  - apply Q3; apply in_app_iff; eauto.
Qed.

(** RAM directory: a file never loses bytes *)
Lemma ram_fresh h1 h2 n k :
  k = count_creates h1 -> no_create n h1 -> no_create n h2 ->
  ram_open (ram_run NewRAMDirectory (h1 ++ OCreate n :: h2)) n = Some (writes_to k h2).
Proof.
  intros -> Hc1 Hc2.
  assert (forall h, length (rd_handles (ram_run NewRAMDirectory h)) = count_creates h /\
                    forall j, nth_error (rd_handles (ram_run NewRAMDirectory h)) j = handle_name h j) as Hnames.
  { induction h as [|o h IH] using rev_ind; [split; [reflexivity|intros [|j]; reflexivity]|].
    unfold ram_run in *. rewrite fold_left_app. cbn [fold_left].
    set (d := fold_left ram_step h NewRAMDirectory) in *. destruct IH as [Hl Hn].
    assert (forall o', (forall m, o' <> OCreate m) -> rd_handles (ram_step d o') = rd_handles d) as Hsame.
    { intros [m|j p|j q|j] Ho'; cbn; try reflexivity; [destruct (Ho' m eq_refl)|].
      destruct (nth_error (rd_handles d) j); [|reflexivity]. destruct (rd_files d s); reflexivity. }
    assert (forall o', (forall m, o' <> OCreate m) ->
       length (rd_handles (ram_step d o')) = count_creates (h ++ [o']) /\
       forall j, nth_error (rd_handles (ram_step d o')) j = handle_name (h ++ [o']) j) as Hsame2.
    { intros o' Ho'. rewrite Hsame by exact Ho'. split.
      - rewrite count_creates_app. destruct o'; cbn; try lia. destruct (Ho' s eq_refl) || destruct (Ho' n0 eq_refl).
      - intros j. rewrite Hn, handle_name_app.
        destruct (Nat.ltb_spec j (count_creates h)); [reflexivity|].
        rewrite <- Hn, (proj2 (nth_error_None _ j)) by lia. destruct o'; try reflexivity. destruct (Ho' n0 eq_refl). }
    destruct o as [m|j p|j q|j]; try (apply Hsame2; intros; discriminate).
    cbn [ram_step rd_handles]. split; [rewrite app_length, count_creates_app; cbn; lia|].
    intros j. rewrite handle_name_app. destruct (Nat.ltb_spec j (count_creates h)).
    + rewrite nth_error_app1 by lia. apply Hn.
    + rewrite nth_error_app2 by lia. rewrite Hl.
      destruct (j - count_creates h)%nat as [|i]; cbn; [reflexivity|]. destruct i; reflexivity. }
  assert (forall h, no_create n h -> rd_files (ram_run NewRAMDirectory h) n = None) as Hnone.
  { induction h as [|o h IH] using rev_ind; [reflexivity|]. intros Hc.
    assert (no_create n h) as Hc' by (intros H; apply Hc; apply in_app_iff; auto).
    specialize (IH Hc'). destruct (Hnames h) as [Hl Hn].
    unfold ram_run in *. rewrite fold_left_app. cbn [fold_left].
    set (d := fold_left ram_step h NewRAMDirectory) in *.
    destruct o as [m|j p|j q|j]; cbn; auto.
    - assert (n <> m) by (intros ->; apply Hc; apply in_app_iff; right; left; reflexivity).
      destruct (rd_files d m); [exact IH|]. rewrite fset_ne by assumption. exact IH.
    - destruct (nth_error (rd_handles d) j) as [m|] eqn:Ej; [|exact IH].
      destruct (rd_files d m) eqn:Em; [|exact IH]. cbn.
      rewrite fset_ne; [exact IH|]. intros <-. congruence. }
  set (k := count_creates h1).
  induction h2 as [|o h2 IH] using rev_ind.
  - unfold ram_open, ram_run. rewrite fold_left_app. cbn [fold_left ram_step].
    fold (ram_run NewRAMDirectory h1). rewrite Hnone by exact Hc1. cbn. apply fset_eq.
  - assert (no_create n h2) as Hc' by (intros H; apply Hc2; apply in_app_iff; auto).
    specialize (IH Hc').
    destruct (Hnames (h1 ++ OCreate n :: h2)) as [Hl Hn].
    rewrite app_comm_cons, app_assoc. unfold ram_open, ram_run in *. rewrite fold_left_app. cbn [fold_left].
    set (d := fold_left ram_step (h1 ++ OCreate n :: h2) NewRAMDirectory) in *.
    rewrite writes_to_app. destruct o as [m|j p|j q|j]; cbn [ram_step rd_files writes_to];
      try (rewrite app_nil_r; exact IH).
    + rewrite app_nil_r.
      assert (n <> m) by (intros ->; apply Hc2; apply in_app_iff; right; left; reflexivity).
      destruct (rd_files d m); [exact IH|]. rewrite fset_ne by assumption. exact IH.
    + (* the only handle on [n] is [k] *)
      assert (handle_name (h1 ++ OCreate n :: h2) k = Some n) as Hk.
      { rewrite handle_name_app. unfold k. rewrite Nat.ltb_irrefl, Nat.sub_diag. reflexivity. }
      destruct (Nat.eqb_spec j k) as [->|Hne].
      * rewrite Hn, Hk, IH. cbn. rewrite fset_eq, app_nil_r. reflexivity.
      * rewrite app_nil_r. destruct (nth_error (rd_handles d) j) as [m|] eqn:Ej; [|exact IH].
        destruct (rd_files d m) eqn:Em; [|exact IH]. cbn.
        rewrite fset_ne; [exact IH|]. intros <-.
        rewrite Hn, handle_name_app in Ej. fold k in Ej.
        assert (forall h i, no_create n h -> handle_name h i <> Some n) as Hnc.
        { clear. induction h as [|o h IH]; intros i Hc; [discriminate|].
          assert (no_create n h) by (intros H; apply Hc; right; exact H).
          destruct o as [m| | | ]; cbn; auto. destruct i; [|auto].
          intros E. injection E as ->. apply Hc. left; reflexivity. }
        destruct (Nat.ltb_spec j k).
        -- exact (Hnc _ _ Hc1 Ej).
        -- destruct (j - k)%nat as [|i] eqn:Ei; [lia|]. cbn in Ej. exact (Hnc _ _ Hc' Ej).
Qed.
