(** Lemmas about the store model. *)
From Coq Require Import String ZifyBool.
From Verif Require Import Base BaseLemmas Store StoreSpec.
Local Open Scope Z_scope.

Ltac Zify.zify_post_hook ::= Z.div_mod_to_equations.

(** ** reading *)
Lemma leb_value_cons b l : leb_value (b :: l) = b mod 128 + 128 * leb_value l.
Proof. reflexivity. Qed.
Lemma leb_value_nonneg l : 0 <= leb_value l.
Proof. induction l as [|b l IH]; [cbn; lia|]. rewrite leb_value_cons. lia. Qed.

Lemma zgeb_leb a b : (a >=? b) = (b <=? a).
Proof. lia. Qed.

Lemma pow128 k : 0 <= k -> 2 ^ (7 * (1 + k)) = 128 * 2 ^ (7 * k).
Proof. intros. replace (7 * (1 + k)) with (7 + 7 * k) by lia. rewrite Z.pow_add_r by lia. reflexivity. Qed.

Lemma lor_wrap v m s : 0 <= s -> 0 <= v < 2 ^ s -> 0 <= m -> v < 2 ^ 32 ->
  Z.lor v (wrap32 (Z.shiftl m s)) = wrap32 (v + m * 2 ^ s).
Proof.
  intros Hs Hv Hm Hv32. rewrite Z.shiftl_mul_pow2 by lia.
  destruct (Z.lt_ge_cases s 32) as [Hlt|Hge].
  - unfold wrap32.
    assert (2 ^ 32 = 2 ^ (32 - s) * 2 ^ s) as E.
    { rewrite <- Z.pow_add_r by lia. f_equal; lia. }
    assert (0 < 2 ^ s) by (apply Z.pow_pos_nonneg; lia).
    assert (0 < 2 ^ (32 - s)) by (apply Z.pow_pos_nonneg; lia).
    rewrite E at 1. rewrite Zmult_mod_distr_r.
    rewrite <- Z.shiftl_mul_pow2 by lia.
    pose proof (Z.mod_pos_bound m (2 ^ (32 - s)) ltac:(lia)).
    rewrite lor_add by lia.
    pose proof (Z.div_mod m (2 ^ (32 - s)) ltac:(lia)).
    set (q := m / 2 ^ (32 - s)) in *. set (t := m mod 2 ^ (32 - s)) in *.
    apply Z.mod_unique with q; [left|].
    + split; [apply Z.add_nonneg_nonneg; [lia|apply Z.mul_nonneg_nonneg; lia]|].
      rewrite E. nia.
    + rewrite E. nia.
  - assert ((m * 2 ^ s) mod 2 ^ 32 = 0) as E0.
    { replace (2 ^ s) with (2 ^ (s - 32) * 2 ^ 32).
      - rewrite Z.mul_assoc. apply Z.mod_mul. lia.
      - rewrite <- Z.pow_add_r by lia. f_equal; lia. }
    unfold wrap32. rewrite E0, Z.lor_0_r.
    rewrite <- Zplus_mod_idemp_r, E0, Z.add_0_r, Z.mod_small; lia.
Qed.

(** the loop started after [j] bytes with value [v] *)
Lemma slow_ends n : forall k j pre l v, Forall is_byte l -> ends_at l n -> (n < k)%nat ->
  0 <= j -> 0 <= v < 2 ^ (7 * j) -> v < 2 ^ 32 ->
  slow_loop k (pre ++ l) (zlen pre) (7 * j) v =
  Ret (wrap32 (v + leb_value (firstn (S n) l) * 2 ^ (7 * j)), zlen pre + Z.of_nat (S n)).
Proof.
  induction n as [|n IH]; intros k j pre l v Hb [Hlen [Hcont Hend]] Hk Hj Hv Hv32;
    destruct k as [|k]; try lia; destruct l as [|b l]; cbn [List.length] in Hlen; try lia;
    inversion Hb as [|? ? Hb0 Hb']; subst; unfold is_byte in Hb0;
    cbn [slow_loop]; rewrite zgeb_leb, zlen_app, zlen_cons;
    pose proof (zlen_nonneg l);
    replace (zlen pre + (1 + zlen l) <=? zlen pre) with false by lia;
    rewrite index_app_0; cbn [bind]; rewrite land127.
  - cbn [nth] in Hend. replace (b <? 128) with true by lia.
    rewrite lor_wrap; try lia.
    rewrite firstn_cons, firstn_O, leb_value_cons.
    unfold leb_value at 1. cbn [fold_right].
    f_equal. f_equal. f_equal. lia.
  - assert (128 <= b) as Hc by (apply (Hcont 0%nat); lia).
    replace (b <? 128) with false by lia.
    rewrite lor_wrap; try lia.
    replace (pre ++ b :: l) with ((pre ++ [b]) ++ l) by (rewrite <- app_assoc; reflexivity).
    replace (zlen pre + 1) with (zlen (pre ++ [b])) by (rewrite zlen_app; reflexivity).
    replace (7 * j + 7) with (7 * (1 + j)) by lia.
    assert (0 < 2 ^ (7 * j)) as Hp by (apply Z.pow_pos_nonneg; lia).
    assert (0 <= wrap32 (v + b mod 128 * 2 ^ (7 * j)) < 2 ^ (7 * (1 + j))) as Hr.
    { rewrite pow128 by lia. pose proof (wrap32_range (v + b mod 128 * 2 ^ (7 * j))).
      split; [lia|].
      assert (wrap32 (v + b mod 128 * 2 ^ (7 * j)) <= v + b mod 128 * 2 ^ (7 * j)).
      { unfold wrap32. apply Z.mod_le; [|lia].
        assert (0 <= b mod 128 * 2 ^ (7 * j)) by (apply Z.mul_nonneg_nonneg; lia). lia. }
      assert (b mod 128 * 2 ^ (7 * j) <= 127 * 2 ^ (7 * j)) by (apply Z.mul_le_mono_nonneg_r; lia).
      lia. }
    rewrite IH; try lia; auto.
    + f_equal. f_equal.
      * rewrite wrap32_add_l. f_equal.
        change (firstn (S (S n)) (b :: l)) with (b :: firstn (S n) l).
        rewrite leb_value_cons, pow128 by lia.
        set (L := leb_value _). set (P := 2 ^ (7 * j)). ring.
      * rewrite zlen_app, zlen_cons, zlen_nil. lia.
    + split; [lia|]. split; [|exact Hend].
      intros i Hi. apply (Hcont (S i)); lia.
    + apply wrap32_range.
Qed.

Lemma slow_trunc k : forall pre l s v, Forall (fun b => 128 <= b) l -> (length l < k)%nat ->
  slow_loop k (pre ++ l) (zlen pre) s v = Fail ErrUnexpectedEOF.
Proof.
  induction k as [|k IH]; intros pre l s v H Hk; [lia|].
  cbn [slow_loop]. rewrite zgeb_leb, zlen_app. destruct l as [|b l].
  - rewrite zlen_nil. replace (zlen pre + 0 <=? zlen pre) with true by lia. reflexivity.
  - rewrite zlen_cons. pose proof (zlen_nonneg l).
    replace (zlen pre + (1 + zlen l) <=? zlen pre) with false by lia.
    rewrite index_app_0. cbn [bind]. inversion H; subst.
    replace (b <? 128) with false by lia.
    replace (pre ++ b :: l) with ((pre ++ [b]) ++ l) by (rewrite <- app_assoc; reflexivity).
    replace (zlen pre + 1) with (zlen (pre ++ [b])) by (rewrite zlen_app; reflexivity).
    apply IH; auto. cbn [length] in Hk. lia.
Qed.

Lemma split5 (l : bytes) : (5 <= length l)%nat ->
  exists a b c d e r, l = a :: b :: c :: d :: e :: r.
Proof.
  intros H. destruct l as [|a [|b [|c [|d [|e r]]]]]; cbn in H; try lia.
  exists a, b, c, d, e, r. reflexivity.
Qed.

Lemma fast_eq pre a b c d e r :
  is_byte a -> is_byte b -> is_byte c -> is_byte d -> is_byte e -> 128 <= a ->
  fast_read (pre ++ a :: b :: c :: d :: e :: r) (zlen pre) =
  (if b <? 128 then Ret (wrap32 (leb_value [a; b]), zlen pre + 2) else
   if c <? 128 then Ret (wrap32 (leb_value [a; b; c]), zlen pre + 3) else
   if d <? 128 then Ret (wrap32 (leb_value [a; b; c; d]), zlen pre + 4) else
   if e <? 128 then Ret (wrap32 (leb_value [a; b; c; d; e]), zlen pre + 5) else
   Fail ErrUInt32Overflow).
Proof.
  unfold is_byte. intros Ha Hb Hc Hd He H128. unfold fast_read.
  set (L := a :: b :: c :: d :: e :: r).
  replace (zlen pre + 1 + 1 + 1 + 1) with (zlen pre + 4) by lia.
  replace (zlen pre + 1 + 1 + 1) with (zlen pre + 3) by lia.
  replace (zlen pre + 1 + 1) with (zlen pre + 2) by lia.
  replace (zlen pre) with (zlen pre + 0) at 1 by lia.
  rewrite !index_app_r by lia.
  replace (index L 0) with (@Ret Z a) by (unfold L; reflexivity).
  replace (index L 1) with (@Ret Z b) by (unfold L; symmetry; rewrite (index_nth _ _ 0); [reflexivity|rewrite !zlen_cons; pose proof (zlen_nonneg r); lia]).
  replace (index L 2) with (@Ret Z c) by (unfold L; symmetry; rewrite (index_nth _ _ 0); [reflexivity|rewrite !zlen_cons; pose proof (zlen_nonneg r); lia]).
  replace (index L 3) with (@Ret Z d) by (unfold L; symmetry; rewrite (index_nth _ _ 0); [reflexivity|rewrite !zlen_cons; pose proof (zlen_nonneg r); lia]).
  replace (index L 4) with (@Ret Z e) by (unfold L; symmetry; rewrite (index_nth _ _ 0); [reflexivity|rewrite !zlen_cons; pose proof (zlen_nonneg r); lia]).
  cbn [bind]. cbv zeta. rewrite !land128 by lia. rewrite !Z.shiftl_mul_pow2 by lia.
  rewrite !leb_value_cons. change (leb_value []) with 0.
  destruct (Z.ltb_spec b 128).
  { f_equal. f_equal. unfold wrap32; lia. }
  destruct (Z.ltb_spec c 128).
  { f_equal. f_equal. unfold wrap32; lia. }
  destruct (Z.ltb_spec d 128).
  { f_equal. f_equal. unfold wrap32; lia. }
  destruct (Z.ltb_spec e 128).
  { f_equal. f_equal; [|lia].
    repeat (rewrite ?wrap32_add_l, ?wrap32_add_r, ?wrap32_sub_l).
    assert (a mod 128 = a - 128) as Ea by lia.
    assert (b mod 128 = b - 128) as Eb by lia.
    assert (c mod 128 = c - 128) as Ec by lia.
    assert (d mod 128 = d - 128) as Ed by lia.
    assert (e mod 128 = e) as Ee by lia.
    rewrite Ea, Eb, Ec, Ed, Ee.
    repeat (rewrite ?wrap32_add_l, ?wrap32_add_r, ?wrap32_sub_l).
    assert (forall x y, wrap32 (wrap32 x + y) = wrap32 (x + y)) by (intros; apply wrap32_add_l).
    replace (wrap32 (a - 128)) with (a - 128) by (symmetry; apply wrap32_small; lia).
    replace (wrap32 (b * 2 ^ 7)) with (b * 2 ^ 7) by (symmetry; apply wrap32_small; lia).
    replace (wrap32 (c * 2 ^ 14)) with (c * 2 ^ 14) by (symmetry; apply wrap32_small; lia).
    replace (wrap32 (d * 2 ^ 21)) with (d * 2 ^ 21) by (symmetry; apply wrap32_small; lia).
    repeat (rewrite ?wrap32_add_l, ?wrap32_add_r, ?wrap32_sub_l).
    assert (forall x k y, wrap32 (wrap32 x - k + y) = wrap32 (x - k + y)) as Hsa.
    { intros x k y. replace (wrap32 x - k + y) with (wrap32 x + (y - k)) by lia.
      rewrite wrap32_add_l. f_equal. lia. }
    rewrite (Hsa (a - 128 + b * 2 ^ 7)).
    rewrite (Hsa (a - 128 + b * 2 ^ 7 - 128 * 2 ^ 7 + c * 2 ^ 14)).
    rewrite Hsa. f_equal. lia. }
  reflexivity.
Qed.

Definition vres (r : input) : Prop := 0 <= ipos r /\ zlen (ibuf r) < 2 ^ 63.

Lemma read_var_ends pre l n : Forall is_byte l -> zlen (pre ++ l) < 2 ^ 63 ->
  ends_at l n -> (n < 5)%nat ->
  ReadVUInt32 (mkIn (pre ++ l) (zlen pre)) =
  (Ret (leb_value (firstn (S n) l) mod 2 ^ 32), mkIn (pre ++ l) (zlen pre + Z.of_nat (S n))).
Proof.
  intros Hb Hlen He Hn. unfold ReadVUInt32. cbn [ipos ibuf set_pos].
  destruct l as [|b0 l]; [destruct He; cbn in *; lia|].
  rewrite zlen_app, zlen_cons in *. pose proof (zlen_nonneg l). pose proof (zlen_nonneg pre).
  replace (zlen pre + (1 + zlen l) <=? zlen pre) with false by lia.
  rewrite index_app_0.
  inversion Hb as [|? ? Hb0 Hb']; subst. unfold is_byte in Hb0.
  destruct (Z.ltb_spec b0 128) as [Hlt|Hge].
  - assert (n = 0)%nat as ->.
    { destruct n; [reflexivity|]. destruct He as [_ [Hc _]]. specialize (Hc 0%nat ltac:(lia)). cbn in Hc. lia. }
    rewrite wrapi64_small by lia.
    f_equal. f_equal. rewrite firstn_cons, firstn_O, leb_value_cons.
    change (leb_value []) with 0. lia.
  - assert (n <> 0)%nat by (intros ->; destruct He as [_ [_ He]]; cbn in He; lia).
    destruct (Z.ltb_spec (zlen pre + (1 + zlen l) - zlen pre) 5).
    + pose proof (slow_ends n 5 0 pre (b0 :: l) 0 Hb He Hn ltac:(lia) ltac:(lia) ltac:(lia)) as E.
      rewrite Z.mul_0_r in E. rewrite E. f_equal. f_equal. unfold wrap32. f_equal. lia.
    + destruct (split5 (b0 :: l)) as (a & b & c & d & e & r & E).
      { unfold zlen in *. cbn [length]. lia. }
      injection E as -> ->.
      repeat match goal with H : Forall is_byte (_ :: _) |- _ => inversion H; clear H; subst end.
      rewrite fast_eq by assumption.
      destruct He as [_ [Hc He]].
      destruct n as [|[|[|[|[|n]]]]]; try lia; cbn [nth] in He;
        try (assert (128 <= b) by (apply (Hc 1%nat); lia); replace (b <? 128) with false by lia);
        try (assert (128 <= c) by (apply (Hc 2%nat); lia); replace (c <? 128) with false by lia);
        try (assert (128 <= d) by (apply (Hc 3%nat); lia); replace (d <? 128) with false by lia).
      * replace (b <? 128) with true by lia. reflexivity.
      * replace (c <? 128) with true by lia. reflexivity.
      * replace (d <? 128) with true by lia. reflexivity.
      * replace (e <? 128) with true by lia. reflexivity.
Qed.

Lemma read_var_end r : zlen (ibuf r) <= ipos r -> ReadVUInt32 r = (Fail ErrUInt32Overflow, r).
Proof.
  intros H. unfold ReadVUInt32. replace (zlen (ibuf r) <=? ipos r) with true by lia. reflexivity.
Qed.

Lemma read_var_trunc pre l : Forall (fun b => 128 <= b) l -> l <> [] -> (length l < 5)%nat ->
  ReadVUInt32 (mkIn (pre ++ l) (zlen pre)) = (Fail ErrUnexpectedEOF, mkIn (pre ++ l) (zlen pre)).
Proof.
  intros Hb Hne Hl. unfold ReadVUInt32. cbn [ipos ibuf].
  destruct l as [|b0 l]; [congruence|]. rewrite zlen_app.
  assert (0 < zlen (b0 :: l)) by (rewrite zlen_cons; pose proof (zlen_nonneg l); lia).
  replace (zlen pre + zlen (b0 :: l) <=? zlen pre) with false by lia.
  rewrite index_app_0. inversion Hb; subst. replace (b0 <? 128) with false by lia.
  replace (zlen pre + zlen (b0 :: l) - zlen pre <? 5) with true
    by (unfold zlen; lia).
  rewrite slow_trunc by assumption. reflexivity.
Qed.

Lemma read_var_over pre l : Forall is_byte l -> (5 <= length l)%nat ->
  Forall (fun b => 128 <= b) (firstn 5 l) ->
  ReadVUInt32 (mkIn (pre ++ l) (zlen pre)) = (Fail ErrUInt32Overflow, mkIn (pre ++ l) (zlen pre)).
Proof.
  intros Hb Hl Hc. unfold ReadVUInt32. cbn [ipos ibuf].
  destruct (split5 l Hl) as (a & b & c & d & e & r & ->). rewrite zlen_app.
  cbn [firstn] in Hc.
  set (L := a :: b :: c :: d :: e :: r) in *.
  assert (5 <= zlen L) by (unfold zlen; lia).
  replace (zlen pre + zlen L <=? zlen pre) with false by lia.
  unfold L. rewrite index_app_0. fold L.
  unfold L in *. clear L.
  repeat match goal with H : Forall _ (_ :: _) |- _ => inversion H; clear H; subst end.
  replace (a <? 128) with false by lia.
  replace (zlen pre + zlen (a :: b :: c :: d :: e :: r) - zlen pre <? 5) with false by lia.
  rewrite fast_eq by assumption.
  replace (b <? 128) with false by lia. replace (c <? 128) with false by lia.
  replace (d <? 128) with false by lia. replace (e <? 128) with false by lia. reflexivity.
Qed.

(** ** writing *)
Lemma vuint_chunk_spec n : forall v, 0 <= v < 2 ^ (7 * Z.of_nat n) -> (0 < n)%nat ->
  exists c k, vuint_chunk n v = Ret c /\ length c = S k /\ (k < n)%nat /\ ends_at c k /\
    Forall is_byte c /\ leb_value c = v.
Proof.
  induction n as [|n IH]; intros v Hv Hn; [lia|].
  cbn [vuint_chunk]. rewrite Z.gtb_ltb.
  destruct (Z.ltb_spec 127 v) as [Hgt|Hle].
  - destruct n as [|n].
    { change (7 * Z.of_nat 1) with 7 in Hv. lia. }
    rewrite Z.shiftr_div_pow2 by lia. change (2 ^ 7) with 128.
    destruct (IH (v / 128)) as (c & k & E & Hl & Hk & He & Hb & Hv').
    { replace (7 * Z.of_nat (S (S n))) with (7 * (1 + Z.of_nat (S n))) in Hv by lia.
      rewrite pow128 in Hv by lia. split; [lia|].
      apply Z.div_lt_upper_bound; lia. }
    { lia. }
    rewrite E. cbn [bind]. rewrite land127.
    rewrite wrap8_small by lia. rewrite lor128 by lia.
    exists (128 + v mod 128 :: c), (S k).
    split; [reflexivity|]. split; [cbn [length]; lia|]. split; [lia|].
    split; [|split].
    + destruct He as [H1 [H2 H3]]. split; [cbn [length]; lia|]. split; [|exact H3].
      intros [|j] Hj; cbn [nth]; [lia|]. apply H2. lia.
    + constructor; [unfold is_byte; lia|exact Hb].
    + rewrite leb_value_cons, Hv'.
      replace ((128 + v mod 128) mod 128) with (v mod 128) by lia. lia.
  - exists [wrap8 v], 0%nat. rewrite wrap8_small by lia.
    split; [reflexivity|]. split; [reflexivity|]. split; [lia|].
    split; [|split].
    + split; [cbn; lia|]. split; [intros; lia|cbn; lia].
    + repeat constructor; unfold is_byte; lia.
    + rewrite leb_value_cons. change (leb_value []) with 0. lia.
Qed.

(** the bytes the variable-length writer appends *)
Definition vbytes (v : Z) : bytes :=
  match vuint_chunk 5 v with Ret c => c | _ => [] end.

Lemma vbytes_spec v : is_u32 v ->
  vuint_chunk 5 v = Ret (vbytes v) /\
  exists k, length (vbytes v) = S k /\ (k < 5)%nat /\ ends_at (vbytes v) k /\
    Forall is_byte (vbytes v) /\ leb_value (vbytes v) = v.
Proof.
  intros Hv. unfold vbytes.
  destruct (vuint_chunk_spec 5 v) as (c & k & E & H1 & H2 & H3 & H4 & H5).
  - unfold is_u32 in Hv. lia.
  - lia.
  - rewrite E. split; [reflexivity|]. exists k. auto.
Qed.
Lemma vbytes_len v : is_u32 v -> (1 <= length (vbytes v) <= 5)%nat.
Proof. intros H. destruct (vbytes_spec v H) as [_ (k & H1 & H2 & _)]. lia. Qed.
Lemma vbytes_bytes v : is_u32 v -> Forall is_byte (vbytes v).
Proof. intros H. destruct (vbytes_spec v H) as [_ (k & H1 & H2 & _ & H3 & _)]. exact H3. Qed.

Lemma write_var o v : is_u32 v -> WriteVUInt32 o v = Ret (zlen (vbytes v), o ++ vbytes v).
Proof.
  intros Hv. unfold WriteVUInt32. destruct (vbytes_spec v Hv) as [E _]. rewrite E. reflexivity.
Qed.

Lemma ends_at_app l s n : ends_at l n -> ends_at (l ++ s) n.
Proof.
  intros [H1 [H2 H3]]. split; [rewrite app_length; lia|]. split.
  - intros j Hj. rewrite app_nth1 by lia. auto.
  - rewrite app_nth1 by lia. exact H3.
Qed.

(** reading does not look at bytes after the number, so only [l] has to be bytes *)
Lemma read_var_app pre v suf : is_u32 v -> Forall is_byte suf ->
  zlen (pre ++ vbytes v ++ suf) < 2 ^ 63 ->
  ReadVUInt32 (mkIn (pre ++ vbytes v ++ suf) (zlen pre)) =
  (Ret v, mkIn (pre ++ vbytes v ++ suf) (zlen pre + zlen (vbytes v))).
Proof.
  intros Hv Hs Hl. destruct (vbytes_spec v Hv) as [_ (k & H1 & H2 & H3 & H4 & H5)].
  rewrite (read_var_ends pre (vbytes v ++ suf) k).
  - rewrite firstn_app. rewrite <- H1, firstn_all, Nat.sub_diag, firstn_O, app_nil_r, H5.
    unfold is_u32 in Hv. rewrite Z.mod_small by lia. reflexivity.
  - apply Forall_app; auto.
  - exact Hl.
  - apply ends_at_app; exact H3.
  - exact H2.
Qed.

(** fixed width *)
Lemma le16_val v : is_u16 v -> Z.lor (wrap8 v) (Z.shiftl (wrap8 (Z.shiftr v 8)) 8) = v.
Proof.
  unfold is_u16; intros H. rewrite Z.shiftr_div_pow2 by lia.
  rewrite lor_add; [|lia|apply wrap8_range|apply wrap8_range].
  unfold wrap8. lia.
Qed.
Lemma lor4 a b c d : is_byte a -> is_byte b -> is_byte c -> is_byte d ->
  Z.lor a (Z.lor (Z.shiftl b 8) (Z.lor (Z.shiftl c 16) (Z.shiftl d 24))) =
  a + b * 2 ^ 8 + c * 2 ^ 16 + d * 2 ^ 24.
Proof.
  unfold is_byte; intros Ha Hb Hc Hd.
  rewrite Z.lor_assoc, (lor_add a b 8) by lia.
  rewrite Z.lor_assoc, (lor_add _ c 16) by lia.
  rewrite (lor_add _ d 24) by lia. reflexivity.
Qed.
Lemma le32_val v : is_u32 v ->
  Z.lor (wrap8 v) (Z.lor (Z.shiftl (wrap8 (Z.shiftr v 8)) 8)
    (Z.lor (Z.shiftl (wrap8 (Z.shiftr v 16)) 16) (Z.shiftl (wrap8 (Z.shiftr v 24)) 24))) = v.
Proof.
  unfold is_u32; intros H. rewrite lor4 by apply wrap8_range.
  rewrite !Z.shiftr_div_pow2 by lia. unfold wrap8. lia.
Qed.
Lemma le16_bytes v : Forall is_byte (le16 v).
Proof. repeat constructor; apply wrap8_range. Qed.
Lemma le32_bytes v : Forall is_byte (le32 v).
Proof. repeat constructor; apply wrap8_range. Qed.

Lemma read_u16 pre b0 b1 suf : is_byte b0 -> is_byte b1 ->
  zlen (pre ++ b0 :: b1 :: suf) < 2 ^ 63 ->
  ReadUInt16 (mkIn (pre ++ b0 :: b1 :: suf) (zlen pre)) =
  (Ret (b0 + b1 * 256), mkIn (pre ++ b0 :: b1 :: suf) (zlen pre + 2)).
Proof.
  intros H0 H1 Hl. unfold ReadUInt16. cbn [ibuf ipos].
  rewrite slice_app_tail. rewrite zlen_app, !zlen_cons in *.
  pose proof (zlen_nonneg pre); pose proof (zlen_nonneg suf).
  rewrite wrapi64_small by lia.
  replace (zlen pre + 2 >? zlen pre + (1 + (1 + zlen suf))) with false by lia.
  unfold is_byte in *. rewrite lor_add by lia. reflexivity.
Qed.
Lemma read_u32 pre b0 b1 b2 b3 suf : is_byte b0 -> is_byte b1 -> is_byte b2 -> is_byte b3 ->
  zlen (pre ++ b0 :: b1 :: b2 :: b3 :: suf) < 2 ^ 63 ->
  ReadUInt32 (mkIn (pre ++ b0 :: b1 :: b2 :: b3 :: suf) (zlen pre)) =
  (Ret (b0 + b1 * 2 ^ 8 + b2 * 2 ^ 16 + b3 * 2 ^ 24),
   mkIn (pre ++ b0 :: b1 :: b2 :: b3 :: suf) (zlen pre + 4)).
Proof.
  intros H0 H1 H2 H3 Hl. unfold ReadUInt32. cbn [ibuf ipos].
  rewrite slice_app_tail. rewrite zlen_app, !zlen_cons in *.
  pose proof (zlen_nonneg pre); pose proof (zlen_nonneg suf).
  rewrite wrapi64_small by lia.
  match goal with |- context [if ?c then _ else _] => replace c with false by lia end.
  rewrite lor4 by assumption. reflexivity.
Qed.
Lemma read_u16_app pre v suf : is_u16 v -> zlen (pre ++ le16 v ++ suf) < 2 ^ 63 ->
  ReadUInt16 (mkIn (pre ++ le16 v ++ suf) (zlen pre)) =
  (Ret v, mkIn (pre ++ le16 v ++ suf) (zlen pre + 2)).
Proof.
  intros Hv Hl. unfold le16 in *. cbn [app] in *.
  rewrite read_u16; [|apply wrap8_range|apply wrap8_range|exact Hl].
  f_equal. f_equal. unfold is_u16 in Hv. rewrite Z.shiftr_div_pow2 by lia. unfold wrap8. lia.
Qed.
Lemma read_u32_app pre v suf : is_u32 v -> zlen (pre ++ le32 v ++ suf) < 2 ^ 63 ->
  ReadUInt32 (mkIn (pre ++ le32 v ++ suf) (zlen pre)) =
  (Ret v, mkIn (pre ++ le32 v ++ suf) (zlen pre + 4)).
Proof.
  intros Hv Hl. unfold le32 in *. cbn [app] in *.
  rewrite read_u32; try apply wrap8_range; [|exact Hl].
  f_equal. f_equal. unfold is_u32 in Hv. rewrite !Z.shiftr_div_pow2 by lia. unfold wrap8. lia.
Qed.

(** ** typed streams *)
Definition item_bytes (x : item) : bytes :=
  match x with
  | IU16 v => le16 v | IU32 v => le32 v | IVar v => vbytes v | IByte v => [v] | IRaw p => p
  end.
Lemma item_bytes_ok x : item_ok x -> Forall is_byte (item_bytes x).
Proof.
  destruct x; cbn [item_ok item_bytes]; intros H; try apply le16_bytes; try apply le32_bytes.
  - apply vbytes_bytes; exact H.
  - auto.
  - apply H.
Qed.
Lemma put_ok o x : item_ok x -> put o x = Ret (o ++ item_bytes x).
Proof.
  destruct x; cbn [item_ok put item_bytes]; intros H; try reflexivity.
  rewrite write_var by exact H. reflexivity.
Qed.
Lemma put_all_ok l : forall o, Forall item_ok l -> put_all o l = Ret (o ++ concat (map item_bytes l)).
Proof.
  induction l as [|x l IH]; intros o H; cbn [put_all].
  - rewrite app_nil_r; reflexivity.
  - inversion H; subst. rewrite put_ok by assumption. cbn [bind]. rewrite IH by assumption.
    cbn [map concat]. rewrite app_assoc. reflexivity.
Qed.
Lemma get_ok x pre suf : item_ok x -> Forall is_byte suf ->
  zlen (pre ++ item_bytes x ++ suf) < 2 ^ 63 ->
  get (mkIn (pre ++ item_bytes x ++ suf) (zlen pre)) x =
  (Ret x, mkIn (pre ++ item_bytes x ++ suf) (zlen (pre ++ item_bytes x))).
Proof.
  intros Hx Hs Hl. rewrite zlen_app. destruct x; cbn [item_ok get item_bytes] in *.
  - rewrite read_u16_app by assumption. reflexivity.
  - rewrite read_u32_app by assumption. reflexivity.
  - rewrite read_var_app by assumption. reflexivity.
  - unfold ReadByte. cbn [ibuf ipos app] in *. rewrite index_app_0.
    rewrite zlen_app, zlen_cons in *. pose proof (zlen_nonneg pre); pose proof (zlen_nonneg suf).
    replace (zlen pre >=? zlen pre + (1 + zlen suf)) with false by lia.
    rewrite wrapi64_small by lia. reflexivity.
  - unfold Read. cbn [ibuf ipos]. rewrite slice_app_tail. rewrite !zlen_app in *.
    pose proof (zlen_nonneg pre); pose proof (zlen_nonneg suf).
    destruct Hx as [Hne Hb].
    assert (0 < zlen p) by (destruct p; [congruence|]; rewrite zlen_cons; pose proof (zlen_nonneg p); lia).
    replace (zlen pre >=? zlen pre + (zlen p + zlen suf)) with false by lia.
    assert (firstn (Z.to_nat (zlen p)) (p ++ suf) = p) as E.
    { unfold zlen. rewrite Nat2Z.id, firstn_app, firstn_all, Nat.sub_diag, firstn_O, app_nil_r. reflexivity. }
    rewrite E, wrapi64_small by lia. reflexivity.
Qed.
Lemma get_all_ok l : forall pre suf, Forall item_ok l -> Forall is_byte suf ->
  zlen (pre ++ concat (map item_bytes l) ++ suf) < 2 ^ 63 ->
  get_all (mkIn (pre ++ concat (map item_bytes l) ++ suf) (zlen pre)) l =
  (Ret l, mkIn (pre ++ concat (map item_bytes l) ++ suf) (zlen (pre ++ concat (map item_bytes l)))).
Proof.
  induction l as [|x l IH]; intros pre suf H Hs Hl; cbn [get_all map concat].
  - cbn [app]. rewrite app_nil_r. reflexivity.
  - inversion H; subst. cbn [map concat] in Hl. rewrite <- app_assoc in Hl |- *.
    rewrite get_ok; [| assumption | | exact Hl].
    + rewrite app_assoc. rewrite (app_assoc pre) in Hl. rewrite IH by assumption.
      rewrite !app_assoc. reflexivity.
    + apply Forall_app; split; [|exact Hs].
      clear - H3. induction H3 as [|y l Hy _ IH]; [constructor|].
      cbn [map concat]. apply Forall_app; split; [apply item_bytes_ok; exact Hy|exact IH].
Qed.
