(** Statements of C06-C10 proved from the compression lemmas. *)
From Coq Require Import ZifyBool.
From Verif Require Import Base BaseLemmas Store StoreSpec StoreProofs Compression CompressionProofs.
Local Open Scope Z_scope.

Lemma c06 (l : list Z) (pre suf : bytes) :
  Forall is_u32 l ->
  exists w, binEncode l pre = Ret (zlen w, pre ++ w) /\ zlen w = 4 * zlen l /\
   (zlen (pre ++ w ++ suf) < 2 ^ 63 ->
    binDecode (mkIn (pre ++ w ++ suf) (zlen pre)) (length l) =
    (Ret l, mkIn (pre ++ w ++ suf) (zlen pre + zlen w))).
Proof.
  intros H. exists (bin l). split; [apply binEncode_ok|]. split.
  - clear. induction l; [reflexivity|]. unfold bin in *. cbn [map concat]. rewrite zlen_app, IHl, zlen_cons.
    change (zlen (le32 a)) with 4. lia.
  - intros Hl. rewrite binDecode_ok by assumption. rewrite zlen_app. reflexivity.
Qed.

Lemma c07 (l : list Z) (pre suf : bytes) :
  Forall is_u32 l -> Forall is_byte suf ->
  exists w, vbEncode l pre = Ret (zlen w, pre ++ w) /\ zlen l <= zlen w <= 5 * zlen l /\
   (zlen (pre ++ w ++ suf) < 2 ^ 63 ->
    vbDecode (mkIn (pre ++ w ++ suf) (zlen pre)) (length l) =
    (Ret l, mkIn (pre ++ w ++ suf) (zlen pre + zlen w))).
Proof.
  intros H Hs. exists (vb 0 l). split; [apply varIntEncode_ok|]. split; [apply vb_len|].
  intros Hl. unfold vbDecode. rewrite varIntDecode_ok by assumption. rewrite zlen_app. reflexivity.
Qed.

(** cutting a list in blocks *)
Lemma blocks_exist gap : 1 <= gap -> forall n l, (length l <= n)%nat ->
  exists bl, concat bl = l /\ blocks_ok gap bl /\ (length bl <= length l)%nat /\
    (l <> [] -> gap * (zlen bl - 1) < zlen l <= gap * zlen bl).
Proof.
  intros Hg. induction n as [|n IH]; intros l Hl.
  - destruct l; [|cbn in Hl; lia]. exists []. cbn. repeat split; try lia; congruence.
  - destruct l as [|x l]; [exists []; cbn; repeat split; try lia; congruence|].
    destruct (Z.le_gt_cases (zlen (x :: l)) gap) as [Hle|Hgt].
    + exists [x :: l]. cbn [concat blocks_ok length]. rewrite app_nil_r.
      assert (1 <= zlen (x :: l)) by (rewrite zlen_cons; pose proof (zlen_nonneg l); lia).
      replace (zlen [x :: l]) with 1 by reflexivity.
      repeat split; try lia; try (cbn; lia).
    + set (g := Z.to_nat gap).
      destruct (IH (skipn g (x :: l))) as (bl & Hc & Hok & Hlen & Hcnt).
      { rewrite skipn_length. cbn [length] in *. unfold g. lia. }
      assert (skipn g (x :: l) <> []) as Hne.
      { intros E. apply (f_equal (@length Z)) in E. rewrite skipn_length in E. cbn [length] in E.
        unfold zlen, g in *. cbn [length] in *. lia. }
      exists (firstn g (x :: l) :: bl). cbn [concat]. rewrite Hc.
      assert (zlen (firstn g (x :: l)) = gap) as Hfl.
      { unfold zlen in *. rewrite firstn_length. unfold g. lia. }
      split; [apply firstn_skipn|]. split; [|split].
      * cbn [blocks_ok]. split; [|exact Hok].
        destruct bl; [cbn in Hc; congruence|exact Hfl].
      * cbn [length]. rewrite skipn_length in Hlen. cbn [length] in Hlen. unfold g in *.
        unfold zlen in Hgt. cbn [length] in Hgt. lia.
      * intros _. rewrite zlen_cons. specialize (Hcnt Hne).
        assert (zlen (skipn g (x :: l)) = zlen (x :: l) - gap).
        { unfold zlen in *. rewrite skipn_length. unfold g. lia. }
        lia.
Qed.

Lemma sk_headers gap bl : forall prev, 1 <= gap < maxSkippingGap -> blocks_ok gap bl ->
  exists bs : list (Z * bytes),
    sk prev bl = concat (map (fun p => le16 (fst p) ++ snd p) bs) /\ length bs = length bl /\
    forall i h body, nth_error bs i = Some (h, body) ->
      is_u16 h /\ UnpackPos h = (zlen body + 2, Nat.eqb (S i) (length bs)).
Proof.
  induction bl as [|b t IH]; intros prev Hg Hok.
  - exists []. split; [reflexivity|]. split; [reflexivity|]. intros [|i] h body Hi; discriminate.
  - destruct (blocks_ok_cons gap b t ltac:(lia) Hok) as [Hb Ht].
    destruct (IH (hd 0 b) Hg Ht) as (bs & E & El & Hh).
    exists ((header (zlen (vb prev b)) (is_nil t), vb prev b) :: bs).
    cbn [sk map concat fst snd length]. rewrite E, <- app_assoc. split; [reflexivity|].
    split; [lia|].
    intros [|i] h body Hi; cbn [nth_error] in Hi.
    + injection Hi as <- <-.
      pose proof (vb_len b prev).
      destruct (header_small (zlen (vb prev b)) (is_nil t)) as [H1 H2].
      * lia.
      * unfold maxSkippingGap in Hg. change (2 ^ 14 / 5) with 3276 in Hg. lia.
      * split; [exact H1|]. rewrite H2. f_equal. destruct t; cbn [is_nil length] in *.
        -- destruct bs; [reflexivity|discriminate].
        -- destruct bs; [discriminate|reflexivity].
    + destruct (Hh i h body Hi) as [H1 H2]. split; [exact H1|]. rewrite H2. f_equal.
Qed.

Lemma c08 (gap : Z) (l : list Z) (fuel : nat) (pre suf : bytes) :
  SkippingEncoder gap = Ret gap -> 1 <= gap -> Forall is_u32 l -> Forall is_byte suf ->
  (length l < fuel)%nat ->
  (zlen l < gap -> skipEncode fuel gap l pre = Fail ErrGapShouldBeGreater) /\
  (gap <= zlen l -> exists w n,
     skipEncode fuel gap l pre = Ret (zlen w, pre ++ w) /\
     gap * (n - 1) < zlen l <= gap * n /\
     (zlen (pre ++ w ++ suf) < 2 ^ 63 ->
      forall buf, zlen buf = zlen l ->
       skipDecode fuel gap (mkIn (pre ++ w ++ suf) (zlen pre)) buf =
       (Ret (gap * n, l), mkIn (pre ++ w ++ suf) (zlen pre + zlen w)))).
Proof.
  intros Ha Hg Hu Hs Hf. split.
  - intros Hl. unfold skipEncode. replace (zlen l <? gap) with true by lia. reflexivity.
  - intros Hl.
    assert (1 <= gap < maxSkippingGap) as Hg'.
    { unfold SkippingEncoder in Ha. destruct (gap >=? maxSkippingGap) eqn:E; [discriminate|lia]. }
    destruct (blocks_exist gap Hg (length l) l (le_n _)) as (bl & <- & Hok & Hlen & Hcnt).
    exists (sk 0 bl), (zlen bl). split; [apply skipEncode_ok; auto; lia|].
    split; [apply Hcnt; intros E; rewrite E, zlen_nil in Hl; lia|].
    intros Hl63 buf Hb. unfold skipDecode.
    pose proof (skipDecode_loop_ok bl fuel gap pre suf [] buf 0 Hg' Hok ltac:(lia) Hu Hs Hb Hl63) as E.
    rewrite (zlen_app pre) in E. exact E.
Qed.

Lemma c09 (gap : Z) (l : list Z) (fuel : nat) (pre : bytes) :
  SkippingEncoder gap = Ret gap -> 1 <= gap <= zlen l -> (length l < fuel)%nat ->
  exists bs : list (Z * bytes),
    let w := concat (map (fun p => le16 (fst p) ++ snd p) bs) in
    skipEncode fuel gap l pre = Ret (zlen w, pre ++ w) /\
    gap * (zlen bs - 1) < zlen l <= gap * zlen bs /\
    forall i h body, nth_error bs i = Some (h, body) ->
      is_u16 h /\ UnpackPos h = (zlen body + 2, Nat.eqb (S i) (length bs)).
Proof.
  intros Ha [Hg Hl] Hf.
  assert (1 <= gap < maxSkippingGap) as Hg'.
  { unfold SkippingEncoder in Ha. destruct (gap >=? maxSkippingGap) eqn:E; [discriminate|lia]. }
  destruct (blocks_exist gap Hg (length l) l (le_n _)) as (bl & <- & Hok & Hlen & Hcnt).
  destruct (sk_headers gap bl 0 Hg' Hok) as (bs & E & El & Hh).
  exists bs. cbv zeta. rewrite <- E. split; [apply skipEncode_ok; auto; lia|]. split; [|exact Hh].
  unfold zlen at 1 4. rewrite El. apply Hcnt. intros E0. rewrite E0, zlen_nil in Hl. lia.
Qed.

Lemma gap0_diverges fuel : forall l, l <> [] -> forall prev total o,
  skipEncode_loop fuel 0 l 0 prev total o = NoFuel.
Proof.
  induction fuel as [|fuel IH]; intros l Hne prev total o; [reflexivity|].
  cbn [skipEncode_loop]. destruct l as [|x l]; [congruence|].
  assert (0 < zlen (x :: l)) by (rewrite zlen_cons; pose proof (zlen_nonneg l); lia).
  replace (0 <? zlen (x :: l)) with true by lia. cbn [Z.add].
  replace (0 >? zlen (x :: l)) with false by lia.
  replace (0 =? zlen (x :: l)) with false by lia.
  pose proof (slice_app [] [] (x :: l)) as Es. cbn [app] in Es.
  change (zlen (@nil Z)) with 0 in Es. cbn [Z.add] in Es. rewrite Es. cbn [bind varIntEncode].
  pose proof (index_app_0 [] x l) as Ei. cbn [app] in Ei. change (zlen (@nil Z)) with 0 in Ei.
  rewrite Ei. cbn [bind]. unfold WriteUInt16, Write. cbn [bind].
  apply IH; congruence.
Qed.

Lemma c10_refuted : exists gap l, SkippingEncoder gap = Ret gap /\
  forall fuel, skipEncode fuel gap l [] = NoFuel.
Proof.
  exists 0, [1]. split; [reflexivity|]. intros fuel. apply gap0_diverges. discriminate.
Qed.
Lemma c10_negative gap l fuel o : gap < 0 -> SkippingEncoder gap = Ret gap /\ skipEncode fuel gap l o = Panic.
Proof.
  intros H. unfold SkippingEncoder, skipEncode. pose proof (zlen_nonneg l).
  change maxSkippingGap with 3276.
  replace (gap >=? 3276) with false by lia. replace (zlen l <? gap) with false by lia.
  replace (gap * 5 <? 0) with true by lia. split; reflexivity.
Qed.
Lemma c10_count_refuted : exists gap l fuel w r n,
  1 <= gap <= zlen l /\ skipEncode fuel gap l [] = Ret (zlen w, w) /\
  skipDecode fuel gap (NewBytesInput w) (map (fun _ => 0) l) = (Ret (n, l), r) /\ n <> zlen l.
Proof.
  exists 3, [10; 20; 30; 40], 10%nat, [5; 0; 10; 10; 10; 3; 128; 30]. eexists. eexists.
  split; [cbn; lia|]. split; [vm_compute; reflexivity|]. split; [vm_compute; reflexivity|]. vm_compute. discriminate.
Qed.
