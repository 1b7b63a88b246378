(** Lemmas about the compression model. *)
From Coq Require Import ZifyBool.
From Verif Require Import Base BaseLemmas Store StoreSpec StoreProofs Compression.
Local Open Scope Z_scope.
Ltac Zify.zify_post_hook ::= Z.div_mod_to_equations.

(** ** binary *)
Definition bin (l : list Z) : bytes := concat (map le32 l).
Lemma binEncode_ok l : forall o, binEncode l o = Ret (zlen (bin l), o ++ bin l).
Proof.
  induction l as [|v l IH]; intros o; cbn [binEncode].
  - unfold bin. cbn. rewrite app_nil_r. reflexivity.
  - unfold Write. cbn [bind]. rewrite IH. cbn [bind]. unfold bin. cbn [map concat].
    rewrite zlen_app, app_assoc. reflexivity.
Qed.
Lemma binDecode_ok l : forall pre suf, Forall is_u32 l -> zlen (pre ++ bin l ++ suf) < 2 ^ 63 ->
  binDecode (mkIn (pre ++ bin l ++ suf) (zlen pre)) (length l) =
  (Ret l, mkIn (pre ++ bin l ++ suf) (zlen (pre ++ bin l))).
Proof.
  induction l as [|v l IH]; intros pre suf Hf Hl; cbn [binDecode length].
  - unfold bin. cbn. rewrite app_nil_r. reflexivity.
  - inversion Hf; subst. unfold bin in *. cbn [map concat] in *. fold (bin l) in *.
    rewrite <- app_assoc in Hl |- *.
    rewrite read_u32_app by assumption.
    rewrite app_assoc in Hl |- *.
    replace (zlen pre + 4) with (zlen (pre ++ le32 v)) by (rewrite zlen_app; reflexivity).
    rewrite IH by assumption. rewrite <- !app_assoc. reflexivity.
Qed.
Lemma bin_bytes l : Forall is_byte (bin l).
Proof.
  induction l; [constructor|]. unfold bin. cbn [map concat].
  apply Forall_app; split; [apply le32_bytes|exact IHl].
Qed.

(** ** varint *)
Fixpoint vb (prev : Z) (l : list Z) : bytes :=
  match l with [] => [] | v :: t => vbytes (wrap32 (v - prev)) ++ vb v t end.

Lemma wrap_u32 x : is_u32 (wrap32 x).
Proof. apply wrap32_range. Qed.
Lemma vb_bytes l : forall prev, Forall is_byte (vb prev l).
Proof.
  induction l as [|v l IH]; intros prev; cbn [vb]; [constructor|].
  apply Forall_app; split; [apply vbytes_bytes, wrap_u32|apply IH].
Qed.
Lemma vb_len l : forall prev, zlen l <= zlen (vb prev l) <= 5 * zlen l.
Proof.
  induction l as [|v l IH]; intros prev; cbn [vb]; [rewrite !zlen_nil; lia|].
  rewrite zlen_app, zlen_cons. specialize (IH v).
  pose proof (vbytes_len _ (wrap_u32 (v - prev))) as Hv.
  assert (1 <= zlen (vbytes (wrap32 (v - prev))) <= 5) by (unfold zlen; lia). lia.
Qed.
Lemma varIntEncode_ok l : forall o prev,
  varIntEncode l o prev = Ret (zlen (vb prev l), o ++ vb prev l).
Proof.
  induction l as [|v l IH]; intros o prev; cbn [varIntEncode vb].
  - rewrite app_nil_r. reflexivity.
  - rewrite write_var by apply wrap_u32. cbn [bind]. rewrite IH. cbn [bind].
    rewrite zlen_app, app_assoc. reflexivity.
Qed.
Lemma delta_back prev v : is_u32 v -> wrap32 (prev + wrap32 (v - prev)) = v.
Proof.
  intros Hv. rewrite wrap32_add_r. replace (prev + (v - prev)) with v by lia.
  apply wrap32_small. exact Hv.
Qed.
Lemma varIntDecode_ok l : forall pre suf prev, Forall is_u32 l -> Forall is_byte suf ->
  zlen (pre ++ vb prev l ++ suf) < 2 ^ 63 ->
  varIntDecode (mkIn (pre ++ vb prev l ++ suf) (zlen pre)) (length l) prev =
  (Ret l, mkIn (pre ++ vb prev l ++ suf) (zlen (pre ++ vb prev l))).
Proof.
  induction l as [|v l IH]; intros pre suf prev Hf Hs Hl; cbn [varIntDecode length vb].
  - cbn [app]. rewrite app_nil_r. reflexivity.
  - inversion Hf; subst. cbn [vb] in Hl. rewrite <- app_assoc in Hl |- *.
    rewrite read_var_app; [|apply wrap_u32| |exact Hl].
    + rewrite delta_back by assumption.
      rewrite app_assoc in Hl |- *. rewrite <- zlen_app. rewrite IH by assumption.
      rewrite <- !app_assoc. reflexivity.
    + apply Forall_app; split; [apply vb_bytes|exact Hs].
Qed.

(** ** skipping *)
Fixpoint blocks_ok (gap : Z) (bl : list (list Z)) : Prop :=
  match bl with
  | [] => True
  | b :: t => match t with [] => 1 <= zlen b <= gap | _ => zlen b = gap end /\ blocks_ok gap t
  end.
Definition header (n : Z) (last : bool) : Z :=
  if last then Z.lor (n + 2) lastBlockFlag else n + 2.
Definition is_nil {A} (l : list A) : bool := match l with [] => true | _ => false end.
Fixpoint sk (prev : Z) (bl : list (list Z)) : bytes :=
  match bl with
  | [] => []
  | b :: t => le16 (header (zlen (vb prev b)) (is_nil t)) ++ vb prev b ++ sk (hd 0 b) t
  end.

Lemma sk_bytes bl : forall prev, Forall is_byte (sk prev bl).
Proof.
  induction bl as [|b t IH]; intros prev; cbn [sk]; [constructor|].
  apply Forall_app; split; [apply le16_bytes|].
  apply Forall_app; split; [apply vb_bytes|apply IH].
Qed.

Lemma header_small n last : 0 <= n -> n + 2 < 2 ^ 15 ->
  0 <= header n last < 2 ^ 16 /\ UnpackPos (header n last) = (n + 2, last).
Proof.
  intros Hn Hs. unfold header, UnpackPos, lastBlockFlag.
  change (2 ^ 15 - 1) with (Z.ones 15).
  rewrite Z.land_ones by lia. rewrite land_pow2_0 by lia.
  assert (Z.testbit (n + 2) 15 = false) as Hb.
  { rewrite Z.testbit_odd, Z.shiftr_div_pow2 by lia. rewrite Z.div_small by lia. reflexivity. }
  destruct last.
  - replace (Z.lor (n + 2) (2 ^ 15)) with (n + 2 + 2 ^ 15).
    2:{ change (2 ^ 15) with (Z.shiftl 1 15) at 2. rewrite lor_add by lia. lia. }
    split; [lia|].
    replace (Z.testbit (n + 2 + 2 ^ 15) 15) with true.
    + rewrite Z.eqb_refl. f_equal. lia.
    + rewrite Z.testbit_odd, Z.shiftr_div_pow2 by lia.
      replace ((n + 2 + 2 ^ 15) / 2 ^ 15) with 1 by lia. reflexivity.
  - split; [lia|]. rewrite Hb. f_equal. apply Z.mod_small. lia.
Qed.

Lemma blocks_ok_cons gap b t : 1 <= gap -> blocks_ok gap (b :: t) -> 1 <= zlen b <= gap /\ blocks_ok gap t.
Proof. cbn [blocks_ok]. destruct t; intros H1 [H2 H3]; split; auto; lia. Qed.

Lemma blocks_nonempty gap b t : 1 <= gap -> blocks_ok gap (b :: t) -> b <> [].
Proof. intros H1 H2. destruct (blocks_ok_cons _ _ _ H1 H2) as [H _]. intros ->. rewrite zlen_nil in H. lia. Qed.

Lemma concat_pos gap b t : 1 <= gap -> blocks_ok gap (b :: t) -> 0 < zlen (concat (b :: t)).
Proof.
  intros H1 H2. destruct (blocks_ok_cons _ _ _ H1 H2) as [H _].
  cbn [concat]. rewrite zlen_app. pose proof (zlen_nonneg (concat t)). lia.
Qed.

Lemma block_end gap done b t : 1 <= gap -> blocks_ok gap (b :: t) ->
  let l := done ++ concat (b :: t) in
  let j := zlen done + gap in
  (if j >? zlen l then zlen l else j) = zlen done + zlen b /\
  ((if j >? zlen l then zlen l else j) =? zlen l) = is_nil t.
Proof.
  intros Hg Hok l j. unfold l, j. cbn [concat]. rewrite !zlen_app.
  destruct (blocks_ok_cons _ _ _ Hg Hok) as [Hb Ht].
  destruct t as [|b' t].
  - cbn [concat]. rewrite zlen_nil. cbn [blocks_ok] in Hok. destruct (Z.gtb_spec (zlen done + gap) (zlen done + (zlen b + 0))); cbn [is_nil]; lia.
  - pose proof (concat_pos gap b' t Hg Ht). cbn [blocks_ok] in Hok. destruct Hok as [E _].
    destruct (Z.gtb_spec (zlen done + gap) (zlen done + (zlen b + zlen (concat (b' :: t))))); cbn [is_nil]; lia.
Qed.

Lemma skipEncode_loop_ok bl : forall fuel gap done prev total o,
  1 <= gap < maxSkippingGap -> blocks_ok gap bl -> (length bl < fuel)%nat ->
  skipEncode_loop fuel gap (done ++ concat bl) (zlen done) prev total o =
  Ret (total + zlen (sk prev bl), o ++ sk prev bl).
Proof.
  induction bl as [|b t IH]; intros fuel gap done prev total o Hg Hok Hf;
    destruct fuel as [|fuel]; try lia; cbn [skipEncode_loop].
  - cbn [concat sk]. rewrite app_nil_r.
    replace (zlen done <? zlen done) with false by lia.
    rewrite zlen_nil, app_nil_r. f_equal. f_equal. lia.
  - assert (1 <= gap) as Hg1 by lia.
    pose proof (concat_pos gap b t Hg1 Hok) as Hpos.
    replace (zlen done <? zlen (done ++ concat (b :: t))) with true by (rewrite zlen_app; lia).
    destruct (block_end gap done b t Hg1 Hok) as [Ej El]. cbv zeta in Ej, El.
    rewrite El. rewrite Ej. cbn [concat]. rewrite slice_app. cbn [bind].
    rewrite varIntEncode_ok. cbn [bind].
    destruct (blocks_ok_cons _ _ _ Hg1 Hok) as [Hb Ht].
    destruct b as [|x b]; [rewrite zlen_nil in Hb; lia|].
    cbn [app]. rewrite index_app_0. cbn [bind].
    pose proof (vb_len (x :: b) prev) as Hvl.
    set (n := zlen (vb prev (x :: b))) in *.
    assert (n + 2 < 2 ^ 15) as Hsmall.
    { unfold maxSkippingGap in Hg. change (2 ^ 14 / 5) with 3276 in Hg. lia. }
    fold (header n (is_nil t)).
    destruct (header_small n (is_nil t)) as [Hh _]; [lia|exact Hsmall|].
    rewrite wrap16_small by lia.
    unfold WriteUInt16, Write. cbn [bind].
    destruct t as [|b' t'].
    + cbn [concat is_nil]. rewrite app_nil_r.
      destruct fuel as [|fuel]; [cbn [length] in Hf; lia|].
      cbn [skipEncode_loop].
      replace (zlen done + gap <? zlen (done ++ x :: b)) with false by (rewrite zlen_app; lia).
      cbn [sk is_nil]. fold n.
      rewrite app_nil_r. rewrite zlen_app. fold n. rewrite <- app_assoc.
      f_equal. f_equal. change (zlen (le16 _)) with 2. lia.
    + assert (zlen (x :: b) = gap) as Eb by (cbn [blocks_ok] in Hok; apply Hok).
      specialize (IH fuel gap (done ++ x :: b) x (total + (n + 2))
                     ((o ++ le16 (header n (is_nil (b' :: t')))) ++ vb prev (x :: b)) Hg Ht).
      cbn [length] in Hf, IH. specialize (IH ltac:(lia)).
      rewrite zlen_app, Eb in IH.
      replace (done ++ x :: b ++ concat (b' :: t')) with ((done ++ x :: b) ++ concat (b' :: t'))
        by (rewrite <- app_assoc; reflexivity).
      cbn [concat] in IH |- *. rewrite IH.
      cbn [sk hd is_nil]. fold n. rewrite !zlen_app. fold n.
      change (zlen (le16 (header n false))) with 2. rewrite <- !app_assoc.
      f_equal. f_equal. lia.
Qed.

Lemma skipEncode_ok fuel gap bl o : 1 <= gap < maxSkippingGap -> blocks_ok gap bl ->
  gap <= zlen (concat bl) -> (length bl < fuel)%nat ->
  skipEncode fuel gap (concat bl) o = Ret (zlen (sk 0 bl), o ++ sk 0 bl).
Proof.
  intros Hg Hok Hl Hf. unfold skipEncode.
  replace (zlen (concat bl) <? gap) with false by lia.
  replace (gap * 5 <? 0) with false by lia.
  pose proof (skipEncode_loop_ok bl fuel gap [] 0 0 o Hg Hok Hf) as E. exact E.
Qed.

Lemma skipDecode_loop_ok bl : forall fuel gap pre suf done buf prev,
  1 <= gap < maxSkippingGap -> blocks_ok gap bl -> (length bl < fuel)%nat ->
  Forall is_u32 (concat bl) -> Forall is_byte suf -> zlen buf = zlen (concat bl) ->
  zlen (pre ++ sk prev bl ++ suf) < 2 ^ 63 ->
  skipDecode_loop fuel gap (mkIn (pre ++ sk prev bl ++ suf) (zlen pre)) (done ++ buf) (zlen done) prev =
  (Ret (zlen done + gap * zlen bl, done ++ concat bl),
   mkIn (pre ++ sk prev bl ++ suf) (zlen (pre ++ sk prev bl))).
Proof.
  induction bl as [|b t IH]; intros fuel gap pre suf done buf prev Hg Hok Hf Hu Hs Hbuf Hl;
    destruct fuel as [|fuel]; try lia; cbn [skipDecode_loop].
  - cbn [concat] in *. rewrite zlen_nil in Hbuf.
    assert (buf = []) as -> by (destruct buf; [reflexivity|rewrite zlen_cons in Hbuf; pose proof (zlen_nonneg buf); lia]).
    rewrite !app_nil_r. replace (zlen done <? zlen done) with false by lia.
    cbn [sk app]. rewrite ?app_nil_r, ?zlen_nil. f_equal. f_equal. f_equal. lia.
  - assert (1 <= gap) as Hg1 by lia.
    pose proof (concat_pos gap b t Hg1 Hok) as Hpos.
    replace (zlen done <? zlen (done ++ buf)) with true by (rewrite zlen_app; lia).
    cbn [sk] in Hl |- *. set (n := zlen (vb prev b)) in *. rewrite <- !app_assoc in Hl |- *.
    destruct (blocks_ok_cons _ _ _ Hg1 Hok) as [Hb Ht].
    assert (n + 2 < 2 ^ 15) as Hsmall.
    { pose proof (vb_len b prev). fold n in H. unfold maxSkippingGap in Hg. change (2 ^ 14 / 5) with 3276 in Hg. lia. }
    pose proof (zlen_nonneg (vb prev b)) as Hn0. fold n in Hn0.
    destruct (header_small n (is_nil t)) as [Hh _]; [lia|exact Hsmall|].
    rewrite read_u16_app; [|exact Hh|exact Hl].
    assert (zlen (done ++ buf) = zlen (done ++ concat (b :: t))) as Elen by (rewrite !zlen_app; lia).
    destruct (block_end gap done b t Hg1 Hok) as [Ej _]. cbv zeta in Ej. rewrite Elen, Ej.
    (* split the buffer *)
    assert (exists p q, buf = p ++ q /\ zlen p = zlen b /\ zlen q = zlen (concat t)) as (p & q & -> & Ep & Eq).
    { cbn [concat] in Hbuf. rewrite zlen_app in Hbuf.
      exists (firstn (length b) buf), (skipn (length b) buf).
      split; [symmetry; apply firstn_skipn|].
      pose proof (zlen_nonneg (concat t)).
      unfold zlen in *. rewrite firstn_length, skipn_length. lia. }
    rewrite <- Ep at 1. rewrite slice_app.
    assert (length p = length b) as Epl by (unfold zlen in Ep; lia). rewrite Epl.
    rewrite (app_assoc pre) in Hl |- *.
    replace (zlen pre + 2) with (zlen (pre ++ le16 (header n (is_nil t)))) by (rewrite zlen_app; reflexivity).
    cbn [concat] in Hu. apply Forall_app in Hu as [Hub Hut].
    rewrite varIntDecode_ok; [|exact Hub| |exact Hl].
    2:{ apply Forall_app; split; [apply sk_bytes|exact Hs]. }
    assert (firstn (Z.to_nat (zlen done)) (done ++ p ++ q) = done) as E1.
    { unfold zlen. rewrite Nat2Z.id, firstn_app, firstn_all, Nat.sub_diag, firstn_O, app_nil_r. reflexivity. }
    assert (skipn (Z.to_nat (zlen done) + length b) (done ++ p ++ q) = q) as E2.
    { unfold zlen. rewrite Nat2Z.id, app_assoc, skipn_app.
      rewrite skipn_all2 by (rewrite app_length; lia).
      rewrite app_length, Epl, Nat.sub_diag. reflexivity. }
    rewrite E1, E2.
    destruct b as [|x b]; [rewrite zlen_nil in Hb; lia|].
    cbn [app]. rewrite index_app_0.
    rewrite (app_assoc _ (vb prev (x :: b))) in Hl |- *.
    destruct t as [|b' t'].
    + cbn [concat] in *. rewrite zlen_nil in Eq.
      assert (q = []) as -> by (destruct q; [reflexivity|rewrite zlen_cons in Eq; pose proof (zlen_nonneg q); lia]).
      destruct fuel as [|fuel]; [cbn [length] in Hf; lia|]. cbn [skipDecode_loop].
      rewrite !app_nil_r.
      replace (zlen done + gap <? zlen (done ++ x :: b)) with false by (rewrite zlen_app; lia).
      replace (gap * zlen [x :: b]) with gap by (rewrite zlen_cons, zlen_nil; lia).
      cbn [sk app]. rewrite ?app_nil_r. rewrite <- ?app_assoc. reflexivity.
    + assert (zlen (x :: b) = gap) as Eb by (cbn [blocks_ok] in Hok; apply Hok).
      specialize (IH fuel gap ((pre ++ le16 (header n false)) ++ vb prev (x :: b)) suf (done ++ x :: b) q x Hg Ht).
      cbn [length] in Hf, IH.
      rewrite <- (app_assoc done) in IH. rewrite (zlen_app done), Eb in IH. cbn [app] in IH.
      cbn [hd is_nil] in Hl |- *. 
      rewrite IH by (try lia; try assumption; cbn [length]; lia).
      cbn [concat]. rewrite <- !app_assoc. replace (gap * zlen ((x :: b) :: b' :: t')) with (gap + gap * zlen (b' :: t')) by (rewrite (zlen_cons (x :: b)); lia).
      rewrite Z.add_assoc. reflexivity.
Qed.
