(** The skipping posting list refines the cursor. *)
From Coq Require Import ZifyBool.
From Verif Require Import Base BaseLemmas Store StoreSpec StoreProofs Compression CompressionProofs
  P_CompressionLemmas Postings PostingsSpec PostingsDrive PostingsProofs.
Local Open Scope Z_scope.
Ltac Zify.zify_post_hook ::= Z.div_mod_to_equations.

(* the state inside a block [bp ++ x :: bt], number [k], with blocks [t] to follow *)
Definition SV (buf : bytes) (gap n : Z) (s : slist) (k : Z) (bp : list Z) (x : Z) (bt : list Z) (t : list (list Z)) : Prop :=
  Forall is_byte buf /\ zlen buf < 2 ^ 63 /\ 1 <= gap < maxSkippingGap /\
  StronglySorted Z.le (bp ++ x :: bt ++ concat t) /\ Forall is_u32 (bp ++ x :: bt ++ concat t) /\
  blocks_ok gap ((bp ++ x :: bt) :: t) /\ 0 <= k /\
  sk_size s = n /\ sk_gap s = gap /\ sk_cur s = x /\ sk_last s = is_nil t /\
  sk_skipval s = hd 0 (bp ++ [x]) /\
  sk_index s = k * gap + zlen bp /\
  sk_index s + 1 + zlen (bt ++ concat t) = n /\
  exists pre suf, buf = pre ++ vb x bt ++ sk (hd 0 (bp ++ [x])) t ++ suf /\
    sk_in s = mkIn buf (zlen pre) /\ sk_nextpos s = zlen (pre ++ vb x bt).

Definition RK (buf : bytes) (gap n : Z) (i : iter) (rest : list Z) : Prop :=
  exists s, i = ISkip s /\
  ((rest = [] /\ sk_index s = n /\ sk_size s = n) \/
   exists k bp x bt t, rest = x :: bt ++ concat t /\ SV buf gap n s k bp x bt t).

Lemma seek_cur b p : 0 <= p < 2 ^ 63 -> Seek (mkIn b p) 0 1 = (Ret p, mkIn b p).
Proof.
  intros H. unfold Seek. cbn [Z.eqb Pos.eqb ipos ibuf]. rewrite Z.add_0_r.
  replace (wrapi64 p) with p by (unfold wrapi64; rewrite Z.mod_small; lia).
  replace (p <? 0) with false by lia. reflexivity.
Qed.
Lemma seek_abs b p q : 0 <= q -> Seek (mkIn b p) q 0 = (Ret q, mkIn b q).
Proof.
  intros H. unfold Seek. cbn [Z.eqb ipos ibuf].
  replace (q <? 0) with false by lia. reflexivity.
Qed.

(* reading the header of the next block and its first value *)
Lemma readSkipping_ok gap pre suf sv y b t idx n cur last buf :
  1 <= gap < maxSkippingGap -> blocks_ok gap ((y :: b) :: t) -> is_u32 y -> Forall is_byte buf ->
  buf = pre ++ sk sv ((y :: b) :: t) ++ suf -> zlen buf < 2 ^ 63 ->
  exists p2, buf = p2 ++ vb y b ++ sk y t ++ suf /\
  sk_readSkipping (mkSk (mkIn buf (zlen pre)) idx n cur sv (zlen pre) gap last) =
  (Ret tt, mkSk (mkIn buf (zlen p2)) idx n y y (zlen (p2 ++ vb y b)) gap (is_nil t)).
Proof.
  intros Hg Hok Hy Hb Eb Hl.
  set (h := header (zlen (vb sv (y :: b))) (is_nil t)).
  exists (pre ++ le16 h ++ vbytes (wrap32 (y - sv))).
  destruct (blocks_ok_cons gap (y :: b) t ltac:(lia) Hok) as [Hbl _].
  assert (is_u16 h /\ UnpackPos h = (zlen (vb sv (y :: b)) + 2, is_nil t)) as [Hh Hunp].
  { apply header_small; pose proof (vb_len (y :: b) sv) as Hv; [lia|].
    unfold maxSkippingGap in Hg. change (2 ^ 14 / 5) with 3276 in Hg. lia. }
  assert (buf = pre ++ le16 h ++ (vbytes (wrap32 (y - sv)) ++ vb y b ++ sk y t ++ suf)) as E1.
  { rewrite Eb. cbn [sk vb hd]. fold h. cbn [vb] in h. unfold h. rewrite <- !app_assoc. reflexivity. }
  split; [rewrite E1, <- !app_assoc; reflexivity|].
  unfold sk_readSkipping. cbn [sk_in sk_skipval sk_index sk_size sk_cur sk_nextpos sk_gap sk_last].
  rewrite E1 at 1. rewrite read_u16_app by (try exact Hh; rewrite <- E1; exact Hl).
  rewrite Hunp.
  assert (pre ++ le16 h ++ (vbytes (wrap32 (y - sv)) ++ vb y b ++ sk y t ++ suf)
          = (pre ++ le16 h) ++ vbytes (wrap32 (y - sv)) ++ (vb y b ++ sk y t ++ suf)) as E2
    by (rewrite <- !app_assoc; reflexivity).
  assert (zlen pre + 2 = zlen (pre ++ le16 h)) as E3 by (rewrite zlen_app; reflexivity).
  rewrite E3, E2. rewrite read_var_app.
  - rewrite delta_back by exact Hy. rewrite <- E2, <- E1.
    f_equal. f_equal; [f_equal|].
    + rewrite !zlen_app. lia.
    + rewrite !zlen_app. change (zlen (le16 h)) with 2. cbn [vb]. rewrite zlen_app. lia.
  - apply wrap_u32.
  - rewrite E1, E2 in Hb. apply Forall_app in Hb. destruct Hb as [_ Hb]. apply Forall_app in Hb. apply Hb.
  - rewrite <- E2, <- E1. exact Hl.
Qed.

Lemma RK_init gap pre suf bl n : 1 <= gap < maxSkippingGap -> blocks_ok gap bl -> bl <> [] ->
  ascending (concat bl) -> n = zlen (concat bl) -> pre = [] ->
  let buf := pre ++ sk 0 bl ++ suf in
  Forall is_byte suf -> zlen buf < 2 ^ 63 ->
  exists s, sk_init gap (mkIn buf (zlen pre)) n = Ret s /\ RK buf gap n (ISkip s) (concat bl).
Proof.
  intros Hg Hok Hne [Hs Hu] Hn Hpre buf Hsuf Hl.
  destruct bl as [|b t]; [congruence|].
  destruct b as [|y b]; [exfalso; eapply (blocks_nonempty gap); [lia|exact Hok|reflexivity]|].
  assert (Forall is_byte buf) as Hb.
  { unfold buf. subst pre. cbn [app]. apply Forall_app; split; [apply sk_bytes|exact Hsuf]. }
  destruct (readSkipping_ok gap pre suf 0 y b t 0 n 0 false buf Hg Hok) as (p2 & E & ER);
    [cbn in Hu; apply Forall_inv in Hu; exact Hu|exact Hb|reflexivity|exact Hl|].
  unfold sk_init. assert (zlen pre = 0) as Hz by (subst; reflexivity). rewrite Hz in *. rewrite ER.
  eexists. split; [reflexivity|]. eexists. split; [reflexivity|]. right.
  exists 0, [], y, b, t. split; [reflexivity|]. 
  unfold SV. cbn [app hd concat] in *.
  cbn [sk_in sk_skipval sk_index sk_size sk_cur sk_nextpos sk_gap sk_last].
  change (zlen (@nil Z)) with 0. rewrite zlen_cons in Hn.
  repeat (split; [solve [auto; lia]|]).
  exists p2, suf. auto.
Qed.

Lemma SV_next buf gap n s k bp x bt t y r : SV buf gap n s k bp x bt t -> bt ++ concat t = y :: r ->
  exists s', sk_next s = (Ret y, s') /\
   ((exists bt', bt = y :: bt' /\ SV buf gap n s' k (bp ++ [x]) y bt' t) \/
    (exists b' t', bt = [] /\ t = (y :: b') :: t' /\ SV buf gap n s' (k + 1) [] y b' t')).
Proof.
  intros (Hb & Hl & Hg & Hs & Hu & Hok & Hk & Hsz & Hgap & Hc & Hla & Hsv & Hi & Hn & pre & suf & Eb & Ein & Enp) Er.
  destruct s as [si ii sn sc sv sp sg sl]. cbn [sk_in sk_skipval sk_index sk_size sk_cur sk_nextpos sk_gap sk_last] in *.
  subst si sn sg sc sl sv sp.
  pose proof (zlen_nonneg bp). pose proof (zlen_nonneg r). pose proof (zlen_nonneg pre).
  assert (zlen (bt ++ concat t) = 1 + zlen r) as Hlr by (rewrite Er, zlen_cons; lia).
  assert (zlen pre <= zlen buf) as Hpl.
  { rewrite Eb, zlen_app. pose proof (zlen_nonneg (vb x bt ++ sk (hd 0 (bp ++ [x])) t ++ suf)). lia. }
  unfold sk_next, sk_hasNext. cbn [sk_in sk_skipval sk_index sk_size sk_cur sk_nextpos sk_gap sk_last].
  replace (ii + 1 <? n) with true by (clear - Hn Hlr H0; lia). cbn [negb].
  rewrite seek_cur by lia. unfold sk_set_in. cbn [sk_in sk_skipval sk_index sk_size sk_cur sk_nextpos sk_gap sk_last].
  destruct bt as [|z bt].
  - (* next block *)
    cbn [vb app] in *. rewrite app_nil_r. rewrite Z.eqb_refl.
    destruct t as [|b' t']; [discriminate|].
    destruct (blocks_ok_cons gap _ _ ltac:(lia) Hok) as [Hb1 Hok'].
    destruct b' as [|y' b']; [exfalso; eapply (blocks_nonempty gap); [lia|exact Hok'|reflexivity]|].
    cbn [concat app] in Er. injection Er as -> <-.
    assert (is_u32 y) as Hy.
    { apply Forall_app in Hu. destruct Hu as [_ Hu]. apply Forall_inv_tail in Hu. cbn in Hu. apply Forall_inv in Hu. exact Hu. }
    destruct (readSkipping_ok gap pre suf (hd 0 (bp ++ [x])) y b' t' ii n x (is_nil ((y :: b') :: t')) buf Hg Hok' Hy Hb Eb Hl)
      as (p2 & E2 & ER).
    rewrite ER. eexists. split; [reflexivity|]. right. exists b', t'. split; [reflexivity|]. split; [reflexivity|].
    unfold SV, sk_set_index. cbn [sk_in sk_skipval sk_index sk_size sk_cur sk_nextpos sk_gap sk_last app hd].
    cbn [concat app] in *.
    assert (zlen bp + 1 = gap) as Hfull.
    { destruct Hok as [Hok _]. rewrite zlen_app, zlen_cons, zlen_nil in Hok. lia. }
    assert (bp ++ x :: y :: b' ++ concat t' = (bp ++ [x]) ++ y :: b' ++ concat t') as Eapp by (rewrite <- app_assoc; reflexivity).
    rewrite zlen_cons in Hn.
    split; [exact Hb|]. split; [exact Hl|]. split; [exact Hg|].
    split; [rewrite Eapp in Hs; eapply sorted_app_r; exact Hs|].
    split; [rewrite Eapp in Hu; apply Forall_app in Hu; apply Hu|].
    split; [exact Hok'|]. split; [lia|]. split; [reflexivity|]. split; [reflexivity|]. split; [reflexivity|]. split; [reflexivity|].
    split; [reflexivity|]. split; [rewrite zlen_nil; lia|]. split; [lia|].
    exists p2, suf. auto.
  - (* same block *)
    cbn [app] in Er. injection Er as -> <-.
    assert (is_u32 y) as Hy.
    { apply Forall_app in Hu. destruct Hu as [_ Hu]. apply Forall_inv_tail in Hu. cbn in Hu. apply Forall_inv in Hu. exact Hu. }
    assert (1 <= zlen (vb x (y :: bt))) as Hv.
    { pose proof (vb_len (y :: bt) x). rewrite zlen_cons in *. pose proof (zlen_nonneg bt). lia. }
    replace (zlen pre =? zlen (pre ++ vb x (y :: bt))) with false by (rewrite zlen_app; lia).
    cbn [vb] in Eb. rewrite <- app_assoc in Eb.
    assert (ReadVUInt32 (mkIn buf (zlen pre)) = (Ret (wrap32 (y - x)), mkIn buf (zlen pre + zlen (vbytes (wrap32 (y - x)))))) as ->.
    { rewrite Eb. apply read_var_app; [apply wrap_u32| |rewrite <- Eb; exact Hl].
      rewrite Eb in Hb. apply Forall_app in Hb. destruct Hb as [_ Hb]. apply Forall_app in Hb. apply Hb. }
    rewrite delta_back by exact Hy.
    eexists. split; [reflexivity|]. left. exists bt. split; [reflexivity|].
    unfold SV. cbn [sk_in sk_skipval sk_index sk_size sk_cur sk_nextpos sk_gap sk_last].
    assert (forall l, (bp ++ [x]) ++ y :: l = bp ++ x :: y :: l) as Eapp by (intros; rewrite <- app_assoc; reflexivity).
    rewrite !Eapp.
    assert (hd 0 (bp ++ [x; y]) = hd 0 (bp ++ [x])) as Eh by (destruct bp; reflexivity).
    rewrite !Eh. cbn [app] in Hn. rewrite zlen_cons in Hn.
    split; [exact Hb|]. split; [exact Hl|]. split; [exact Hg|]. split; [exact Hs|]. split; [exact Hu|]. split; [exact Hok|].
    split; [lia|]. split; [reflexivity|]. split; [reflexivity|]. split; [reflexivity|]. split; [reflexivity|]. split; [reflexivity|].
    split; [rewrite zlen_app, zlen_cons, zlen_nil; lia|]. split; [lia|].
    exists (pre ++ vbytes (wrap32 (y - x))), suf. rewrite <- app_assoc. split; [exact Eb|].
    rewrite zlen_app. split; [reflexivity|]. rewrite !zlen_app. cbn [vb]. rewrite zlen_app. lia.
Qed.

Lemma RK_next buf gap n s x y r : RK buf gap n (ISkip s) (x :: y :: r) ->
  exists s', sk_next s = (Ret y, s') /\ RK buf gap n (ISkip s') (y :: r).
Proof.
  intros (s0 & E & [(H & _)|(k & bp & x' & bt & t & Er & HV)]); [discriminate|].
  injection E as <-. injection Er as <- Er.
  destruct (SV_next _ _ _ _ _ _ _ _ _ _ _ HV (eq_sym Er)) as (s' & En & [(bt' & -> & HV')|(b' & t' & -> & -> & HV')]).
  - exists s'. split; [exact En|]. eexists. split; [reflexivity|]. right.
    cbn [app] in Er. injection Er as ->. do 5 eexists. split; [reflexivity|exact HV'].
  - exists s'. split; [exact En|]. eexists. split; [reflexivity|]. right.
    cbn [app concat] in Er. injection Er as ->. do 5 eexists. split; [reflexivity|exact HV'].
Qed.

Lemma RK_hasNext buf gap n s rest : RK buf gap n (ISkip s) rest -> sk_hasNext s = (2 <=? zlen rest).
Proof.
  intros (s0 & E & H). injection E as <-. unfold sk_hasNext.
  destruct H as [(-> & H1 & H2)|(k & bp & x & bt & t & -> & HV)].
  - rewrite zlen_nil. lia.
  - destruct HV as (_ & _ & _ & _ & _ & _ & _ & Hsz & _ & _ & _ & _ & _ & Hn & _).
    rewrite zlen_cons. lia.
Qed.

Lemma RK_size buf gap n s rest : RK buf gap n (ISkip s) rest -> sk_size s = n.
Proof.
  intros (s0 & E & H). injection E as <-.
  destruct H as [(-> & H1 & H2)|(k & bp & x & bt & t & -> & HV)]; [exact H2|]. apply HV.
Qed.

Lemma RK_scan buf gap n to : forall fuel s rest x t, rest = x :: t -> (length rest <= fuel)%nat -> x < to ->
  RK buf gap n (ISkip s) rest ->
  exists s', sk_scan fuel s to = (first (drop_lt to rest), s') /\ RK buf gap n (ISkip s') (drop_lt to rest).
Proof.
  induction fuel as [|fuel IH]; intros s rest x t Er Hf Hx HR; [subst; cbn in Hf; lia|].
  cbn [sk_scan]. rewrite (RK_hasNext _ _ _ _ _ HR). subst rest. destruct t as [|y r].
  - rewrite zlen_cons, zlen_nil. cbn [Z.leb Z.add Z.compare Pos.compare Pos.compare_cont].
    cbn [drop_lt]. replace (x <? to) with true by lia. eexists. split; [reflexivity|].
    eexists. split; [reflexivity|]. left. split; [reflexivity|]. unfold sk_set_index. cbn.
    split; eapply RK_size; exact HR.
  - destruct (RK_next _ _ _ _ _ _ _ HR) as (s' & En & HR').
    rewrite !zlen_cons. pose proof (zlen_nonneg r). match goal with |- context [if ?b then _ else _] => replace b with true by lia end.
    rewrite En. cbn [drop_lt]. replace (x <? to) with true by lia.
    destruct (y >=? to) eqn:Hy.
    + replace (y <? to) with false by lia. exists s'. split; [reflexivity|exact HR'].
    + destruct (IH s' (y :: r) y r eq_refl ltac:(cbn in *; lia) ltac:(lia) HR') as (s2 & E2 & HR2).
      exists s2. rewrite E2. cbn [drop_lt] in *. split; [reflexivity|exact HR2].
Qed.

(* block skipping never passes an element >= to *)
Lemma SV_skip buf gap n to : forall fuel s k bp x bt t, (length t < fuel)%nat -> x < to ->
  SV buf gap n s k bp x bt t ->
  exists s' k' bp' x' bt' t', sk_skip fuel k s to = (Ret tt, s') /\ SV buf gap n s' k' bp' x' bt' t' /\ x' < to /\
    exists p, x :: bt ++ concat t = p ++ x' :: bt' ++ concat t' /\ Forall (fun z => z < to) p.
Proof.
  induction fuel as [|fuel IH]; intros s k bp x bt t Hf Hx HV; [lia|]. cbn [sk_skip].
  assert (RK buf gap n (ISkip s) (x :: bt ++ concat t)) as HR.
  { eexists. split; [reflexivity|]. right. do 5 eexists. split; [reflexivity|exact HV]. }
  assert (forall b, b = false -> exists s' k' bp' x' bt' t', (if b then (NoFuel, s) else (Ret tt, s)) = (Ret tt, s') /\ SV buf gap n s' k' bp' x' bt' t' /\ x' < to /\
    exists p, x :: bt ++ concat t = p ++ x' :: bt' ++ concat t' /\ Forall (fun z => z < to) p) as Hstay.
  { intros b ->. exists s, k, bp, x, bt, t. split; [reflexivity|]. split; [exact HV|]. split; [exact Hx|].
    exists []. split; [reflexivity|constructor]. }
  destruct t as [|b2 t2].
  { assert (sk_last s = true) as -> by apply HV. cbn [negb andb]. apply (Hstay false eq_refl). }
  rewrite (RK_hasNext _ _ _ _ _ HR). clear HR.
  pose proof HV as (Hb & Hl & Hg & Hs & Hu & Hok & Hk & Hsz & Hgap & Hc & Hla & Hsv & Hi & Hn & pre & suf & Eb & Ein & Enp).
  destruct (blocks_ok_cons gap _ _ ltac:(lia) Hok) as [Hb1 Hok'].
  destruct b2 as [|y b2]; [exfalso; eapply (blocks_nonempty gap); [lia|exact Hok'|reflexivity]|].
  assert (zlen (bp ++ x :: bt) = gap) as Hfull by (destruct Hok as [Hok _]; exact Hok).
  destruct s as [si ii sn sc sv sp sg sl]. cbn [sk_in sk_skipval sk_index sk_size sk_cur sk_nextpos sk_gap sk_last] in *.
  subst si sn sg sc sl sv sp. cbn [is_nil negb andb].
  pose proof (zlen_nonneg bp). pose proof (zlen_nonneg bt). pose proof (zlen_nonneg pre). pose proof (zlen_nonneg (concat t2)).
  pose proof (zlen_nonneg b2). pose proof (zlen_nonneg (vb x bt)).
  assert (zlen (x :: bt ++ concat ((y :: b2) :: t2)) = 2 + zlen bt + zlen b2 + zlen (concat t2)) as Hlen.
  { cbn [concat app]. rewrite zlen_cons, zlen_app, zlen_cons, zlen_app. lia. }
  rewrite zlen_cons in Hlen.
  rewrite zlen_cons. match goal with |- context [if ?b then _ else (Ret tt, _)] => replace b with true by lia end.
  assert (zlen (pre ++ vb x bt) <= zlen buf) as Hpl.
  { rewrite Eb, app_assoc, (zlen_app (pre ++ vb x bt)). pose proof (zlen_nonneg (sk (hd 0 (bp ++ [x])) ((y :: b2) :: t2) ++ suf)). lia. }
  rewrite zlen_app in Hpl.
  rewrite seek_cur by lia.
  unfold sk_move at 1. cbn [sk_in sk_nextpos]. rewrite seek_abs by (rewrite zlen_app; lia).
  unfold sk_set_index, sk_set_in. cbn [sk_in sk_skipval sk_index sk_size sk_cur sk_nextpos sk_gap sk_last].
  rewrite zlen_app, zlen_cons in Hfull.
  assert ((k + 1) * gap - 1 = k * gap + zlen (bp ++ bt)) as Eidx by (rewrite zlen_app; lia).
  replace ((k + 1) * gap - 1 >=? n) with false by (rewrite Eidx, zlen_app; lia).
  (* the artificial state is the last element of the current block *)
  set (s1 := {| sk_in := {| ibuf := buf; ipos := zlen (pre ++ vb x bt) |}; sk_index := (k + 1) * gap - 1;
     sk_size := n; sk_cur := x; sk_skipval := hd 0 (bp ++ [x]); sk_nextpos := zlen (pre ++ vb x bt);
     sk_gap := gap; sk_last := false |}).
  assert (exists s2, sk_next s1 = (Ret y, s2) /\ SV buf gap n s2 (k + 1) [] y b2 t2) as (s2 & En & HV2).
  { unfold s1, sk_next, sk_hasNext. cbn [sk_in sk_skipval sk_index sk_size sk_cur sk_nextpos sk_gap sk_last].
    replace ((k + 1) * gap - 1 + 1 <? n) with true by lia. cbn [negb].
    rewrite seek_cur by (rewrite zlen_app; lia). unfold sk_set_in.
    cbn [sk_in sk_skipval sk_index sk_size sk_cur sk_nextpos sk_gap sk_last]. rewrite Z.eqb_refl.
    assert (is_u32 y) as Hy.
    { apply Forall_app in Hu. destruct Hu as [_ Hu]. apply Forall_inv_tail in Hu. apply Forall_app in Hu. destruct Hu as [_ Hu].
      cbn in Hu. apply Forall_inv in Hu. exact Hu. }
    rewrite app_assoc in Eb.
    destruct (readSkipping_ok gap (pre ++ vb x bt) suf (hd 0 (bp ++ [x])) y b2 t2 ((k + 1) * gap - 1) n x false buf Hg Hok' Hy Hb Eb Hl)
      as (p2 & E2 & ER).
    rewrite ER. eexists. split; [reflexivity|].
    unfold SV, sk_set_index. cbn [sk_in sk_skipval sk_index sk_size sk_cur sk_nextpos sk_gap sk_last app hd].
    cbn [concat app] in *.
    assert (bp ++ x :: bt ++ y :: b2 ++ concat t2 = (bp ++ x :: bt) ++ y :: b2 ++ concat t2) as Eapp by (rewrite <- app_assoc; reflexivity).
    split; [exact Hb|]. split; [exact Hl|]. split; [exact Hg|].
    split; [rewrite Eapp in Hs; eapply sorted_app_r; exact Hs|].
    split; [rewrite Eapp in Hu; apply Forall_app in Hu; apply Hu|].
    split; [exact Hok'|]. split; [lia|]. split; [reflexivity|]. split; [reflexivity|]. split; [reflexivity|]. split; [reflexivity|].
    split; [reflexivity|]. split; [rewrite zlen_nil; lia|]. split; [rewrite zlen_app in *; lia|].
    exists p2, suf. auto. }
  rewrite En.
  assert (y < to -> Forall (fun z => z < to) (x :: bt)) as Hpass.
  { intros Hy. apply sorted_app_r in Hs.
    assert (x :: bt ++ concat ((y :: b2) :: t2) = (x :: bt) ++ y :: b2 ++ concat t2) as E0 by reflexivity.
    rewrite E0 in Hs.
    apply sorted_app_le in Hs. eapply Forall_impl; [|exact Hs]. intros z Hz. cbv beta in Hz. lia. }
  assert (y < to -> exists s' k' bp' x' bt' t', sk_skip fuel (k + 1) s2 to = (Ret tt, s') /\ SV buf gap n s' k' bp' x' bt' t' /\ x' < to /\
    exists p, x :: bt ++ concat ((y :: b2) :: t2) = p ++ x' :: bt' ++ concat t' /\ Forall (fun z => z < to) p) as Hgo.
  { intros Hy. destruct (IH s2 (k + 1) [] y b2 t2 ltac:(cbn in Hf; lia) Hy HV2) as (s' & k' & bp' & x' & bt' & t' & E & HV' & Hx' & p & Ep & Hp).
    exists s', k', bp', x', bt', t'. split; [exact E|]. split; [exact HV'|]. split; [exact Hx'|].
    exists ((x :: bt) ++ p). split; [cbn [concat app]; rewrite <- app_assoc, Ep; reflexivity|].
    apply Forall_app; split; [apply Hpass; exact Hy|exact Hp]. }
  destruct ((y <? to) && negb (sk_last s2)) eqn:Hcond.
  - apply Hgo. lia.
  - destruct (y >=? to) eqn:Hge; [|apply Hgo; lia].
    unfold sk_move.
    assert (exists p', sk_in s2 = mkIn buf p') as (p' & Ein2).
    { destruct HV2 as (_ & _ & _ & _ & _ & _ & _ & _ & _ & _ & _ & _ & _ & _ & pre2 & suf2 & _ & E & _). eauto. }
    rewrite Ein2, seek_abs by lia. cbn [sk_set_in sk_in].
    eexists. exists k, bp, x, bt, ((y :: b2) :: t2). split; [reflexivity|]. split; [|split; [exact Hx|]].
    + exact HV.
    + exists []. split; [reflexivity|constructor].
Qed.

Lemma length_blocks gap : 1 <= gap -> forall t, blocks_ok gap t -> (length t <= length (concat t))%nat.
Proof.
  intros Hg. induction t as [|b t IH]; intros Hok; [cbn; lia|].
  destruct (blocks_ok_cons gap _ _ Hg Hok) as [Hb Hok']. specialize (IH Hok').
  cbn [concat length]. rewrite app_length. unfold zlen in Hb. lia.
Qed.

Lemma RK_simulates buf gap n : simulates n (RK buf gap n).
Proof.
  intros i rest o HR. pose proof HR as (s & -> & H).
  destruct o; cbn [iter_step cursor_step it_get it_hasNext it_next it_lowerBound it_len].
  - split; [|exact HR]. cbn [fst]. f_equal. unfold sk_get, sk_valid.
    destruct H as [(-> & H1 & H2)|(k & bp & x & bt & t & -> & HV)].
    + replace (sk_index s <? sk_size s) with false by lia. reflexivity.
    + destruct HV as (_ & _ & _ & _ & _ & _ & _ & Hsz & _ & Hc & _ & _ & Hi & Hn & _).
      pose proof (zlen_nonneg (bt ++ concat t)).
      replace (sk_index s <? sk_size s) with true by lia. cbn. congruence.
  - split; [|exact HR]. cbn [fst]. f_equal. eapply RK_hasNext. exact HR.
  - destruct rest as [|x [|y r]].
    + unfold sk_next. rewrite (RK_hasNext _ _ _ _ _ HR). split; [reflexivity|exact HR].
    + unfold sk_next. rewrite (RK_hasNext _ _ _ _ _ HR). split; [reflexivity|exact HR].
    + destruct (RK_next _ _ _ _ _ _ _ HR) as (s' & En & HR'). rewrite En. split; [reflexivity|exact HR'].
  - unfold sk_lowerBound, sk_valid. pose proof (RK_size _ _ _ _ _ HR) as Hsz0.
    destruct H as [(-> & H1 & H2)|(k & bp & x & bt & t & -> & HV)].
    + replace (sk_index s <? sk_size s) with false by lia. split; [reflexivity|exact HR].
    + pose proof HV as (Hb & Hl & Hg & Hs & Hu & Hok & Hk & Hsz & Hgap & Hc & Hla & Hsv & Hi & Hn & _).
      destruct (blocks_ok_cons gap _ _ ltac:(lia) Hok) as [Hb1 Hok']. rewrite zlen_app, zlen_cons in Hb1.
      pose proof (zlen_nonneg (bt ++ concat t)). pose proof (zlen_nonneg bp). pose proof (zlen_nonneg bt).
      replace (sk_index s <? sk_size s) with true by lia. cbn [negb].
      destruct (sk_cur s >=? to) eqn:Hto.
      * cbn [drop_lt]. replace (x <? to) with false by lia. cbn [fst snd first]. split; [congruence|exact HR].
      * rewrite Hgap. replace (gap =? 0) with false by lia. rewrite andb_false_r.
        replace (if sk_index s >? 0 then sk_index s ÷ gap else 0) with k.
        2:{ destruct (sk_index s >? 0) eqn:E0.
            - rewrite Hi, Z.quot_div_nonneg by nia. rewrite Z.div_add_l by lia. rewrite Z.div_small by lia. lia.
            - nia. }
        assert (length t <= length (concat t))%nat as Hlt by (eapply length_blocks; [|exact Hok']; lia).
        destruct (SV_skip buf gap n to (S (Z.to_nat (sk_size s))) s k bp x bt t) as (s' & k' & bp' & x' & bt' & t' & E & HV' & Hx' & p & Ep & Hp).
        { assert (0 <= k * gap) by nia. unfold zlen in *. rewrite app_length in Hn. lia. }
        { lia. }
        { exact HV. }
        rewrite E, Ep, (drop_lt_app to p _ Hp).
        assert (length (x :: bt ++ concat t) <= S (Z.to_nat (sk_size s)))%nat as Hfu.
        { assert (0 <= k * gap) by nia. unfold zlen in *. cbn [length]. lia. }
        rewrite Ep, app_length in Hfu.
        destruct (RK_scan buf gap n to (S (Z.to_nat (sk_size s))) s' (x' :: bt' ++ concat t') x' (bt' ++ concat t') eq_refl) as (s2 & E2 & HR2);
          [lia|exact Hx'|eexists; split; [reflexivity|]; right; do 5 eexists; split; [reflexivity|exact HV']|].
        rewrite E2. split; [reflexivity|exact HR2].
  - split; [|exact HR]. cbn [fst]. f_equal. eapply RK_size. exact HR.
Qed.
