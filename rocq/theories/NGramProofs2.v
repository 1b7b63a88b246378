(** Proofs about the packed array, continued: CreatePackedArray builds the groups of its
    nodes; lookups and sub-vectors. *)
From Coq Require Import Sorting.Sorted ZifyBool.
From Verif Require Import Base BaseLemmas GoMap Float64 Postings PostingsProofs Merger MergerProofs NGram NGramProofs.
Local Open Scope Z_scope.

Lemma find_found g1 c p w n q g2 t : let gs := g1 ++ (c, p ++ (w, n) :: q) :: g2 in groups_ok gs ->
  find (pa_groups gs t) w c = Ret (Pack w n, zlen (words_of g1) + zlen p).
Proof.
  intros gs Hg. destruct (groups_conts gs Hg) as [Hks Hku]. unfold find, pa_groups.
  assert (conts 0 gs = conts 0 g1 ++ (c, zlen (words_of g1)) :: conts (zlen (words_of g1) + zlen (p ++ (w, n) :: q)) g2) as Ec.
  { unfold gs. rewrite conts_app. reflexivity. }
  rewrite Ec in *. change c with (fst (c, zlen (words_of g1))) at 2. rewrite fcp_found by assumption. cbn [bind].
  destruct (zlen (conts 0 g1) =? -1) eqn:E; [pose proof (zlen_nonneg (conts 0 g1)); lia|]. unfold gs. rewrite find_at_group.
  - change w with (fst (w, n)) at 2. destruct Hg as (Hs & Hf & Hz). pose proof (proj2 (proj1 (Forall_app _ _ _) Hf)) as Hf2. apply Forall_inv in Hf2.
    destruct Hf2 as (_ & _ & H1 & H2). cbn [snd] in H1, H2. unfold gs in Hz. rewrite words_app in Hz. cbn [words_of flat_map snd] in Hz.
    fold (words_of g2) in Hz. rewrite !zlen_app, zlen_cons in Hz. pose proof (zlen_nonneg (words_of g1)). pose proof (zlen_nonneg p). pose proof (zlen_nonneg q). pose proof (zlen_nonneg (words_of g2)).
    rewrite slice_found; [reflexivity|exact H1|exact H2|lia|lia].
  - exact Hg.
  - destruct g2 as [|[c2 l2] g3]; [left; auto|]. right. exists c2, l2, g3. eexists. split; [reflexivity|]. cbn [conts]. reflexivity.
Qed.
Lemma find_missing gs t w c : groups_ok gs -> is_u32 w -> is_u32 c -> (forall l, In (c, l) gs -> ~ In w (map fst l)) ->
  find (pa_groups gs t) w c = Ret (0, InvalidContextOffset).
Proof.
  intros Hg Hw Hc Hn. destruct (groups_conts gs Hg) as [Hks Hku]. unfold find, pa_groups.
  destruct (in_dec Z.eq_dec c (map fst gs)) as [Hin|Hin].
  - apply in_map_iff in Hin. destruct Hin as ([c' l] & Ec & Hin). cbn [fst] in Ec. subst c'.
    pose proof (Hn l Hin) as Hnl. apply in_split in Hin. destruct Hin as (g1 & g2 & ->).
    assert (conts 0 (g1 ++ (c, l) :: g2) = conts 0 g1 ++ (c, zlen (words_of g1)) :: conts (zlen (words_of g1) + zlen l) g2) as Ec.
    { rewrite conts_app. reflexivity. }
    rewrite Ec in *. change c with (fst (c, zlen (words_of g1))) at 2. rewrite fcp_found by assumption. cbn [bind].
    destruct (zlen (conts 0 g1) =? -1) eqn:E; [reflexivity|]. rewrite find_at_group.
    + destruct Hg as (Hs & Hf & Hz). pose proof (proj2 (proj1 (Forall_app _ _ _) Hf)) as Hf2. apply Forall_inv in Hf2.
      destruct Hf2 as (_ & H0 & H1 & H2). cbn [snd] in *. apply slice_missing; assumption.
    + exact Hg.
    + destruct g2 as [|[c2 l2] g3]; [left; auto|]. right. exists c2, l2, g3. eexists. split; [reflexivity|]. cbn [conts]. reflexivity.
  - rewrite fcp_missing; [reflexivity|exact Hks|exact Hku|exact Hc|]. rewrite conts_fst. exact Hin.
Qed.
Lemma sub_found g1 c l g2 t : let gs := g1 ++ (c, l) :: g2 in groups_ok gs ->
  exists sub, SubVector (pa_groups gs t) c = Ret (Some sub) /\ total sub = t /\ forall w, find sub w c = find (pa_groups gs t) w c.
Proof.
  intros gs Hg. destruct (groups_conts gs Hg) as [Hks Hku]. unfold SubVector, pa_groups.
  set (off := zlen (words_of g1)).
  assert (conts 0 gs = conts 0 g1 ++ (c, off) :: conts (off + zlen l) g2) as Ec.
  { unfold gs. rewrite conts_app. reflexivity. }
  rewrite Ec in *. set (c1 := conts 0 g1) in *.
  assert (findContainerPos (pa_of (c1 ++ (c, off) :: conts (off + zlen l) g2) (words_of gs) t) c = Ret (zlen c1)) as Ef.
  { change c with (fst (c, off)) at 2. apply fcp_found; assumption. }
  rewrite Ef. cbn [bind]. pose proof (zlen_nonneg c1) as Hc1. destruct (zlen c1 =? -1) eqn:E; [lia|].
  cbn [pa_of containers]. rewrite map_app. cbn [map].
  assert (forall x y, index (map pk c1 ++ x :: y) (zlen c1) = Ret x) as Hix by (intros x y; rewrite <- (zlen_map pk c1); apply index_app_0).
  rewrite Hix. cbn [bind].
  rewrite zlen_app, zlen_cons, !zlen_map, conts_len.
  assert (forall w, find (pa_of (c1 ++ (c, off) :: conts (off + zlen l) g2) (words_of gs) t) w c = in_slice l off w) as Hfull.
  { intros w. unfold find. rewrite Ef. cbn [bind]. rewrite E. unfold off. apply find_at_group; [exact Hg|].
    destruct g2 as [|[c2 l2] g3]; [left; auto|]. right. exists c2, l2, g3. eexists. split; [reflexivity|]. cbn [conts]. reflexivity. }
  destruct g2 as [|[c2 l2] g3].
  - match goal with |- context [if ?b then _ else _] => destruct b eqn:E1 end; [unfold zlen in E1; cbn [length] in E1; lia|]. cbn [bind].
    eexists. split; [reflexivity|]. split; [reflexivity|]. intros w. rewrite Hfull. cbn [conts] in *.
    change (find (pa_of ([] ++ (c, off) :: []) (words_of gs) t) w c = in_slice l off w).
    unfold find. change c with (fst (c, off)) at 2. rewrite fcp_found.
    + cbn [bind]. change (zlen (@nil (Z * Z)) =? -1) with false. cbv iota. unfold off. apply find_at_group; [exact Hg|]. left. auto.
    + constructor; constructor.
    + apply Forall_app in Hku. destruct Hku as [_ Hku]. exact Hku.
  - rewrite zlen_cons. pose proof (zlen_nonneg g3) as Hg3. match goal with |- context [if ?b then _ else _] => destruct b eqn:E1 end; [|rewrite ?zlen_cons in E1; pose proof (zlen_nonneg g3); lia].
    cbn [conts map]. assert (index (map pk c1 ++ pk (c, off) :: pk (c2, off + zlen l) :: map pk (conts (off + zlen l + zlen l2) g3)) (zlen c1 + 1) = Ret (pk (c2, off + zlen l))) as ->.
    { rewrite <- (zlen_map pk c1). rewrite index_app_r by lia. apply (index_app_0 [pk (c, off)]). }
    cbn [bind]. eexists. split; [reflexivity|]. split; [reflexivity|]. intros w. rewrite Hfull.
    set (cs := [] ++ (c, off) :: [(c2, off + zlen l)]).
    change (find (pa_of cs (words_of gs) t) w c = in_slice l off w).
    unfold find. unfold cs. change c with (fst (c, off)) at 2. rewrite fcp_found.
    + cbn [bind]. change (zlen (@nil (Z * Z)) =? -1) with false. cbv iota. unfold off. apply find_at_group; [exact Hg|]. right. exists c2, l2, g3, []. auto.
    + cbn [app]. destruct Hg as (Hs & _ & _). unfold gs in Hs. rewrite map_app in Hs. cbn [map fst] in Hs. unfold ksorted. cbn [map fst].
      assert (forall (p q : list Z), StronglySorted Z.lt (p ++ q) -> StronglySorted Z.lt q) as Happ by (induction p as [|x p IHp]; cbn [app]; intros q Hq; [exact Hq|apply IHp; apply StronglySorted_inv in Hq; tauto]).
      apply Happ in Hs. apply StronglySorted_inv in Hs. destruct Hs as [_ Hs]. apply Forall_inv in Hs. constructor; [constructor; constructor|constructor; [exact Hs|constructor]].
    + cbn [app]. apply Forall_app in Hku. destruct Hku as [_ Hku]. pose proof (Forall_inv Hku) as Ha. apply Forall_inv_tail in Hku. cbn [conts] in Hku. apply Forall_inv in Hku. repeat (constructor; try assumption).
Qed.
Lemma sub_missing gs t c : groups_ok gs -> is_u32 c -> ~ In c (map fst gs) -> SubVector (pa_groups gs t) c = Ret None.
Proof.
  intros Hg Hc Hn. destruct (groups_conts gs Hg) as [Hks Hku]. unfold SubVector, pa_groups. rewrite fcp_missing; [reflexivity|exact Hks|exact Hku|exact Hc|]. rewrite conts_fst. exact Hn.
Qed.

(** ** CreatePackedArray *)
Definition gnodes (g : group) : list (Z * Z) := map (fun wn => (Pack (fst g) (fst wn), snd wn)) (snd g).
Definition nodes_of (gs : list group) : list (Z * Z) := flat_map gnodes gs.
Lemma SS_snoc (l : list Z) x : StronglySorted Z.lt l -> Forall (fun y => y < x) l -> StronglySorted Z.lt (l ++ [x]).
Proof.
  induction l as [|y l IH]; cbn [app]; intros Hs Hf; [constructor; constructor|]. apply StronglySorted_inv in Hs. destruct Hs as [H1 H2].
  apply Forall_cons_iff in Hf. destruct Hf as [Ha Hb]. constructor; [apply IH; assumption|]. apply Forall_app. split; [exact H2|]. constructor; [exact Ha|constructor].
Qed.
Lemma SS_snoc_inv (l : list Z) x : StronglySorted Z.lt (l ++ [x]) -> StronglySorted Z.lt l /\ Forall (fun y => y < x) l.
Proof.
  induction l as [|y l IH]; cbn [app]; intros H; [split; constructor|]. apply StronglySorted_inv in H. destruct H as [H1 H2].
  destruct (IH H1) as [Ha Hb]. apply Forall_app in H2. destruct H2 as [Hc Hd]. apply Forall_inv in Hd. split; constructor; assumption.
Qed.
Lemma nodes_words gs : zlen (nodes_of gs) = zlen (words_of gs).
Proof.
  unfold nodes_of, words_of. induction gs as [|[c l] gs IH]; [reflexivity|]. cbn [flat_map snd]. rewrite !zlen_app, IH. unfold gnodes. rewrite zlen_map. reflexivity.
Qed.
Lemma nodes_in gs c l w n : In (c, l) gs -> In (w, n) l -> In (Pack c w, n) (nodes_of gs).
Proof. intros H1 H2. unfold nodes_of. apply in_flat_map. exists (c, l). split; [exact H1|]. unfold gnodes. apply in_map_iff. exists (w, n). auto. Qed.
Lemma key_split k : 0 <= k < 2 ^ 64 -> is_u32 (UnpackLeft k) /\ is_u32 (UnpackRight k) /\ Pack (UnpackLeft k) (UnpackRight k) = k
  /\ UnpackLeft k = k / 2 ^ 32 /\ UnpackRight k = k mod 2 ^ 32.
Proof.
  intros Hk. unfold UnpackLeft, UnpackRight, wrap32. rewrite Z.shiftr_div_pow2 by lia.
  assert (0 <= k / 2 ^ 32 < 2 ^ 32) as Hd by (split; [apply Z.div_pos; lia|apply Z.div_lt_upper_bound; lia]).
  pose proof (Z.mod_pos_bound k (2 ^ 32) ltac:(lia)) as Hm. rewrite (Z.mod_small (k / 2 ^ 32)) by exact Hd.
  split; [exact Hd|]. split; [exact Hm|]. split; [|auto]. rewrite pack_val by (unfold is_u32; lia). pose proof (Z.div_mod k (2 ^ 32) ltac:(lia)). lia.
Qed.
Lemma pack_lt a b a' b' : is_u32 a -> is_u32 b -> is_u32 a' -> is_u32 b' -> (Pack a b < Pack a' b' <-> a < a' \/ a = a' /\ b < b').
Proof. unfold is_u32. intros. rewrite !pack_val by (unfold is_u32; lia). lia. Qed.
Lemma pack_inj a b a' b' : is_u32 a -> is_u32 b -> is_u32 a' -> is_u32 b' -> Pack a b = Pack a' b' -> a = a' /\ b = b'.
Proof. unfold is_u32. intros. rewrite !pack_val in * by (unfold is_u32; lia). lia. Qed.

Definition nodes_ok (ns : list (Z * Z)) : Prop :=
  StronglySorted Z.lt (map fst ns) /\ Forall (fun n => 0 <= fst n < 2 ^ 64 /\ is_u32 (snd n)) ns /\ zlen ns < 2 ^ 32.
Definition csum (ns : list (Z * Z)) : Z := fold_right (fun n a => snd n + a) 0 ns.
Lemma csum_snoc ns n : csum (ns ++ [n]) = csum ns + snd n.
Proof. induction ns as [|x ns IH]; cbn [app csum fold_right] in *; [lia|]. fold (csum (ns ++ [n])) (csum ns). lia. Qed.

Lemma create_ok ns : nodes_ok ns ->
  exists gs ctx, groups_ok gs /\ nodes_of gs = ns
    /\ (gs = [] \/ exists gs' l, gs = gs' ++ [(ctx, l)])
    /\ fold_left create_step ns (mkPA [] [] 0, InvalidContextOffset, 0) = (pa_groups gs (wrap32 (csum ns)), ctx, zlen ns mod 2 ^ 32).
Proof.
  induction ns as [|[k n] ns IH] using rev_ind; intros (Hs & Hf & Hz).
  - exists [], InvalidContextOffset. split; [split; [constructor|split; [constructor|cbn; lia]]|]. split; [reflexivity|]. split; [left; reflexivity|]. reflexivity.
  - rewrite map_app in Hs. cbn [map fst] in Hs. apply SS_snoc_inv in Hs. destruct Hs as [Hs Hlt].
    apply Forall_app in Hf. destruct Hf as [Hf Hkn]. apply Forall_inv in Hkn. cbn [fst snd] in Hkn. destruct Hkn as [Hk Hn].
    rewrite zlen_app in Hz. change (zlen [(k, n)]) with 1 in Hz. pose proof (zlen_nonneg ns) as Hnn.
    destruct IH as (gs & ctx & Hg & Hns & Hgs & E); [split; [exact Hs|split; [exact Hf|lia]]|].
    rewrite fold_left_app, E. cbn [fold_left create_step fst snd]. clear E.
    destruct (key_split k Hk) as (Hc & Hw & Ek & _). unfold GetKeyContext, GetKeyWordID. set (c := UnpackLeft k) in *. set (w := UnpackRight k) in *.
    rewrite Forall_map in Hlt. rewrite Forall_forall in Hlt.
    assert (forall c' l w' n', In (c', l) gs -> In (w', n') l -> is_u32 c' /\ is_u32 w' /\ (c' < c \/ c' = c /\ w' < w)) as Hord.
    { intros c' l w' n' H1 H2. destruct Hg as (_ & Hgf & _). rewrite Forall_forall in Hgf. destruct (Hgf _ H1) as (Ha & _ & _ & Hb). rewrite Forall_forall in Hb. destruct (Hb _ H2) as [Hb1 _].
      cbn [fst] in *. split; [exact Ha|]. split; [exact Hb1|]. apply pack_lt; try assumption. rewrite Ek.
      specialize (Hlt (Pack c' w', n')). apply Hlt. rewrite <- Hns. eapply nodes_in; eauto. }
    assert (zlen (words_of gs) = zlen ns) as Hwl by (rewrite <- nodes_words, Hns; reflexivity).
    assert (zlen ns mod 2 ^ 32 = zlen ns) as Emod by (apply Z.mod_small; lia). rewrite Emod.
    assert (wrap32 (zlen ns + 1) = zlen (ns ++ [(k, n)]) mod 2 ^ 32) as Efrom by (rewrite zlen_app; reflexivity). rewrite Efrom.
    assert (wrap32 (total (pa_groups gs (wrap32 (csum ns))) + n) = wrap32 (csum (ns ++ [(k, n)]))) as Etot.
    { cbn [pa_groups pa_of total]. rewrite csum_snoc, wrap32_add_l. reflexivity. }
    rewrite Etot. cbn [pa_groups pa_of containers pvalues]. rewrite zlen_map, conts_len. unfold newRangeContainer, newPackedValue.
    assert (forall g, words_of (gs ++ [g]) = words_of gs ++ snd g) as Hwa by (intros g; rewrite words_app; cbn [words_of flat_map]; rewrite app_nil_r; reflexivity).
    assert (groups_ok gs -> (forall c' l, In (c', l) gs -> c' < c) ->
      exists gs0 ctx0, groups_ok gs0 /\ nodes_of gs0 = ns ++ [(k, n)] /\ (gs0 = [] \/ exists gs' l, gs0 = gs' ++ [(ctx0, l)])
       /\ (mkPA (map pk (conts 0 gs) ++ [Pack c (zlen ns)]) (map pk (words_of gs) ++ [Pack w n]) (wrap32 (csum (ns ++ [(k, n)]))), c, zlen (ns ++ [(k, n)]) mod 2 ^ 32)
        = (pa_groups gs0 (wrap32 (csum (ns ++ [(k, n)]))), ctx0, zlen (ns ++ [(k, n)]) mod 2 ^ 32)) as Hfresh.
    { intros _ Hlc. exists (gs ++ [(c, [(w, n)])]), c. split; [|split; [|split]].
      - destruct Hg as (H1 & H2 & H3). split; [|split].
        + rewrite map_app. cbn [map fst]. apply SS_snoc; [exact H1|]. rewrite Forall_map, Forall_forall. intros [c' l] Hin. cbn [fst]. eapply Hlc. exact Hin.
        + apply Forall_app. split; [exact H2|]. constructor; [|constructor]. cbn [fst snd]. split; [exact Hc|]. split; [discriminate|]. split; [constructor; constructor|]. constructor; [split; assumption|constructor].
        + rewrite Hwa, zlen_app. cbn [snd]. change (zlen [(w, n)]) with 1. lia.
      - unfold nodes_of. rewrite flat_map_app. fold (nodes_of gs). rewrite Hns. cbn [flat_map gnodes fst snd map app]. rewrite Ek. reflexivity.
      - right. exists gs, [(w, n)]. reflexivity.
      - f_equal. f_equal. unfold pa_groups, pa_of. rewrite conts_app, Hwa. cbn [snd conts]. rewrite !map_app. cbn [map pk fst snd]. rewrite Hwl. reflexivity. }
    destruct Hgs as [->|(gs' & l & ->)].
    + change (zlen (@nil group) =? 0) with true. rewrite orb_true_r. apply Hfresh; [exact Hg|intros c' l []].
    + destruct (ctx =? c) eqn:Ec; cbn [negb orb].
      * assert (zlen (gs' ++ [(ctx, l)]) =? 0 = false) as -> by (rewrite zlen_app; change (zlen [(ctx, l)]) with 1; pose proof (zlen_nonneg gs'); lia).
        assert (ctx = c) as -> by lia. clear Hfresh. exists (gs' ++ [(c, l ++ [(w, n)])]), c. split; [|split; [|split]].
        -- destruct Hg as (H1 & H2 & H3). split; [|split].
           ++ rewrite map_app in H1 |- *. exact H1.
           ++ apply Forall_app in H2. destruct H2 as [H2 H2']. apply Forall_inv in H2'. cbn [fst snd] in H2'. destruct H2' as (Ha & Hb & Hcs & Hd). apply Forall_app. split; [exact H2|].
              constructor; [|constructor]. cbn [fst snd]. split; [exact Ha|]. split; [destruct l; discriminate|]. split.
              ** unfold ksorted. rewrite map_app. cbn [map fst]. apply SS_snoc; [exact Hcs|]. rewrite Forall_map, Forall_forall. intros [w' n'] Hin. cbn [fst].
                 destruct (Hord c l w' n') as (_ & _ & Hor); [apply in_or_app; right; left; reflexivity|exact Hin|]. lia.
              ** apply Forall_app. split; [exact Hd|]. constructor; [split; assumption|constructor].
           ++ rewrite words_app in H3, Hwl |- *. cbn [words_of flat_map snd] in H3, Hwl |- *. rewrite !app_nil_r in *. rewrite !zlen_app in *. change (zlen [(w, n)]) with 1. lia.
        -- unfold nodes_of in Hns |- *. rewrite flat_map_app in Hns |- *. rewrite <- Hns. cbn [flat_map gnodes fst snd]. unfold gnodes. cbn [fst snd]. rewrite !app_nil_r, map_app, app_assoc. cbn [map fst snd]. rewrite Ek. reflexivity.
        -- right. exists gs', (l ++ [(w, n)]). reflexivity.
        -- f_equal. f_equal. unfold pa_groups, pa_of. rewrite !conts_app, !words_app. cbn [conts words_of flat_map snd]. rewrite !app_nil_r. rewrite !map_app. cbn [map pk fst snd]. rewrite <- app_assoc. reflexivity.
      * apply Hfresh; [exact Hg|]. intros c' l' Hin. destruct Hg as (H1 & H2 & H3). rewrite map_app in H1. cbn [map fst] in H1. apply SS_snoc_inv in H1. destruct H1 as [_ H1].
        assert (ctx < c) as Hlc.
        { rewrite Forall_forall in H2. destruct (H2 (ctx, l)) as (_ & Hne & _); [apply in_or_app; right; left; reflexivity|]. cbn [snd] in Hne. destruct l as [|[w' n'] l]; [congruence|].
          destruct (Hord ctx ((w', n') :: l) w' n') as (_ & _ & Hor); [apply in_or_app; right; left; reflexivity|left; reflexivity|]. lia. }
        apply in_app_iff in Hin. destruct Hin as [Hin|[Hin|[]]]; [|injection Hin as <- <-; exact Hlc].
        rewrite Forall_map, Forall_forall in H1. specialize (H1 _ Hin). cbn [fst] in H1. lia.
Qed.
