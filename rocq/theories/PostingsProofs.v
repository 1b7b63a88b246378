(** Every iterator refines the cursor of PostingsSpec. *)
From Coq Require Import ZifyBool.
From Verif Require Import Base BaseLemmas Store StoreSpec StoreProofs Compression CompressionProofs
  P_CompressionLemmas Postings PostingsSpec PostingsDrive.
Local Open Scope Z_scope.
Ltac Zify.zify_post_hook ::= Z.div_mod_to_equations.

(** A refinement relation. *)
Definition simulates (n : Z) (R : iter -> list Z -> Prop) : Prop :=
  forall i rest o, R i rest ->
    fst (iter_step i o) = fst (cursor_step n rest o) /\
    R (snd (iter_step i o)) (snd (cursor_step n rest o)).

Lemma simulates_run n R i rest : simulates n R -> R i rest ->
  forall os, iter_run i os = cursor_run n rest os.
Proof.
  intros HS HR os. revert i rest HR. induction os as [|o os IH]; intros i rest HR; [reflexivity|].
  cbn [iter_run cursor_run]. destruct (HS i rest o HR) as [H1 H2].
  destruct (iter_step i o) as [a i']; destruct (cursor_step n rest o) as [a' rest']; cbn [fst snd] in *.
  subst. f_equal. apply IH. exact H2.
Qed.

Lemma drop_lt_suffix to l : exists p, l = p ++ drop_lt to l /\ Forall (fun x => x < to) p.
Proof.
  induction l as [|x l (p & E & Hp)]; cbn [drop_lt]; [exists []; split; [reflexivity|constructor]|].
  destruct (x <? to) eqn:Hx.
  - exists (x :: p). cbn. rewrite <- E. split; [reflexivity|]. constructor; [lia|exact Hp].
  - exists []. split; [reflexivity|constructor].
Qed.
Lemma drop_lt_app to p l : Forall (fun x => x < to) p -> drop_lt to (p ++ l) = drop_lt to l.
Proof.
  induction 1 as [|x p Hx Hp IH]; [reflexivity|]. cbn [app drop_lt].
  replace (x <? to) with true by lia. exact IH.
Qed.
Lemma sorted_app_r {A} (R : A -> A -> Prop) p l : StronglySorted R (p ++ l) -> StronglySorted R l.
Proof. induction p; cbn; [auto|]. intros H. apply StronglySorted_inv in H. apply IHp, H. Qed.
Lemma sorted_app_lt p (x : Z) l : StronglySorted Z.lt (p ++ x :: l) -> Forall (fun y => y < x) p.
Proof.
  induction p as [|y p IH]; intros H; [constructor|]. cbn in H. apply StronglySorted_inv in H.
  destruct H as [H1 H2]. constructor; [|apply IH; exact H1].
  apply Forall_app in H2. destruct H2 as [_ H2]. apply Forall_inv in H2. exact H2.
Qed.
Lemma sorted_app_le p (x : Z) l : StronglySorted Z.le (p ++ x :: l) -> Forall (fun y => y <= x) p.
Proof.
  induction p as [|y p IH]; intros H; [constructor|]. cbn in H. apply StronglySorted_inv in H.
  destruct H as [H1 H2]. constructor; [|apply IH; exact H1].
  apply Forall_app in H2. destruct H2 as [_ H2]. apply Forall_inv in H2. exact H2.
Qed.
Lemma sorted_lt_le l : StronglySorted Z.lt l -> StronglySorted Z.le l.
Proof. induction 1 as [|x l Hs IH Hf]; constructor; [exact IH|]. eapply Forall_impl; [|exact Hf]. intros y Hy. cbv beta in *. lia. Qed.
Lemma posting_ascending l : posting l -> ascending l.
Proof. intros [H1 H2]. split; [apply sorted_lt_le; exact H1|exact H2]. Qed.
Lemma sorted_app_l {A} (R : A -> A -> Prop) p l : StronglySorted R (p ++ l) -> StronglySorted R p.
Proof.
  induction p; cbn; [constructor|]. intros H. apply StronglySorted_inv in H. destruct H as [H1 H2].
  apply Forall_app in H2. constructor; [auto|apply H2].
Qed.

(** ** varint list *)
Definition RV (buf : bytes) (n : Z) (i : iter) (rest : list Z) : Prop :=
  StronglySorted Z.le rest /\ Forall is_u32 rest /\ Forall is_byte buf /\ zlen buf < 2 ^ 63 /\
  exists s, i = IVb s /\ vl_size s = n /\
  match rest with
  | [] => vl_index s = n
  | x :: t => vl_cur s = x /\ vl_index s + zlen rest = n /\ 0 <= vl_index s /\
              exists pre suf, buf = pre ++ vb x t ++ suf /\ vl_in s = mkIn buf (zlen pre)
  end.

Lemma RV_next buf n s x y r : RV buf n (IVb s) (x :: y :: r) ->
  exists s', vl_next s = (Ret y, s') /\ RV buf n (IVb s') (y :: r).
Proof.
  intros (Hs & Hu & Hb & Hl & s0 & E & Hn & Hc & Hi & Hi0 & pre & suf & Eb & Ein).
  injection E as <-. rewrite !zlen_cons in Hi. pose proof (zlen_nonneg r).
  unfold vl_next, vl_hasNext. replace (vl_index s + 1 <? vl_size s) with true by lia. cbn [negb].
  rewrite Ein. subst buf. cbn [vb] in *. rewrite <- !app_assoc in *.
  assert (is_u32 y) as Hy by (apply Forall_inv_tail in Hu; apply Forall_inv in Hu; exact Hu).
  rewrite read_var_app; [|apply wrap_u32| |exact Hl].
  - rewrite Hc, delta_back by exact Hy. eexists. split; [reflexivity|].
    split; [apply StronglySorted_inv in Hs; apply Hs|]. split; [apply Forall_inv_tail in Hu; exact Hu|].
    split; [exact Hb|]. split; [exact Hl|]. eexists. split; [reflexivity|]. cbn [vl_size vl_cur vl_index vl_in]. split; [exact Hn|].
    split; [reflexivity|]. rewrite zlen_cons. split; [lia|]. split; [lia|].
    exists (pre ++ vbytes (wrap32 (y - x))), suf. rewrite <- app_assoc. split; [reflexivity|].
    rewrite zlen_app. reflexivity.
  - apply Forall_app in Hb. destruct Hb as [_ Hb]. apply Forall_app in Hb. apply Hb.
Qed.

Lemma RV_scan buf n to : forall fuel s rest x t, rest = x :: t -> (length rest <= fuel)%nat -> x < to ->
  RV buf n (IVb s) rest ->
  exists s', vl_scan fuel s to = (first (drop_lt to rest), s') /\ RV buf n (IVb s') (drop_lt to rest).
Proof.
  induction fuel as [|fuel IH]; intros s rest x t Er Hf Hx HR; [subst; cbn in Hf; lia|].
  cbn [vl_scan]. pose proof HR as (Hs & Hu & Hb & Hl & s0 & E & Hn & HR').
  injection E as <-. subst rest. destruct HR' as (Hc & Hi & Hi0 & pre & suf & Eb & Ein).
  destruct t as [|y r].
  - rewrite zlen_cons, zlen_nil in Hi. unfold vl_hasNext.
    replace (vl_index s + 1 <? vl_size s) with false by lia.
    cbn [drop_lt]. replace (x <? to) with true by lia. eexists. split; [reflexivity|].
    split; [constructor|]. split; [constructor|]. split; [exact Hb|]. split; [exact Hl|].
    eexists. split; [reflexivity|]. cbn. auto.
  - destruct (RV_next _ _ _ _ _ _ HR) as (s' & En & HR').
    pose proof (zlen_nonneg r). rewrite !zlen_cons in Hi.
    unfold vl_hasNext at 1. replace (vl_index s + 1 <? vl_size s) with true by lia.
    rewrite En. cbn [drop_lt]. replace (x <? to) with true by lia.
    destruct (y >=? to) eqn:Hy.
    + replace (y <? to) with false by lia. exists s'. split; [reflexivity|exact HR'].
    + destruct (IH s' (y :: r) y r eq_refl ltac:(cbn in *; lia) ltac:(lia) HR') as (s2 & E2 & HR2).
      exists s2. rewrite E2. cbn [drop_lt] in *. split; [reflexivity|exact HR2].
Qed.

Lemma RV_simulates buf n : simulates n (RV buf n).
Proof.
  intros i rest o HR. pose proof HR as (Hs & Hu & Hb & Hl & s & -> & Hn & HR').
  destruct o; cbn [iter_step cursor_step it_get it_hasNext it_next it_lowerBound it_len].
  - (* Get *) split; [|exact HR]. cbn [fst]. f_equal. unfold vl_get, vl_valid. destruct rest as [|x t].
    + replace (vl_index s <? vl_size s) with false by lia. reflexivity.
    + destruct HR' as (Hc & Hi & _). rewrite zlen_cons in Hi. pose proof (zlen_nonneg t).
      replace (vl_index s <? vl_size s) with true by lia. cbn. congruence.
  - (* HasNext *) split; [|exact HR]. cbn [fst]. f_equal. unfold vl_hasNext. destruct rest as [|x t].
    + rewrite zlen_nil. lia.
    + destruct HR' as (Hc & Hi & _). lia.
  - (* Next *) destruct rest as [|x [|y r]].
    + unfold vl_next, vl_hasNext. replace (vl_index s + 1 <? vl_size s) with false by lia. split; [reflexivity|exact HR].
    + destruct HR' as (Hc & Hi & _). rewrite zlen_cons, zlen_nil in Hi.
      unfold vl_next, vl_hasNext. replace (vl_index s + 1 <? vl_size s) with false by lia. split; [reflexivity|exact HR].
    + destruct (RV_next _ _ _ _ _ _ HR) as (s' & En & HR2). rewrite En. split; [reflexivity|exact HR2].
  - (* LowerBound *) destruct rest as [|x t].
    + unfold vl_lowerBound, vl_valid. replace (vl_index s <? vl_size s) with false by lia. split; [reflexivity|exact HR].
    + destruct HR' as (Hc & Hi & Hi0 & _). rewrite zlen_cons in Hi. pose proof (zlen_nonneg t).
      unfold vl_lowerBound, vl_valid. replace (vl_index s <? vl_size s) with true by lia. cbn [negb].
      destruct (vl_cur s >=? to) eqn:Ht.
      * cbn [drop_lt]. replace (x <? to) with false by lia. cbn [fst snd first]. split; [congruence|exact HR].
      * destruct (RV_scan buf n to (S (Z.to_nat (vl_size s))) s (x :: t) x t eq_refl) as (s' & E & HR2);
          [unfold zlen in *; cbn [length]; lia|lia|exact HR|].
        rewrite E. split; [reflexivity|exact HR2].
  - split; [cbn; congruence|exact HR].
Qed.

(* opening a varint list whose bytes start at the reader's position *)
Lemma RV_init pre suf x t : ascending (x :: t) -> Forall is_byte pre -> Forall is_byte suf ->
  zlen (pre ++ vb 0 (x :: t) ++ suf) < 2 ^ 63 ->
  exists s, vl_init (mkIn (pre ++ vb 0 (x :: t) ++ suf) (zlen pre)) (zlen (x :: t)) = Ret s /\
    RV (pre ++ vb 0 (x :: t) ++ suf) (zlen (x :: t)) (IVb s) (x :: t).
Proof.
  intros [Hs Hu] Hp Hsf Hl. unfold vl_init.
  assert (Forall is_byte (pre ++ vb 0 (x :: t) ++ suf)) as Hb.
  { apply Forall_app; split; [exact Hp|]. apply Forall_app; split; [apply vb_bytes|exact Hsf]. }
  cbn [vb] in *. rewrite <- !app_assoc in *.
  rewrite read_var_app; [|apply wrap_u32| |exact Hl].
  - eexists. split; [reflexivity|]. split; [exact Hs|]. split; [exact Hu|]. split; [exact Hb|]. split; [exact Hl|].
    eexists. split; [reflexivity|]. cbn. split; [reflexivity|]. split; [|split; [lia|split; [lia|]]].
    + rewrite Z.sub_0_r. apply wrap32_small. apply Forall_inv in Hu. exact Hu.
    + exists (pre ++ vbytes (wrap32 (x - 0))), suf. rewrite <- app_assoc, zlen_app. auto.
  - apply Forall_app; split; [apply vb_bytes|exact Hsf].
Qed.

(** ** slice iterator *)
Definition RS (l : list Z) (i : iter) (rest : list Z) : Prop :=
  StronglySorted Z.le l /\ exists p, l = p ++ rest /\ i = ISlice (mkSl l (zlen p)).

(* sort.Search on a predicate monotone on [i,j) finds the boundary *)
Lemma sort_search_loop_ok f : forall fuel i j, (Z.to_nat (j - i) < fuel)%nat -> 0 <= i <= j ->
  (forall a b, i <= a -> a <= b -> b < j -> f a = true -> f b = true) ->
  exists k, sort_search_loop fuel f i j = Ret k /\ i <= k <= j /\
    (forall a, i <= a < k -> f a = false) /\ (forall a, k <= a < j -> f a = true).
Proof.
  induction fuel as [|fuel IH]; intros i j Hf Hij Hm; [lia|]. cbn [sort_search_loop].
  destruct (i <? j) eqn:Hlt.
  2:{ exists i. split; [reflexivity|]. split; [lia|]. split; intros a Ha; lia. }
  rewrite Z.shiftr_div_pow2 by lia. change (2 ^ 1) with 2. set (h := (i + j) / 2).
  assert (i <= h < j) as Hh by (unfold h; lia). clearbody h.
  destruct (f h) eqn:Hfh; cbn [negb].
  - destruct (IH i h) as (k & E & Hk & H1 & H2); [lia|lia| |].
    { intros a b Ha Hab Hb. apply Hm; lia. }
    exists k. split; [exact E|]. split; [lia|]. split; [exact H1|]. intros a Ha.
    destruct (Z.lt_ge_cases a h); [apply H2; lia|]. apply (Hm h a); auto; lia.
  - destruct (IH (h + 1) j) as (k & E & Hk & H1 & H2); [lia|lia| |].
    { intros a b Ha Hab Hb. apply Hm; lia. }
    exists k. split; [exact E|]. split; [lia|]. split; [|exact H2]. intros a Ha.
    destruct (Z.le_gt_cases a h); [|apply H1; lia].
    destruct (f a) eqn:Hfa; [|reflexivity]. rewrite (Hm a h) in Hfh; auto; lia.
Qed.
Lemma sort_search_ok n f : 0 <= n ->
  (forall a b, 0 <= a -> a <= b -> b < n -> f a = true -> f b = true) ->
  exists k, sort_search n f = Ret k /\ 0 <= k <= n /\
    (forall a, 0 <= a < k -> f a = false) /\ (forall a, k <= a < n -> f a = true).
Proof.
  intros Hn Hm. apply sort_search_loop_ok; [lia|lia|]. exact Hm.
Qed.

Lemma sorted_nth l : StronglySorted Z.lt l -> forall a b, (a < b < length l)%nat -> nth a l 0 < nth b l 0.
Proof.
  induction 1 as [|x l Hs IH Hf]; intros a b Hab; [cbn in Hab; lia|].
  destruct a, b; cbn [nth length] in *; try lia.
  - rewrite Forall_forall in Hf. apply Hf. apply nth_In. lia.
  - apply IH. lia.
Qed.
Lemma sorted_nth_le l : StronglySorted Z.le l -> forall a b, (a < b < length l)%nat -> nth a l 0 <= nth b l 0.
Proof.
  induction 1 as [|x l Hs IH Hf]; intros a b Hab; [cbn in Hab; lia|].
  destruct a, b; cbn [nth length] in *; try lia.
  - rewrite Forall_forall in Hf. apply Hf. apply nth_In. lia.
  - apply IH. lia.
Qed.

(* the first index with value >= to splits the list as drop_lt does *)
Lemma search_drop_lt to l : StronglySorted Z.le l ->
  exists p, sort_search (zlen l) (fun i => nth (Z.to_nat i) l 0 >=? to) = Ret (zlen p) /\
    l = p ++ drop_lt to l.
Proof.
  intros Hs. destruct (sort_search_ok (zlen l) (fun i => nth (Z.to_nat i) l 0 >=? to)) as (k & E & Hk & H1 & H2).
  - apply zlen_nonneg.
  - intros a b Ha Hab Hb Hfa. destruct (Z.eq_dec a b) as [->|]; [exact Hfa|].
    pose proof (sorted_nth_le l Hs (Z.to_nat a) (Z.to_nat b)). unfold zlen in Hb. lia.
  - exists (firstn (Z.to_nat k) l).
    assert (zlen (firstn (Z.to_nat k) l) = k) as Hlen by (unfold zlen in *; rewrite firstn_length; lia).
    rewrite Hlen. split; [exact E|].
    rewrite <- (firstn_skipn (Z.to_nat k) l) at 1. f_equal.
    rewrite <- (firstn_skipn (Z.to_nat k) l) at 2. rewrite drop_lt_app.
    + destruct (skipn (Z.to_nat k) l) as [|y t] eqn:Es; [reflexivity|]. cbn [drop_lt].
      assert (k < zlen l) as Hkl.
      { apply (f_equal (@length Z)) in Es. rewrite skipn_length in Es. cbn in Es. unfold zlen. lia. }
      specialize (H2 k ltac:(lia)). cbv beta in H2.
      assert (nth (Z.to_nat k) l 0 = y) as En.
      { rewrite <- (firstn_skipn (Z.to_nat k) l), Es. rewrite app_nth2; rewrite firstn_length; unfold zlen in *; [|lia].
        replace (Z.to_nat k - Nat.min (Z.to_nat k) (length l))%nat with O by lia. reflexivity. }
      rewrite En in H2. replace (y <? to) with false by lia. reflexivity.
    + apply Forall_forall. intros y Hy. destruct (In_nth _ _ 0 Hy) as (a & Ha & En).
      rewrite firstn_length in Ha. specialize (H1 (Z.of_nat a) ltac:(unfold zlen in *; lia)). cbv beta in H1.
      rewrite Nat2Z.id in H1.
      assert (nth a l 0 = y) as En'.
      { rewrite <- En, <- (firstn_skipn (Z.to_nat k) l) at 1. rewrite app_nth1; [reflexivity|rewrite firstn_length; lia]. }
      lia.
Qed.

Lemma RS_simulates l : simulates (zlen l) (RS l).
Proof.
  intros i rest o HR. pose proof HR as (Hs & p & E & ->).
  assert (zlen l = zlen p + zlen rest) as Hlen by (rewrite E, zlen_app; reflexivity).
  pose proof (zlen_nonneg p). pose proof (zlen_nonneg rest).
  destruct o; cbn [iter_step cursor_step it_get it_hasNext it_next it_lowerBound it_len].
  - split; [|exact HR]. cbn [fst]. f_equal. unfold sl_get. cbn [sl_slice sl_index]. destruct rest as [|x t].
    + rewrite zlen_nil in *. replace (zlen p <? zlen l) with false by lia. reflexivity.
    + rewrite zlen_cons in Hlen. pose proof (zlen_nonneg t). replace (zlen p <? zlen l) with true by lia.
      rewrite E at 1. rewrite index_app_0. reflexivity.
  - split; [|exact HR]. cbn [fst]. f_equal. unfold sl_hasNext. cbn [sl_slice sl_index]. lia.
  - unfold sl_next, sl_hasNext. cbn [sl_slice sl_index].
    destruct rest as [|x [|y r]].
    + rewrite zlen_nil in *. replace (zlen p + 1 <? zlen l) with false by lia. split; [reflexivity|exact HR].
    + rewrite zlen_cons, zlen_nil in *. replace (zlen p + 1 <? zlen l) with false by lia. split; [reflexivity|exact HR].
    + rewrite !zlen_cons in Hlen. pose proof (zlen_nonneg r). replace (zlen p + 1 <? zlen l) with true by lia. cbn [negb].
      assert (l = (p ++ [x]) ++ y :: r) as E2 by (rewrite <- app_assoc; exact E).
      assert (zlen p + 1 = zlen (p ++ [x])) as E3 by (rewrite zlen_app, zlen_cons, zlen_nil; lia).
      rewrite E3. split.
      * cbn [fst]. f_equal. rewrite E2 at 1. apply index_app_0.
      * split; [exact Hs|]. exists (p ++ [x]). auto.
  - unfold sl_lowerBound. cbn [sl_slice sl_index]. destruct rest as [|x t].
    + rewrite zlen_nil in *. replace (zlen p <? zlen l) with false by lia. split; [reflexivity|exact HR].
    + assert (0 < zlen (x :: t)) by (rewrite zlen_cons; pose proof (zlen_nonneg t); lia).
      replace (zlen p <? zlen l) with true by lia. cbn [negb].
      assert (slice l (zlen p) (zlen l) = Ret (x :: t)) as Esl.
      { rewrite Hlen, E. rewrite <- (app_nil_r (x :: t)) at 1. rewrite app_assoc, <- app_assoc. apply slice_app. }
      rewrite Esl.
      destruct (search_drop_lt to (x :: t)) as (q & Eq & Ed).
      { rewrite E in Hs. eapply sorted_app_r. exact Hs. }
      rewrite Eq. pose proof (zlen_nonneg q).
      assert (zlen (x :: t) = zlen q + zlen (drop_lt to (x :: t))) as Hl2 by (rewrite Ed at 1; rewrite zlen_app; reflexivity).
      remember (drop_lt to (x :: t)) as d eqn:Hd. destruct d as [|y r].
      * rewrite zlen_nil in Hl2. replace ((zlen q <? 0) || (zlen q >=? zlen (x :: t))) with true by lia.
        split; [reflexivity|]. cbn [snd]. split; [exact Hs|]. exists l. rewrite app_nil_r. auto.
      * rewrite (zlen_cons y r) in Hl2. pose proof (zlen_nonneg r).
        replace ((zlen q <? 0) || (zlen q >=? zlen (x :: t))) with false by lia.
        split.
        -- cbn [fst first]. f_equal. rewrite Ed. apply index_app_0.
        -- cbn [snd]. split; [exact Hs|]. exists (p ++ q). rewrite <- app_assoc, <- Ed, zlen_app. auto.
  - split; [reflexivity|exact HR].
Qed.

(** ** bitmap *)
Lemma advance_drop_lt to l : advance to l = drop_lt to l.
Proof. induction l as [|x l IH]; [reflexivity|]. cbn. rewrite IH. reflexivity. Qed.
Definition RB (n : Z) (i : iter) (rest : list Z) : Prop :=
  exists s, i = IBit s /\ bl_len s = n /\
  match rest with
  | [] => bl_valid s = false
  | x :: t => s = mkBl t x true n
  end.
Lemma RB_simulates n : simulates n (RB n).
Proof.
  intros i rest o HR. pose proof HR as (s & -> & Hn & H).
  destruct o; cbn [iter_step cursor_step it_get it_hasNext it_next it_lowerBound it_len].
  - split; [|exact HR]. cbn [fst]. f_equal. unfold bl_get. destruct rest as [|x t]; [rewrite H|subst s]; reflexivity.
  - split; [|exact HR]. cbn [fst]. f_equal. unfold bl_hasNext. destruct rest as [|x t]; [rewrite H; reflexivity|subst s].
    cbn [bl_valid bl_rest andb]. destruct t as [|y t]; [reflexivity|]. rewrite !zlen_cons. pose proof (zlen_nonneg t). lia.
  - unfold bl_next, bl_hasNext. destruct rest as [|x t].
    + rewrite H. split; [reflexivity|exact HR].
    + subst s. cbn. destruct t as [|y r]; cbn; [split; [reflexivity|exact HR]|].
      split; [reflexivity|]. eexists. split; [reflexivity|]. cbn. auto.
  - unfold bl_lowerBound. destruct rest as [|x t].
    + rewrite H. split; [reflexivity|exact HR].
    + subst s. cbn [bl_valid bl_cur bl_rest negb drop_lt bl_len].
      destruct (x >=? to) eqn:Hx.
      * replace (x <? to) with false by lia. split; [reflexivity|exact HR].
      * replace (x <? to) with true by lia. rewrite advance_drop_lt.
        destruct (drop_lt to t) as [|y r]; (split; [reflexivity|]; eexists; split; [reflexivity|]; cbn; auto).
  - split; [cbn; congruence|exact HR].
Qed.
