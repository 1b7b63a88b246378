(** Proofs about the packed array: lookups in what CreatePackedArray builds. *)
From Coq Require Import Sorting.Sorted ZifyBool.
From Verif Require Import Base BaseLemmas GoMap Float64 Postings PostingsProofs Merger MergerProofs NGram.
Local Open Scope Z_scope.

Lemma left_pack a b : is_u32 a -> is_u32 b -> UnpackLeft (Pack a b) = a.
Proof. exact (position_pack a b). Qed.
Lemma right_pack a b : is_u32 a -> is_u32 b -> UnpackRight (Pack a b) = b.
Proof. exact (overlap_pack a b). Qed.
Lemma u32_0 : is_u32 0. Proof. unfold is_u32. lia. Qed.

(** ** binary search by the left half *)
(* entries as pairs (key, payload) *)
Definition pk (p : Z * Z) : Z := Pack (fst p) (snd p).
Definition u32p (p : Z * Z) : Prop := is_u32 (fst p) /\ is_u32 (snd p).
Lemma pk_val p : u32p p -> pk p = fst p * 2 ^ 32 + snd p.
Proof. intros [H1 H2]. unfold pk. apply pack_val; [unfold is_u32 in H1; lia|exact H2]. Qed.
Lemma pk_left p : u32p p -> UnpackLeft (pk p) = fst p.
Proof. intros [H1 H2]. unfold pk. rewrite left_pack by assumption. reflexivity. Qed.
Lemma pk_right p : u32p p -> UnpackRight (pk p) = snd p.
Proof. intros [H1 H2]. unfold pk. rewrite right_pack by assumption. reflexivity. Qed.
Lemma pk_ge p x : u32p p -> is_u32 x -> (pk p >=? Pack x 0) = (x <=? fst p).
Proof.
  intros Hp Hx. rewrite pk_val by exact Hp. rewrite pack_val by (unfold is_u32 in *; lia).
  destruct Hp as [H1 H2]. unfold is_u32 in *. rewrite Z.geb_leb. destruct (x <=? fst p) eqn:E; lia.
Qed.
Definition ksorted (l : list (Z * Z)) : Prop := StronglySorted Z.lt (map fst l).
Lemma ksorted_app p v q : ksorted (p ++ v :: q) -> Forall (fun a => fst a < fst v) p /\ Forall (fun a => fst v < fst a) q.
Proof.
  unfold ksorted. induction p as [|x p IH]; cbn [app map]; intros H.
  - apply StronglySorted_inv in H. destruct H as [_ H]. split; [constructor|]. rewrite Forall_map in H. exact H.
  - apply StronglySorted_inv in H. destruct H as [H1 H2]. destruct (IH H1) as [Ha Hb]. split; [|exact Hb]. constructor; [|exact Ha].
    rewrite Forall_forall in H2. apply H2. apply in_map_iff. exists v. split; [reflexivity|]. apply in_or_app. right. left. reflexivity.
Qed.
Lemma nth_pk l i : (i < length l)%nat -> nth i (map pk l) 0 = pk (nth i l (0, 0)).
Proof. intros H. rewrite (nth_indep _ 0 (pk (0, 0))) by (rewrite map_length; exact H). apply map_nth. Qed.

Lemma nth_fst (l : list (Z * Z)) i : nth i (map fst l) 0 = fst (nth i l (0, 0)).
Proof. exact (map_nth fst l (0, 0) i). Qed.
Lemma search_pk l x : ksorted l -> Forall u32p l -> is_u32 x ->
  exists k, sort_search (zlen (map pk l)) (fun i => nth (Z.to_nat i) (map pk l) 0 >=? Pack x 0) = Ret k /\ 0 <= k <= zlen l /\
    (forall a, 0 <= a < k -> fst (nth (Z.to_nat a) l (0, 0)) < x) /\ (forall a, k <= a < zlen l -> x <= fst (nth (Z.to_nat a) l (0, 0))).
Proof.
  intros Hs Hu Hx.
  assert (forall a, 0 <= a < zlen l -> (nth (Z.to_nat a) (map pk l) 0 >=? Pack x 0) = (x <=? fst (nth (Z.to_nat a) l (0, 0)))) as Hf.
  { intros a Ha. unfold zlen in Ha. rewrite nth_pk by lia. apply pk_ge; [|exact Hx]. rewrite Forall_forall in Hu. apply Hu. apply nth_In. lia. }
  assert (zlen (map pk l) = zlen l) as Hl by (unfold zlen; rewrite map_length; reflexivity). rewrite Hl.
  destruct (sort_search_ok (zlen l) (fun i => nth (Z.to_nat i) (map pk l) 0 >=? Pack x 0)) as (k & E & Hk & H1 & H2).
  - apply zlen_nonneg.
  - intros a b Ha Hab Hb Hfa. cbn beta in Hfa |- *. rewrite Hf in Hfa |- * by lia. destruct (Z.eq_dec a b) as [->|]; [exact Hfa|].
    assert (fst (nth (Z.to_nat a) l (0,0)) < fst (nth (Z.to_nat b) l (0,0))) as Hlt.
    { pose proof (sorted_nth (map fst l) Hs (Z.to_nat a) (Z.to_nat b)) as Hn. rewrite map_length in Hn.
      rewrite !nth_fst in Hn. apply Hn. unfold zlen in Hb. lia. }
    lia.
  - exists k. split; [exact E|]. split; [exact Hk|]. split.
    + intros a Ha. specialize (H1 a Ha). cbn beta in H1. rewrite Hf in H1 by lia. lia.
    + intros a Ha. specialize (H2 a Ha). cbn beta in H2. rewrite Hf in H2 by lia. lia.
Qed.
Lemma search_found p v q : ksorted (p ++ v :: q) -> Forall u32p (p ++ v :: q) ->
  sort_search (zlen (map pk (p ++ v :: q))) (fun i => nth (Z.to_nat i) (map pk (p ++ v :: q)) 0 >=? Pack (fst v) 0) = Ret (zlen p).
Proof.
  intros Hs Hu. set (l := p ++ v :: q) in *. destruct (search_pk l (fst v) Hs Hu) as (k & E & Hk & H1 & H2).
  { rewrite Forall_forall in Hu. apply (Hu v). unfold l. apply in_or_app. right. left. reflexivity. }
  rewrite E. f_equal. pose proof (zlen_nonneg p) as Hp0. pose proof (zlen_nonneg q) as Hq0.
  assert (zlen l = zlen p + 1 + zlen q) as Hl by (unfold l; rewrite zlen_app, zlen_cons; lia).
  destruct (ksorted_app p v q Hs) as [Ha Hb].
  destruct (Z.lt_trichotomy k (zlen p)) as [Hlt|[Heq|Hgt]]; [|exact Heq|].
  - specialize (H2 k). rewrite Forall_forall in Ha. specialize (Ha (nth (Z.to_nat k) l (0, 0))).
    assert (In (nth (Z.to_nat k) l (0,0)) p) as Hin.
    { unfold l. rewrite app_nth1 by (unfold zlen in *; lia). apply nth_In. unfold zlen in *; lia. }
    specialize (Ha Hin). lia.
  - specialize (H1 (zlen p)). assert (nth (Z.to_nat (zlen p)) l (0,0) = v) as Hv.
    { unfold l, zlen. rewrite Nat2Z.id. rewrite app_nth2, Nat.sub_diag by lia. reflexivity. }
    rewrite Hv in H1. lia.
Qed.
Lemma ksorted_first_last l v : ksorted l -> In v l -> fst (nth 0 l (0,0)) <= fst v <= fst (nth (length l - 1) l (0,0)).
Proof.
  intros Hs Hin. destruct (In_nth l v (0,0) Hin) as (i & Hi & <-).
  assert (forall a b, (a <= b < length l)%nat -> fst (nth a l (0,0)) <= fst (nth b l (0,0))) as Hm.
  { intros a b Hab. destruct (Nat.eq_dec a b) as [->|]; [lia|].
    pose proof (sorted_nth (map fst l) Hs a b) as Hn. rewrite map_length in Hn.
    rewrite !nth_fst in Hn. specialize (Hn ltac:(lia)). lia. }
  split; apply Hm; lia.
Qed.
Lemma index_pk l i : 0 <= i < zlen l -> index (map pk l) i = Ret (pk (nth (Z.to_nat i) l (0,0))).
Proof.
  intros Hi. rewrite (index_nth _ _ 0) by (unfold zlen in *; rewrite map_length; exact Hi). rewrite nth_pk by (unfold zlen in Hi; lia). reflexivity.
Qed.

(** ** containers: (context, offset) pairs *)
Definition pa_of (cs vs : list (Z * Z)) (t : Z) : packed := mkPA (map pk cs) (map pk vs) t.
Lemma zlen_map {A B} (f : A -> B) l : zlen (map f l) = zlen l. Proof. unfold zlen. rewrite map_length. reflexivity. Qed.

Lemma fcp_found p v q vs t : ksorted (p ++ v :: q) -> Forall u32p (p ++ v :: q) ->
  findContainerPos (pa_of (p ++ v :: q) vs t) (fst v) = Ret (zlen p).
Proof.
  intros Hs Hu. unfold findContainerPos, pa_of. cbn [containers]. set (cs := p ++ v :: q) in *. pose proof (zlen_nonneg p) as Hp0. pose proof (zlen_nonneg q) as Hq0.
  assert (zlen cs = zlen p + 1 + zlen q) as Hl by (unfold cs; rewrite zlen_app, zlen_cons; lia).
  assert (In v cs) as Hv by (unfold cs; apply in_or_app; right; left; reflexivity).
  rewrite zlen_map. destruct (zlen cs =? 0) eqn:E0; [lia|].
  rewrite index_pk by lia. cbn [bind]. rewrite Forall_forall in Hu. unfold getContext.
  rewrite pk_left by (apply Hu, nth_In; unfold zlen in Hl; lia). destruct (ksorted_first_last cs v Hs Hv) as [Hf1 Hf2].
  change (Z.to_nat 0) with 0%nat. destruct (fst v <? fst (nth 0 cs (0,0))) eqn:E1; [lia|].
  rewrite index_pk by lia. cbn [bind]. rewrite pk_left by (apply Hu, nth_In; unfold zlen in Hl |- *; lia).
  replace (Z.to_nat (zlen cs - 1)) with (length cs - 1)%nat by (unfold zlen; lia). destruct (fst (nth (length cs - 1) cs (0,0)) <? fst v) eqn:E2; [lia|].
  pose proof (search_found p v q Hs) as Hsf. fold cs in Hsf. rewrite zlen_map in Hsf. unfold newRangeContainer. rewrite Hsf by (apply Forall_forall; exact Hu). cbn [bind].
  destruct ((zlen p <? 0) || (zlen cs <=? zlen p)) eqn:E3; [lia|]. rewrite index_pk by lia. cbn [bind].
  assert (nth (Z.to_nat (zlen p)) cs (0,0) = v) as ->.
  { unfold cs, zlen. rewrite Nat2Z.id, app_nth2, Nat.sub_diag by lia. reflexivity. }
  rewrite pk_left by (apply Hu; exact Hv). rewrite Z.eqb_refl. reflexivity.
Qed.
Lemma fcp_missing cs vs t x : ksorted cs -> Forall u32p cs -> is_u32 x -> ~ In x (map fst cs) ->
  findContainerPos (pa_of cs vs t) x = Ret (-1).
Proof.
  intros Hs Hu Hx Hn. unfold findContainerPos, pa_of. cbn [containers]. rewrite zlen_map.
  pose proof (zlen_nonneg cs). destruct (zlen cs =? 0) eqn:E0; [reflexivity|]. rewrite index_pk by lia. cbn [bind].
  destruct (x <? _); [reflexivity|]. rewrite index_pk by lia. cbn [bind]. destruct (_ <? x); [reflexivity|].
  destruct (search_pk cs x Hs Hu Hx) as (k & E & Hk & _). rewrite zlen_map in E. unfold newRangeContainer. rewrite E. cbn [bind].
  destruct ((k <? 0) || (zlen cs <=? k)) eqn:E3; [reflexivity|]. rewrite index_pk by lia. cbn [bind]. unfold getContext.
  rewrite Forall_forall in Hu. assert (In (nth (Z.to_nat k) cs (0,0)) cs) as Hin by (apply nth_In; unfold zlen in *; lia).
  rewrite pk_left by (apply Hu; exact Hin). destruct (fst (nth (Z.to_nat k) cs (0,0)) =? x) eqn:E4; [|reflexivity].
  exfalso. apply Hn. apply in_map_iff. exists (nth (Z.to_nat k) cs (0,0)). split; [lia|exact Hin].
Qed.

(** ** one container's words *)
Definition in_slice (l : list (Z * Z)) (from w : Z) : res (Z * Z) :=
  let vs := map pk l in
  v0 <- index vs 0 ;;
  vl <- index vs (zlen vs - 1) ;;
  if (w <? getWordID v0) || (getWordID vl <? w) then Ret (0, InvalidContextOffset) else
  j <- sort_search (zlen vs) (fun j => nth (Z.to_nat j) vs 0 >=? newPackedValue w 0) ;;
  if (j <? 0) || (zlen vs <=? j) then Ret (0, InvalidContextOffset) else
  vj <- index vs j ;;
  if negb (getWordID vj =? w) then Ret (0, InvalidContextOffset) else
  Ret (vj, wrap32 (from + wrap32 j)).
Lemma slice_found p v q from : ksorted (p ++ v :: q) -> Forall u32p (p ++ v :: q) -> 0 <= from -> from + zlen p < 2 ^ 32 ->
  in_slice (p ++ v :: q) from (fst v) = Ret (pk v, from + zlen p).
Proof.
  intros Hs Hu Hf0 Hf. unfold in_slice. set (l := p ++ v :: q) in *. pose proof (zlen_nonneg p) as Hp0. pose proof (zlen_nonneg q) as Hq0.
  assert (zlen l = zlen p + 1 + zlen q) as Hl by (unfold l; rewrite zlen_app, zlen_cons; lia).
  assert (In v l) as Hv by (unfold l; apply in_or_app; right; left; reflexivity).
  rewrite zlen_map. rewrite !index_pk by lia. cbn [bind]. pose proof Hu as Hu'. rewrite Forall_forall in Hu'. unfold getWordID.
  rewrite !pk_left by (apply Hu', nth_In; unfold zlen in Hl |- *; lia). destruct (ksorted_first_last l v Hs Hv) as [Hf1 Hf2].
  change (Z.to_nat 0) with 0%nat. replace (Z.to_nat (zlen l - 1)) with (length l - 1)%nat by (unfold zlen; lia).
  destruct ((fst v <? fst (nth 0 l (0,0))) || (fst (nth (length l - 1) l (0,0)) <? fst v)) eqn:E1; [lia|].
  pose proof (search_found p v q Hs Hu) as Hsf. fold l in Hsf. rewrite zlen_map in Hsf. unfold newPackedValue. rewrite Hsf. cbn [bind].
  destruct ((zlen p <? 0) || (zlen l <=? zlen p)) eqn:E3; [lia|]. rewrite index_pk by lia. cbn [bind].
  assert (nth (Z.to_nat (zlen p)) l (0,0) = v) as ->.
  { unfold l, zlen. rewrite Nat2Z.id, app_nth2, Nat.sub_diag by lia. reflexivity. }
  rewrite pk_left by (apply Hu'; exact Hv). rewrite Z.eqb_refl. cbn [negb]. rewrite wrap32_add_r, wrap32_small by lia. reflexivity.
Qed.
Lemma slice_missing l from w : ksorted l -> Forall u32p l -> is_u32 w -> ~ In w (map fst l) -> l <> [] ->
  in_slice l from w = Ret (0, InvalidContextOffset).
Proof.
  intros Hs Hu Hx Hn Hne. unfold in_slice. rewrite zlen_map. assert (0 < zlen l) as Hl by (destruct l; [congruence|rewrite zlen_cons; pose proof (zlen_nonneg l); lia]).
  rewrite !index_pk by lia. cbn [bind]. destruct (_ || _); [reflexivity|].
  destruct (search_pk l w Hs Hu Hx) as (k & E & Hk & _). rewrite zlen_map in E. unfold newPackedValue. rewrite E. cbn [bind].
  destruct ((k <? 0) || (zlen l <=? k)) eqn:E3; [reflexivity|]. rewrite index_pk by lia. cbn [bind]. unfold getWordID.
  rewrite Forall_forall in Hu. assert (In (nth (Z.to_nat k) l (0,0)) l) as Hin by (apply nth_In; unfold zlen in *; lia).
  rewrite pk_left by (apply Hu; exact Hin). destruct (fst (nth (Z.to_nat k) l (0,0)) =? w) eqn:E4; [|reflexivity].
  exfalso. apply Hn. apply in_map_iff. exists (nth (Z.to_nat k) l (0,0)). split; [lia|exact Hin].
Qed.

(** ** groups: the nodes by context *)
Notation group := (Z * list (Z * Z))%type.
Definition words_of (gs : list group) : list (Z * Z) := flat_map snd gs.
Fixpoint conts (off : Z) (gs : list group) : list (Z * Z) :=
  match gs with [] => [] | (c, l) :: t => (c, off) :: conts (off + zlen l) t end.
Lemma conts_fst gs : forall off, map fst (conts off gs) = map fst gs.
Proof. induction gs as [|[c l] gs IH]; intros off; [reflexivity|]. cbn [conts map fst]. rewrite IH. reflexivity. Qed.
Lemma conts_app g1 g2 : forall off, conts off (g1 ++ g2) = conts off g1 ++ conts (off + zlen (words_of g1)) g2.
Proof.
  induction g1 as [|[c l] g1 IH]; intros off; cbn [app conts words_of flat_map snd].
  - change (zlen (@nil (Z*Z))) with 0. rewrite Z.add_0_r. reflexivity.
  - rewrite IH. rewrite zlen_app. fold (words_of g1). rewrite Z.add_assoc. reflexivity.
Qed.
Lemma conts_len gs off : zlen (conts off gs) = zlen gs.
Proof. rewrite <- (zlen_map fst), conts_fst, zlen_map. reflexivity. Qed.
Lemma words_app g1 g2 : words_of (g1 ++ g2) = words_of g1 ++ words_of g2.
Proof. unfold words_of. apply flat_map_app. Qed.
Definition groups_ok (gs : list group) : Prop :=
  StronglySorted Z.lt (map fst gs) /\ Forall (fun g => is_u32 (fst g) /\ snd g <> [] /\ ksorted (snd g) /\ Forall u32p (snd g)) gs
  /\ zlen (words_of gs) < 2 ^ 32.
Lemma conts_u32 gs : forall off, 0 <= off -> off + zlen (words_of gs) < 2 ^ 32 -> Forall (fun g : group => is_u32 (fst g)) gs -> Forall u32p (conts off gs).
Proof.
  induction gs as [|[c l] gs IH]; intros off H0 H1 Hg; cbn [conts]; [constructor|]. apply Forall_cons_iff in Hg. destruct Hg as [Hc Hg].
  cbn [words_of flat_map snd] in H1. rewrite zlen_app in H1. fold (words_of gs) in H1. pose proof (zlen_nonneg l). pose proof (zlen_nonneg (words_of gs)).
  constructor; [split; [exact Hc|unfold is_u32; cbn [snd]; lia]|]. apply IH; [lia|lia|exact Hg].
Qed.

Definition pa_groups (gs : list group) (t : Z) : packed := pa_of (conts 0 gs) (words_of gs) t.
Lemma groups_conts gs : groups_ok gs -> ksorted (conts 0 gs) /\ Forall u32p (conts 0 gs).
Proof.
  intros (H1 & H2 & H3). split; [unfold ksorted; rewrite conts_fst; exact H1|]. apply conts_u32; [lia|lia|].
  eapply Forall_impl; [|exact H2]. cbn. tauto.
Qed.
(* the slice of a group, when the containers contain its entry followed by the next one *)
Lemma find_at_group g1 c l g2 cs1 cs2 t w : groups_ok (g1 ++ (c, l) :: g2) ->
  (cs2 = [] /\ g2 = [] \/ exists c2 l2 g3 cs3, g2 = (c2, l2) :: g3 /\ cs2 = (c2, zlen (words_of g1) + zlen l) :: cs3) ->
  find_at (pa_of (cs1 ++ (c, zlen (words_of g1)) :: cs2) (words_of (g1 ++ (c, l) :: g2)) t) (zlen cs1) w = in_slice l (zlen (words_of g1)) w.
Proof.
  intros Hg Hcs. destruct Hg as (Hs & Hf & Hz). unfold find_at, pa_of. cbn [containers pvalues]. set (cs := cs1 ++ (c, zlen (words_of g1)) :: cs2).
  pose proof (zlen_nonneg (words_of g1)) as Hn1. pose proof (zlen_nonneg l) as Hnl. pose proof (zlen_nonneg cs1) as Hc1. pose proof (zlen_nonneg cs2) as Hc2.
  assert (words_of (g1 ++ (c, l) :: g2) = words_of g1 ++ l ++ words_of g2) as Ew by (rewrite words_app; reflexivity).
  rewrite Ew in Hz |- *. rewrite !zlen_app in Hz. pose proof (zlen_nonneg (words_of g2)) as Hn2.
  assert (zlen cs = zlen cs1 + 1 + zlen cs2) as Hlc by (unfold cs; rewrite zlen_app, zlen_cons; lia).
  assert (is_u32 c) as Huc. { apply Forall_app in Hf. destruct Hf as [_ Hf]. apply Forall_inv in Hf. apply Hf. }
  rewrite index_pk by lia. cbn [bind].
  assert (nth (Z.to_nat (zlen cs1)) cs (0,0) = (c, zlen (words_of g1))) as ->.
  { unfold cs, zlen. rewrite Nat2Z.id, app_nth2, Nat.sub_diag by lia. reflexivity. }
  unfold getFrom. rewrite pk_right by (split; [exact Huc|unfold is_u32; cbn [snd]; lia]). cbn [snd]. rewrite !zlen_map.
  assert ((if zlen cs1 =? zlen cs - 1 then slice (map pk (words_of g1 ++ l ++ words_of g2)) (zlen (words_of g1)) (zlen (words_of g1 ++ l ++ words_of g2))
           else c' <- index (map pk cs) (zlen cs1 + 1);; slice (map pk (words_of g1 ++ l ++ words_of g2)) (zlen (words_of g1)) (UnpackRight c'))
          = Ret (map pk l)) as E.
  { destruct Hcs as [[-> ->]|(c2 & l2 & g3 & cs3 & -> & ->)].
    - destruct (zlen cs1 =? zlen cs - 1) eqn:E; [|rewrite Hlc in E; change (zlen (@nil (Z*Z))) with 0 in E; lia].
      cbn [words_of flat_map]. rewrite app_nil_r. rewrite map_app. rewrite zlen_app.
      pose proof (slice_app (map pk (words_of g1)) (map pk l) []) as Hsl. rewrite app_nil_r, !zlen_map in Hsl. exact Hsl.
    - destruct (zlen cs1 =? zlen cs - 1) eqn:E; [rewrite zlen_cons in Hlc, Hc2; pose proof (zlen_nonneg cs3); lia|].
      rewrite zlen_cons in Hlc. pose proof (zlen_nonneg cs3) as Hc3. rewrite index_pk by lia. cbn [bind].
      assert (nth (Z.to_nat (zlen cs1 + 1)) cs (0,0) = (c2, zlen (words_of g1) + zlen l)) as ->.
      { unfold cs, zlen. rewrite app_nth2 by lia. replace (Z.to_nat (Z.of_nat (length cs1) + 1) - length cs1)%nat with 1%nat by lia. reflexivity. }
      assert (is_u32 c2) as Huc2. { apply Forall_app in Hf. destruct Hf as [_ Hf]. apply Forall_inv_tail in Hf. apply Forall_inv in Hf. apply Hf. }
      rewrite pk_right by (split; [exact Huc2|unfold is_u32; cbn [snd]; lia]). cbn [snd]. rewrite !map_app.
      pose proof (slice_app (map pk (words_of g1)) (map pk l) (map pk (words_of ((c2, l2) :: g3)))) as Hsl. rewrite !zlen_map in Hsl. exact Hsl. }
  rewrite E. reflexivity.
Qed.
