(** Proofs about the vector builder and the model read from n-gram files. *)
From Coq Require Import Sorting.Sorted ZifyBool.
From Verif Require Import Base BaseLemmas GoMap Float64 Postings PostingsProofs Merger MergerProofs NGram NGramSpec NGramProofs NGramProofs2.
Local Open Scope Z_scope.
Local Opaque Pack UnpackLeft UnpackRight.

(** ** Lookups by node *)
Lemma nodes_split : forall gs n1 k n n2, nodes_of gs = n1 ++ (k, n) :: n2 ->
  exists g1 c p w q g2, gs = g1 ++ (c, p ++ (w, n) :: q) :: g2 /\ k = Pack c w /\ zlen n1 = zlen (words_of g1) + zlen p.
Proof.
  induction gs as [|[c l] gs IH]; intros n1 k n n2 E; [destruct n1; discriminate|].
  unfold nodes_of in E. cbn [flat_map] in E. fold (nodes_of gs) in E. symmetry in E. apply app_eq_app in E.
  destruct E as (m & [[E1 E2]|[E1 E2]]).
  - (* n1 = gnodes ++ m *) destruct (IH m k n n2 E2) as (g1 & c' & p & w & q & g2 & -> & -> & Hz).
    exists ((c, l) :: g1), c', p, w, q, g2. split; [reflexivity|]. split; [reflexivity|]. rewrite E1, zlen_app. unfold gnodes. rewrite zlen_map. cbn [words_of flat_map snd]. rewrite zlen_app. fold (words_of g1). lia.
  - destruct m as [|x m]; cbn [app] in E2.
    + rewrite app_nil_r in E1. destruct (IH [] k n n2 (eq_sym E2)) as (g1 & c' & p & w & q & g2 & -> & -> & Hz).
      exists ((c, l) :: g1), c', p, w, q, g2. split; [reflexivity|]. split; [reflexivity|]. rewrite <- E1. unfold gnodes. rewrite zlen_map. cbn [words_of flat_map snd]. rewrite zlen_app. fold (words_of g1). change (zlen (@nil (Z * Z))) with 0 in Hz. lia.
    + injection E2 as <- E2. unfold gnodes in E1. cbn [snd fst] in E1. apply map_eq_app in E1. destruct E1 as (p & r & -> & Ep & Er).
      destruct r as [|[w n'] q]; [discriminate|]. cbn [map] in Er. injection Er as Ek En Eq. cbn [fst snd] in *. subst k n'.
      exists [], c, p, w, q, gs. split; [reflexivity|]. split; [reflexivity|]. rewrite <- Ep, zlen_map. cbn. lia.
Qed.
Definition create (ns : list (Z * Z)) : packed := CreatePackedArray ns.
Lemma create_groups ns : nodes_ok ns -> exists gs, groups_ok gs /\ nodes_of gs = ns /\ CreatePackedArray ns = pa_groups gs (wrap32 (csum ns)).
Proof.
  intros H. destruct (create_ok ns H) as (gs & ctx & H1 & H2 & _ & H3). exists gs. split; [exact H1|]. split; [exact H2|].
  unfold CreatePackedArray. rewrite H3. reflexivity.
Qed.
Lemma groups_u32 gs c l w n : groups_ok gs -> In (c, l) gs -> In (w, n) l -> is_u32 c /\ is_u32 w /\ is_u32 n.
Proof.
  intros (_ & H & _) H1 H2. rewrite Forall_forall in H. destruct (H _ H1) as (Ha & _ & _ & Hb). rewrite Forall_forall in Hb. destruct (Hb _ H2) as [Hc Hd]. auto.
Qed.
Lemma find_node ns n1 n2 c w n : nodes_ok ns -> is_u32 c -> is_u32 w -> ns = n1 ++ (Pack c w, n) :: n2 ->
  find (CreatePackedArray ns) w c = Ret (Pack w n, zlen n1) /\ is_u32 n.
Proof.
  intros H Hc Hw Hns. destruct (create_groups ns H) as (gs & Hg & Hn & ->). rewrite Hns in Hn.
  destruct (nodes_split gs _ _ _ _ Hn) as (g1 & c' & p & w' & q & g2 & -> & Ek & ->).
  destruct (groups_u32 _ c' (p ++ (w', n) :: q) w' n Hg) as (Hc' & Hw' & Hn'); [apply in_or_app; right; left; reflexivity|apply in_or_app; right; left; reflexivity|].
  apply pack_inj in Ek; try assumption. destruct Ek as [-> ->]. split; [|exact Hn']. rewrite find_found by exact Hg. reflexivity.
Qed.
Lemma find_no_node ns c w : nodes_ok ns -> is_u32 c -> is_u32 w -> (forall n, ~ In (Pack c w, n) ns) ->
  find (CreatePackedArray ns) w c = Ret (0, InvalidContextOffset).
Proof.
  intros H Hc Hw Hno. destruct (create_groups ns H) as (gs & Hg & Hn & ->). apply find_missing; try assumption.
  intros l Hl Hin. apply in_map_iff in Hin. destruct Hin as ([w' n] & Ew & Hin). cbn [fst] in Ew. subst w'. apply (Hno n). rewrite <- Hn. eapply nodes_in; eauto.
Qed.
Lemma getcount_find v w c : GetCount v w c = ('(x, i) <- find v w c ;; if InvalidContextOffset =? i then Ret (0, InvalidContextOffset) else Ret (UnpackRight x, i)).
Proof. reflexivity. Qed.
Lemma getcount_node ns n1 n2 c w n : nodes_ok ns -> zlen ns <= 2 ^ 32 - 3 -> is_u32 c -> is_u32 w -> ns = n1 ++ (Pack c w, n) :: n2 ->
  GetCount (CreatePackedArray ns) w c = Ret (n, zlen n1).
Proof.
  intros H Hz Hc Hw Hns. destruct (find_node ns n1 n2 c w n H Hc Hw Hns) as [E Hn]. rewrite getcount_find, E. cbn [bind].
  rewrite Hns, zlen_app, zlen_cons in Hz. pose proof (zlen_nonneg n1). pose proof (zlen_nonneg n2).
  destruct (InvalidContextOffset =? zlen n1) eqn:E1; [unfold InvalidContextOffset, maxContextOffset in E1; lia|]. rewrite right_pack by assumption. reflexivity.
Qed.
Lemma getcount_no_node ns c w : nodes_ok ns -> is_u32 c -> is_u32 w -> (forall n, ~ In (Pack c w, n) ns) ->
  GetCount (CreatePackedArray ns) w c = Ret (0, InvalidContextOffset).
Proof. intros. rewrite getcount_find, find_no_node by assumption. reflexivity. Qed.
Lemma sub_node ns c : nodes_ok ns -> is_u32 c ->
  ((exists w n, is_u32 w /\ In (Pack c w, n) ns) -> exists sub, SubVector (CreatePackedArray ns) c = Ret (Some sub) /\ forall w, GetCount sub w c = GetCount (CreatePackedArray ns) w c)
  /\ ((forall w n, is_u32 w -> ~ In (Pack c w, n) ns) -> SubVector (CreatePackedArray ns) c = Ret None).
Proof.
  intros H Hc. destruct (create_groups ns H) as (gs & Hg & Hn & ->). split.
  - intros (w & n & Hw & Hin). rewrite <- Hn in Hin. apply in_split in Hin. destruct Hin as (n1 & n2 & Hin).
    destruct (nodes_split gs _ _ _ _ Hin) as (g1 & c' & p & w' & q & g2 & -> & Ek & _).
    destruct (groups_u32 _ c' (p ++ (w', n) :: q) w' n Hg) as (Hc' & Hw' & _); [apply in_or_app; right; left; reflexivity|apply in_or_app; right; left; reflexivity|].
    apply pack_inj in Ek; try assumption. destruct Ek as [-> ->].
    destruct (sub_found g1 c' (p ++ (w', n) :: q) g2 (wrap32 (csum ns)) Hg) as (sub & E & _ & Hs). exists sub. split; [exact E|].
    intros x. rewrite !getcount_find, Hs. reflexivity.
  - intros Hno. apply sub_missing; [exact Hg|exact Hc|]. intros Hin. apply in_map_iff in Hin. destruct Hin as ([c' l] & Ec & Hin). cbn [fst] in Ec. subst c'.
    destruct Hg as (Hs & Hf & Hz). rewrite Forall_forall in Hf. destruct (Hf _ Hin) as (_ & Hne & _ & Hu). cbn [snd] in *. destruct l as [|[w n] l]; [congruence|].
    apply Forall_inv in Hu. destruct Hu as [Hu _]. apply (Hno w n Hu). rewrite <- Hn. eapply nodes_in; [exact Hin|left; reflexivity].
Qed.

(** ** The tree *)
Lemma tree_keys t k c x : In x (map fst (tree_put t k c)) <-> In x (map fst t) \/ x = k.
Proof.
  induction t as [|[k' c'] t IH]; cbn [tree_put map fst In]; [intuition|].
  destruct (k' <? k) eqn:E1; [cbn [map fst In]; rewrite IH; tauto|]. destruct (k' =? k) eqn:E2; cbn [map fst In]; [|intuition].
  assert (k' = k) by lia. subst. intuition.
Qed.
Lemma tree_sorted t k c : StronglySorted Z.lt (map fst t) -> StronglySorted Z.lt (map fst (tree_put t k c)).
Proof.
  induction t as [|[k' c'] t IH]; cbn [tree_put map fst]; intros H; [constructor; constructor|]. pose proof H as H0. apply StronglySorted_inv in H. destruct H as [H1 H2].
  destruct (k' <? k) eqn:E1.
  - cbn [map fst]. constructor; [apply IH; exact H1|]. rewrite Forall_forall in *. intros x Hx. apply tree_keys in Hx. destruct Hx as [Hx| ->]; [apply H2; exact Hx|lia].
  - destruct (k' =? k) eqn:E2; cbn [map fst]; [constructor; assumption|]. constructor; [exact H0|]. constructor; [lia|]. rewrite Forall_forall in *. intros x Hx. specialize (H2 x Hx). lia.
Qed.
Lemma tree_get t k c k' : StronglySorted Z.lt (map fst t) ->
  mget Z.eqb (tree_put t k c) k' = if k =? k' then Some (match mget Z.eqb t k with Some c0 => wrap32 (c0 + c) | None => c end) else mget Z.eqb t k'.
Proof.
  induction t as [|[a b] t IH]; cbn [tree_put mget map fst]; intros H; [reflexivity|]. apply StronglySorted_inv in H. destruct H as [H1 H2].
  destruct (a <? k) eqn:E1; cbn [mget].
  - rewrite (IH H1). destruct (a =? k') eqn:E2, (k =? k') eqn:E3, (a =? k) eqn:E4; try reflexivity; lia.
  - destruct (a =? k) eqn:E2; cbn [mget].
    + assert (a = k) by lia. subst a. destruct (k =? k'); reflexivity.
    + destruct (k =? k') eqn:E3; [|reflexivity]. assert (mget Z.eqb t k = None) as ->; [|reflexivity].
      apply (mget_None _ Zeqb_ok). intros Hin. rewrite Forall_forall in H2. specialize (H2 _ Hin). lia.
Qed.
(* all the lines of a file, given the key of each *)
Definition puts (kl : list (Z * Z)) (t : list (Z * Z)) : list (Z * Z) := fold_left (fun t kc => tree_put t (fst kc) (snd kc)) kl t.
Definition ktotal (kl : list (Z * Z)) (k : Z) : Z := fold_right (fun kc a => (if fst kc =? k then snd kc else 0) + a) 0 kl.
Lemma puts_sorted kl : forall t, StronglySorted Z.lt (map fst t) -> StronglySorted Z.lt (map fst (puts kl t)).
Proof. induction kl as [|[k c] kl IH]; intros t H; [exact H|]. unfold puts in *. cbn [fold_left fst snd]. apply IH, tree_sorted, H. Qed.
Lemma puts_keys kl : forall t x, In x (map fst (puts kl t)) <-> In x (map fst t) \/ In x (map fst kl).
Proof.
  induction kl as [|[k c] kl IH]; intros t x; unfold puts in *; cbn [fold_left fst snd map In]; [tauto|]. rewrite IH, tree_keys. intuition.
Qed.
Lemma puts_get kl : forall t k a, Forall (fun kc => is_u32 (snd kc)) kl -> StronglySorted Z.lt (map fst t) ->
  (mget Z.eqb t k = None /\ a = 0 \/ mget Z.eqb t k = Some (wrap32 a)) ->
  In k (map fst t) \/ In k (map fst kl) ->
  mget Z.eqb (puts kl t) k = Some (wrap32 (a + ktotal kl k)).
Proof.
  induction kl as [|[k0 c] kl IH]; intros t k a Hu Hs Ha Hin; unfold puts in *; cbn [fold_left fst snd ktotal fold_right].
  - destruct Ha as [[Ha _]|Ha]; [|rewrite Ha; f_equal; f_equal; lia]. apply (mget_None _ Zeqb_ok) in Ha. cbn [map In] in Hin. tauto.
  - fold (ktotal kl k). apply Forall_cons_iff in Hu. destruct Hu as [Hc Hu]. cbn [snd] in Hc.
    replace (a + ((if k0 =? k then c else 0) + ktotal kl k)) with ((a + if k0 =? k then c else 0) + ktotal kl k) by lia.
    apply IH; [exact Hu|apply tree_sorted; exact Hs| |].
    + rewrite tree_get by exact Hs. destruct (k0 =? k) eqn:E.
      * assert (k0 = k) by lia. subst k0. right. destruct Ha as [[-> ->]| ->]; f_equal; [rewrite wrap32_small by (unfold is_u32 in Hc; lia); lia|apply wrap32_add_l].
      * rewrite Z.add_0_r. exact Ha.
    + rewrite tree_keys. cbn [map fst In] in Hin. intuition.
Qed.
Lemma puts_all kl k : Forall (fun kc => is_u32 (snd kc)) kl -> In k (map fst kl) -> mget Z.eqb (puts kl []) k = Some (wrap32 (ktotal kl k)).
Proof. intros Hu Hin. apply (puts_get kl [] k 0 Hu); [constructor|left; auto|right; exact Hin]. Qed.
Lemma tree_u32 t k c : Forall (fun n => is_u32 (snd n)) t -> is_u32 c -> Forall (fun n => is_u32 (snd n)) (tree_put t k c).
Proof.
  induction t as [|[a b] t IH]; cbn [tree_put]; intros Ht Hc; [constructor; auto|]. apply Forall_cons_iff in Ht. destruct Ht as [H1 H2].
  destruct (a <? k); [constructor; auto|]. destruct (a =? k); [constructor; [apply wrap32_range|exact H2]|]. constructor; [exact Hc|constructor; auto].
Qed.
Lemma puts_u32 kl : forall t, Forall (fun n => is_u32 (snd n)) t -> Forall (fun kc => is_u32 (snd kc)) kl -> Forall (fun n => is_u32 (snd n)) (puts kl t).
Proof.
  induction kl as [|[k c] kl IH]; intros t Ht Hu; [exact Ht|]. apply Forall_cons_iff in Hu. destruct Hu as [Hc Hu]. unfold puts in *. cbn [fold_left fst snd]. apply IH; [apply tree_u32; assumption|exact Hu].
Qed.
Lemma csum_put t k c : wrap32 (csum (tree_put t k c)) = wrap32 (csum t + c).
Proof.
  induction t as [|[a b] t IH]; cbn [tree_put csum fold_right snd]; [f_equal; lia|]. fold (csum t).
  destruct (a <? k); cbn [fold_right snd].
  - fold (csum (tree_put t k c)). rewrite <- wrap32_add_r, IH, wrap32_add_r. f_equal. lia.
  - destruct (a =? k); cbn [fold_right snd]; fold (csum t); [rewrite wrap32_add_l; f_equal; lia|f_equal; lia].
Qed.
Lemma csum_puts kl : forall t, wrap32 (csum (puts kl t)) = wrap32 (csum t + csum kl).
Proof.
  induction kl as [|[k c] kl IH]; intros t; unfold puts in *; cbn [fold_left fst snd].
  { change (csum (@nil (Z * Z))) with 0. f_equal. lia. }
  change (csum ((k, c) :: kl)) with (c + csum kl). rewrite IH.
  rewrite <- wrap32_add_l, csum_put, wrap32_add_l. f_equal. lia.
Qed.

(** ** Walking down the vectors *)
Fixpoint walk (ixs : list packed) (g : list Z) (parent : Z) {struct g} : res (list Z * Z) :=
  match g with
  | [] => Ret ([], parent)
  | w :: g' => match ixs with
               | [] => Panic
               | v :: vs => '(c, o) <- GetCount v w parent ;; '(cs, o') <- walk vs g' o ;; Ret (c :: cs, o')
               end
  end.
Lemma walk_short vs V g : forall parent, (length g <= length vs)%nat -> walk (vs ++ [V]) g parent = walk vs g parent.
Proof.
  revert vs. induction g as [|w g IH]; intros vs parent H; [reflexivity|]. destruct vs as [|v vs]; [cbn in H; lia|]. cbn [app walk].
  destruct (GetCount v w parent) as [[c o]|e| |]; cbn [bind]; try reflexivity. rewrite IH by (cbn [length] in H; lia). reflexivity.
Qed.
Lemma walk_snoc vs V p w : forall parent, length p = length vs ->
  walk (vs ++ [V]) (p ++ [w]) parent = ('(cs, o) <- walk vs p parent ;; '(c, o') <- GetCount V w o ;; Ret (cs ++ [c], o')).
Proof.
  revert vs. induction p as [|x p IH]; intros vs parent H; destruct vs as [|v vs]; cbn [length] in H; try lia.
  - cbn [app walk bind]. destruct (GetCount V w parent) as [[c o]|e| |]; reflexivity.
  - cbn [app walk]. destruct (GetCount v x parent) as [[c o]|e| |]; cbn [bind]; try reflexivity.
    rewrite IH by lia. destruct (walk vs p o) as [[cs o']|e| |]; cbn [bind]; try reflexivity. destruct (GetCount V w o') as [[c' o'']|e| |]; reflexivity.
Qed.
Lemma put_parent_walk vs p w : forall parent, length p = length vs ->
  put_parent vs (p ++ [w]) parent = ('(_, o) <- walk vs p parent ;; Ret (w, o)).
Proof.
  revert vs. induction p as [|x p IH]; intros vs parent H; destruct vs as [|v vs]; cbn [length] in H; try lia; [reflexivity|].
  cbn [app]. assert (put_parent (v :: vs) (x :: p ++ [w]) parent = (o <- GetContextOffset v x parent ;; put_parent vs (p ++ [w]) o)) as ->.
  { cbn [put_parent]. destruct (p ++ [w]) eqn:E; [destruct p; discriminate|reflexivity]. }
  cbn [walk]. unfold GetCount, GetContextOffset. destruct (find v x parent) as [[val i]|e| |]; cbn [bind]; try reflexivity.
  destruct (InvalidContextOffset =? i) eqn:E; cbn [bind].
  - assert (i = InvalidContextOffset) as -> by lia. rewrite IH by lia. destruct (walk vs p InvalidContextOffset) as [[cs o']|e| |]; reflexivity.
  - rewrite IH by lia. destruct (walk vs p i) as [[cs o']|e| |]; reflexivity.
Qed.
Lemma score_walk ixs g : forall parent cs o, walk ixs g parent = Ret (cs, o) -> score_counts ixs g parent = Ret cs.
Proof.
  revert ixs. induction g as [|w g IH]; intros ixs parent cs o H; cbn [walk score_counts] in *; [injection H as <- _; reflexivity|].
  destruct ixs as [|v vs]; [discriminate|]. destruct (GetCount v w parent) as [[c o1]|e| |]; cbn [bind] in *; try discriminate.
  destruct (walk vs g o1) as [[cs1 o2]|e| |] eqn:E; cbn [bind] in *; try discriminate. injection H as <- <-. rewrite (IH _ _ _ _ E). reflexivity.
Qed.

(** ** The invariant of reading *)
Section Level.
Definition present (files : list ngfile) (g : list Z) : Prop :=
  match length g with O => True | S k => In g (map fst (nth k files [])) end.
Definition spec_counts (files : list ngfile) (g : list Z) : list Z :=
  map (fun i => wrap32 (count_of files (firstn i g))) (seq 1 (length g)).
Lemma spec_counts_snoc files p w : spec_counts files (p ++ [w]) = spec_counts files p ++ [wrap32 (count_of files (p ++ [w]))].
Proof.
  unfold spec_counts. rewrite app_length. cbn [length]. rewrite seq_app, map_app. cbn [seq map]. f_equal.
  - apply map_ext_in. intros i Hi. apply in_seq in Hi. rewrite firstn_app. replace (i - length p)%nat with 0%nat by lia. cbn [firstn]. rewrite app_nil_r. reflexivity.
  - rewrite firstn_all2 by (rewrite app_length; cbn [length]; lia). reflexivity.
Qed.
Record Inv (files : list ngfile) (vs : list packed) (off : list Z -> Z) : Prop := {
  i_len : length vs = length files;
  i_nil : off [] = InvalidContextOffset;
  i_walk : forall g, (length g <= length files)%nat -> Forall is_u32 g -> walk vs g InvalidContextOffset = Ret (spec_counts files g, off g);
  i_range : forall g, (1 <= length g <= length files)%nat -> Forall is_u32 g -> present files g -> 0 <= off g < InvalidContextOffset;
  i_absent : forall g, (length g <= length files)%nat -> Forall is_u32 g -> ~ present files g -> off g = InvalidContextOffset;
  i_inj : forall g g', length g = length g' -> (length g <= length files)%nat -> Forall is_u32 g -> Forall is_u32 g' -> present files g -> present files g' -> off g = off g' -> g = g';
  i_node : forall k v, nth_error vs k = Some v -> exists ns, v = CreatePackedArray ns /\ nodes_ok ns /\ zlen ns <= 2 ^ 32 - 3
     /\ (forall c w n, is_u32 c -> is_u32 w -> (In (Pack c w, n) ns <-> exists p, length p = k /\ Forall is_u32 p /\ present files (p ++ [w]) /\ c = off p /\ n = wrap32 (count_of files (p ++ [w]))))
     /\ wrap32 (csum ns) = wrap32 (count_all (nth k files []))
}.
End Level.

Lemma gram_dec (g : list Z) l : {In g l} + {~ In g l}. Proof. apply (in_dec (list_eq_dec Z.eq_dec)). Qed.
Lemma present_dec files g : {present files g} + {~ present files g}.
Proof. unfold present. destruct (length g); [left; exact I|apply gram_dec]. Qed.
Lemma present_app files f g : (length g <= length files)%nat -> present (files ++ [f]) g <-> present files g.
Proof. unfold present. destruct (length g) as [|k]; [tauto|]. intros H. rewrite app_nth1 by lia. tauto. Qed.
Lemma count_of_app files f g : (1 <= length g <= length files)%nat -> count_of (files ++ [f]) g = count_of files g.
Proof. intros H. unfold count_of. rewrite app_nth1 by lia. reflexivity. Qed.
Lemma spec_counts_app files f g : (length g <= length files)%nat -> spec_counts (files ++ [f]) g = spec_counts files g.
Proof.
  intros H. unfold spec_counts. apply map_ext_in. intros i Hi. apply in_seq in Hi. f_equal. apply count_of_app. rewrite firstn_length. lia.
Qed.
(* the position of a key in the nodes *)
Fixpoint kpos (ns : list (Z * Z)) (k : Z) : Z := match ns with [] => 0 | (a, _) :: t => if a =? k then 0 else 1 + kpos t k end.
Lemma kpos_split ns k : In k (map fst ns) -> exists n1 n n2, ns = n1 ++ (k, n) :: n2 /\ zlen n1 = kpos ns k.
Proof.
  induction ns as [|[a b] ns IH]; cbn [map fst In kpos]; [tauto|]. intros H. destruct (a =? k) eqn:E.
  - assert (a = k) by lia. subst. exists [], b, ns. auto.
  - destruct H as [->|H]; [lia|]. destruct (IH H) as (n1 & n & n2 & -> & Hz). exists ((a, b) :: n1), n, n2. split; [reflexivity|]. rewrite zlen_cons. lia.
Qed.
Lemma kpos_range ns k : In k (map fst ns) -> 0 <= kpos ns k < zlen ns.
Proof. intros H. destruct (kpos_split ns k H) as (n1 & n & n2 & E & <-). rewrite E, zlen_app, zlen_cons. pose proof (zlen_nonneg n1). pose proof (zlen_nonneg n2). lia. Qed.
Lemma kpos_inj ns k k' : In k (map fst ns) -> In k' (map fst ns) -> kpos ns k = kpos ns k' -> k = k'.
Proof.
  intros H H' E. destruct (kpos_split ns k H) as (n1 & n & n2 & E1 & Z1). destruct (kpos_split ns k' H') as (n1' & n' & n2' & E2 & Z2).
  assert (length n1 = length n1') as Hl by (unfold zlen in *; lia). rewrite E1 in E2.
  assert (nth_error (n1 ++ (k, n) :: n2) (length n1) = nth_error (n1' ++ (k', n') :: n2') (length n1)) as En by (rewrite E2; reflexivity).
  rewrite nth_error_app2, Nat.sub_diag in En by lia. rewrite Hl, nth_error_app2, Nat.sub_diag in En by lia. cbn in En. injection En as -> _. reflexivity.
Qed.
Lemma last_split {A} (g : list A) k : length g = S k -> exists p w, g = p ++ [w] /\ length p = k.
Proof.
  intros H. destruct (exists_last (l := g)) as (p & w & ->); [destruct g; [discriminate|discriminate]|]. exists p, w. rewrite app_length in H. cbn in H. split; [reflexivity|lia].
Qed.

(** ** One more file *)
Section Step.
Context (files : list ngfile) (vs : list packed) (off : list Z -> Z) (f : ngfile) (HI : Inv files vs off).
Context (Hf : forall g c, In (g, c) f -> length g = S (length files) /\ Forall is_u32 g /\ is_u32 c)
        (Hz : zlen (nodup (list_eq_dec Z.eq_dec) (map fst f)) <= 2 ^ 32 - 3)
        (Hc : forall g w c, In (g ++ [w], c) f -> present files g).
Definition gkey (g : list Z) : Z := Pack (off (removelast g)) (last g 0).
Definition keyed : list (Z * Z) := map (fun l => (gkey (fst l), snd l)) f.
Definition tree : list (Z * Z) := puts keyed [].
Lemma gkey_snoc p w : gkey (p ++ [w]) = Pack (off p) w.
Proof. unfold gkey. rewrite removelast_last, last_last. reflexivity. Qed.
Lemma off_u32 p : (length p <= length files)%nat -> Forall is_u32 p -> is_u32 (off p).
Proof using files vs off HI.
  clear Hf Hz Hc. intros Hl Hu. unfold is_u32. assert (InvalidContextOffset = 2 ^ 32 - 3) as HIv by reflexivity. destruct (present_dec files p) as [Hp|Hp].
  - destruct p as [|x p]; [rewrite (i_nil _ _ _ HI); lia|]. pose proof (i_range _ _ _ HI (x :: p)). cbn [length] in *. specialize (H ltac:(lia) Hu Hp). lia.
  - rewrite (i_absent _ _ _ HI p Hl Hu Hp). lia.
Qed.
Lemma put_lines_ok : forall ls t, (forall g c, In (g, c) ls -> In (g, c) f) ->
  put_lines vs t ls = Ret (puts (map (fun l => (gkey (fst l), snd l)) ls) t).
Proof.
  induction ls as [|[g c] ls IH]; intros t Hls; [reflexivity|]. cbn [put_lines map fst snd]. unfold puts. cbn [fold_left fst snd]. fold (puts (map (fun l => (gkey (fst l), snd l)) ls) (tree_put t (gkey g) c)).
  destruct (Hf g c (Hls g c (or_introl eq_refl))) as (Hl & Hu & _). destruct (last_split g _ Hl) as (p & w & -> & Hlp).
  unfold VPut. assert (zlen (p ++ [w]) = zlen vs + 1) as Hzl. { unfold zlen. rewrite app_length, (i_len _ _ _ HI). cbn [length]. lia. }
  rewrite Hzl, Z.eqb_refl. cbn [negb]. apply Forall_app in Hu. destruct Hu as [Hu Hw]. rewrite put_parent_walk by (rewrite (i_len _ _ _ HI); exact Hlp).
  rewrite (i_walk _ _ _ HI p) by (try exact Hu; lia). cbn [bind]. unfold MakeKey. pose proof (off_u32 p ltac:(lia) Hu) as Ho.
  assert (off p <= InvalidContextOffset) as Hle.
  { destruct (present_dec files p) as [Hp|Hp]; [|rewrite (i_absent _ _ _ HI p) by (try assumption; lia); lia].
    destruct p as [|x p]; [rewrite (i_nil _ _ _ HI); lia|]. pose proof (i_range _ _ _ HI (x :: p)) as Hr. cbn [length] in *. specialize (Hr ltac:(lia) Hu Hp). lia. }
  destruct (maxContextOffset <? off p) eqn:E; [unfold InvalidContextOffset in Hle; lia|]. cbn [bind]. rewrite IH by (intros g' c' H'; apply Hls; right; exact H').
  rewrite gkey_snoc. reflexivity.
Qed.
Lemma keyed_u32 : Forall (fun kc => is_u32 (snd kc)) keyed.
Proof. unfold keyed. rewrite Forall_map, Forall_forall. intros [g c] Hin. cbn [snd]. apply (Hf g c Hin). Qed.
Lemma tree_ok : nodes_ok tree /\ zlen tree <= 2 ^ 32 - 3.
Proof.
  assert (zlen tree <= 2 ^ 32 - 3) as Hzt.
  { eapply Z.le_trans; [|exact Hz]. unfold zlen. apply inj_le. rewrite <- (map_length fst tree). rewrite <- (map_length gkey (nodup _ _)). apply NoDup_incl_length.
    - assert (StronglySorted Z.lt (map fst tree)) as Hs by (apply puts_sorted; constructor). clear -Hs. induction Hs as [|x l Hs IH Hf]; constructor; [|exact IH]. intros Hin. rewrite Forall_forall in Hf. specialize (Hf _ Hin). lia.
    - intros k Hk. apply puts_keys in Hk. destruct Hk as [[]|Hk]. unfold keyed in Hk. rewrite map_map in Hk. cbn [fst] in Hk. apply in_map_iff in Hk. destruct Hk as (l & <- & Hl).
      apply in_map. apply nodup_In. apply in_map. exact Hl. }
  split; [|exact Hzt]. split; [apply puts_sorted; constructor|]. split; [|lia].
  pose proof (puts_u32 keyed [] (Forall_nil _) keyed_u32) as Hu. fold tree in Hu. rewrite Forall_forall in Hu |- *. intros [k n] Hin. split; [|apply (Hu _ Hin)]. cbn [fst].
  apply (in_map fst) in Hin. cbn [fst] in Hin. apply puts_keys in Hin. destruct Hin as [[]|Hin]. unfold keyed in Hin. rewrite map_map in Hin. apply in_map_iff in Hin. destruct Hin as ([g c] & <- & Hin). cbn [fst].
  destruct (Hf g c Hin) as (Hl & Hgu & _). destruct (last_split g _ Hl) as (p & w & -> & Hlp). apply Forall_app in Hgu. destruct Hgu as [Hp Hw]. apply Forall_inv in Hw.
  rewrite gkey_snoc. pose proof (off_u32 p ltac:(lia) Hp) as Ho. rewrite pack_val by (unfold is_u32 in *; lia). unfold is_u32 in *. lia.
Qed.
(* the key of an n-gram identifies it *)
Lemma gkey_present p w p' w' c' : length p = length files -> Forall is_u32 p -> is_u32 w -> In (p' ++ [w'], c') f -> Pack (off p) w = gkey (p' ++ [w']) ->
  present files p -> p = p' /\ w = w'.
Proof.
  intros Hl Hu Hw Hin Ek Hp. destruct (Hf _ _ Hin) as (Hl' & Hu' & _). rewrite app_length in Hl'. cbn [length] in Hl'. apply Forall_app in Hu'. destruct Hu' as [Hu' Hw']. apply Forall_inv in Hw'.
  rewrite gkey_snoc in Ek. apply pack_inj in Ek; try assumption; try (apply off_u32; [lia|assumption]). destruct Ek as [Eo ->]. split; [|reflexivity].
  apply (i_inj _ _ _ HI p p'); try assumption; try lia. eapply Hc. exact Hin.
Qed.
Lemma gkey_absent p w p' w' c' : length p = length files -> Forall is_u32 p -> is_u32 w -> In (p' ++ [w'], c') f -> Pack (off p) w = gkey (p' ++ [w']) -> present files p.
Proof.
  intros Hl Hu Hw Hin Ek. destruct (present_dec files p) as [Hp|Hp]; [exact Hp|]. exfalso.
  destruct (Hf _ _ Hin) as (Hl' & Hu' & _). rewrite app_length in Hl'. cbn [length] in Hl'. apply Forall_app in Hu'. destruct Hu' as [Hu' Hw']. apply Forall_inv in Hw'.
  rewrite gkey_snoc in Ek. apply pack_inj in Ek; try assumption; try (apply off_u32; [lia|assumption]). destruct Ek as [Eo ->].
  rewrite (i_absent _ _ _ HI p) in Eo by (try assumption; lia). pose proof (Hc _ _ _ Hin) as Hp'.
  destruct p' as [|x p'].
  - assert (p = []) as -> by (destruct p; [reflexivity|cbn [length] in *; lia]). apply Hp. exact I.
  - pose proof (i_range _ _ _ HI (x :: p') ltac:(cbn [length] in *; lia) Hu' Hp') as Hr. lia.
Qed.
Lemma tree_in p w : length p = length files -> Forall is_u32 p -> is_u32 w ->
  (In (Pack (off p) w) (map fst tree) <-> In (p ++ [w]) (map fst f)).
Proof.
  intros Hl Hu Hw. unfold tree. rewrite puts_keys. unfold keyed. rewrite map_map. cbn [fst map In]. split.
  - intros [[]|Hin]. apply in_map_iff in Hin. destruct Hin as ([g c] & Ek & Hin). cbn [fst] in Ek. destruct (Hf g c Hin) as (Hlg & _). destruct (last_split g _ Hlg) as (p' & w' & -> & _).
    pose proof (gkey_absent p w p' w' c Hl Hu Hw Hin (eq_sym Ek)) as Hp. destruct (gkey_present p w p' w' c Hl Hu Hw Hin (eq_sym Ek) Hp) as [-> ->]. apply (in_map fst) in Hin. exact Hin.
  - intros Hin. right. apply in_map_iff in Hin. destruct Hin as ([g c] & Eg & Hin). cbn [fst] in Eg. subst g. apply in_map_iff. exists (p ++ [w], c). split; [|exact Hin]. cbn [fst]. apply gkey_snoc.
Qed.
Lemma tree_count p w : length p = length files -> Forall is_u32 p -> is_u32 w -> In (p ++ [w]) (map fst f) ->
  mget Z.eqb tree (Pack (off p) w) = Some (wrap32 (count_in f (p ++ [w]))).
Proof.
  intros Hl Hu Hw Hin. unfold tree. rewrite puts_all; [|exact keyed_u32|].
  - f_equal. f_equal. unfold keyed. assert (forall ls, (forall g c, In (g, c) ls -> In (g, c) f) -> ktotal (map (fun l => (gkey (fst l), snd l)) ls) (Pack (off p) w) = count_in ls (p ++ [w])) as Hgen; [|apply Hgen; auto].
    assert (present files p) as Hpp.
    { apply in_map_iff in Hin. destruct Hin as ([g c] & Eg & Hin). cbn [fst] in Eg. subst g. eapply Hc. exact Hin. }
    induction ls as [|[g c] ls IHl]; intros Hls; [reflexivity|]. cbn [map ktotal fold_right fst snd count_in].
    fold (ktotal (map (fun l => (gkey (fst l), snd l)) ls) (Pack (off p) w)). fold (count_in ls (p ++ [w])). rewrite IHl by (intros g' c' H'; apply Hls; right; exact H'). f_equal.
    unfold same_gram. destruct (list_eq_dec Z.eq_dec g (p ++ [w])) as [->|Hne]; [rewrite gkey_snoc, Z.eqb_refl; reflexivity|].
    destruct (gkey g =? Pack (off p) w) eqn:E; [|reflexivity]. exfalso. apply Hne. pose proof (Hls g c (or_introl eq_refl)) as Hg. destruct (Hf g c Hg) as (Hlg & _).
    destruct (last_split g _ Hlg) as (p' & w' & -> & _). destruct (gkey_present p w p' w' c Hl Hu Hw Hg) as [-> ->]; [lia|exact Hpp|reflexivity].
  - apply (proj2 (tree_in p w Hl Hu Hw)) in Hin. unfold tree in Hin. apply puts_keys in Hin. destruct Hin as [[]|Hin]. exact Hin.
Qed.
Definition off' (g : list Z) : Z :=
  if (length g =? S (length files))%nat then if gram_dec g (map fst f) then kpos tree (gkey g) else InvalidContextOffset else off g.
Lemma off'_old g : (length g <= length files)%nat -> off' g = off g.
Proof. intros H. unfold off'. destruct (length g =? S (length files))%nat eqn:E; [apply Nat.eqb_eq in E; lia|reflexivity]. Qed.
Lemma off'_new p w : length p = length files -> off' (p ++ [w]) = if gram_dec (p ++ [w]) (map fst f) then kpos tree (Pack (off p) w) else InvalidContextOffset.
Proof. intros H. unfold off'. rewrite app_length. cbn [length]. rewrite H, Nat.add_1_r, Nat.eqb_refl, gkey_snoc. reflexivity. Qed.
Lemma new_get p w : length p = length files -> Forall is_u32 p -> is_u32 w ->
  GetCount (CreatePackedArray tree) w (off p) = Ret (wrap32 (count_in f (p ++ [w])), off' (p ++ [w])).
Proof.
  intros Hl Hu Hw. destruct tree_ok as [Hok Hzt]. pose proof (off_u32 p ltac:(lia) Hu) as Ho. rewrite off'_new by exact Hl. destruct (gram_dec (p ++ [w]) (map fst f)) as [Hin|Hin].
  - pose proof (proj2 (tree_in p w Hl Hu Hw) Hin) as Hk. destruct (kpos_split tree _ Hk) as (n1 & n & n2 & E & <-).
    rewrite (getcount_node tree n1 n2 (off p) w n Hok Hzt Ho Hw E). f_equal. f_equal.
    pose proof (tree_count p w Hl Hu Hw Hin) as Ht. apply (mget_In _ Zeqb_ok) in Ht.
    + assert (In (Pack (off p) w, n) tree) as Hn by (rewrite E; apply in_or_app; right; left; reflexivity).
      assert (NoDup (map fst tree)) as Hnd. { destruct Hok as (Hs & _). clear -Hs. induction Hs as [|x l Hs IH Hf]; constructor; [|exact IH]. intros Hin. rewrite Forall_forall in Hf. specialize (Hf _ Hin). lia. }
      apply (mget_In _ Zeqb_ok _ _ _ Hnd) in Hn, Ht. congruence.
    + destruct Hok as (Hs & _). clear -Hs. induction Hs as [|x l Hs IH Hf]; constructor; [|exact IH]. intros Hin. rewrite Forall_forall in Hf. specialize (Hf _ Hin). lia.
  - rewrite getcount_no_node; [|exact Hok|exact Ho|exact Hw|].
    + f_equal. f_equal. assert (forall ls, ~ In (p ++ [w]) (map fst ls) -> count_in ls (p ++ [w]) = 0) as Hz0.
      { induction ls as [|[g c] ls IH]; cbn [map fst In count_in fold_right snd]; intros Hn; [reflexivity|]. fold (count_in ls (p ++ [w])). rewrite IH by tauto.
        unfold same_gram. destruct (list_eq_dec Z.eq_dec g (p ++ [w])); [tauto|reflexivity]. }
      rewrite Hz0 by exact Hin. reflexivity.
    + intros n Hn. apply (in_map fst) in Hn. apply (proj1 (tree_in p w Hl Hu Hw)) in Hn. contradiction.
Qed.
Lemma nth_last_file : nth (length files) (files ++ [f]) [] = f.
Proof. rewrite app_nth2, Nat.sub_diag by lia. reflexivity. Qed.
Lemma present_new p w : length p = length files -> present (files ++ [f]) (p ++ [w]) <-> In (p ++ [w]) (map fst f).
Proof. intros H. unfold present. rewrite app_length. cbn [length]. rewrite H, Nat.add_1_r, nth_last_file. tauto. Qed.
Lemma count_new p w : length p = length files -> count_of (files ++ [f]) (p ++ [w]) = count_in f (p ++ [w]).
Proof. intros H. unfold count_of. rewrite app_length. cbn [length]. replace (length p + 1 - 1)%nat with (length files) by lia. rewrite nth_last_file. reflexivity. Qed.
Lemma len_app_f : length (files ++ [f]) = S (length files). Proof. rewrite app_length. cbn. lia. Qed.

Lemma step_inv : Inv (files ++ [f]) (vs ++ [CreatePackedArray tree]) off'.
Proof.
  destruct tree_ok as [Hok Hzt]. pose proof (i_len _ _ _ HI) as Hlen. constructor.
  - rewrite !app_length, Hlen. reflexivity.
  - rewrite off'_old by (cbn; lia). apply (i_nil _ _ _ HI).
  - intros g Hl Hu. rewrite len_app_f in Hl. destruct (le_lt_dec (length g) (length files)) as [Hs|Hs].
    + rewrite walk_short by lia. rewrite (i_walk _ _ _ HI g Hs Hu). rewrite spec_counts_app, off'_old by exact Hs. reflexivity.
    + destruct (last_split g (length files) ltac:(lia)) as (p & w & -> & Hlp). apply Forall_app in Hu. destruct Hu as [Hp Hw]. apply Forall_inv in Hw.
      rewrite walk_snoc by lia. rewrite (i_walk _ _ _ HI p) by (try assumption; lia). cbn [bind]. rewrite new_get by assumption. cbn [bind].
      rewrite spec_counts_snoc, spec_counts_app, count_new by lia. reflexivity.
  - intros g [Hl1 Hl2] Hu Hp. rewrite len_app_f in Hl2. destruct (le_lt_dec (length g) (length files)) as [Hs|Hs].
    + rewrite off'_old by exact Hs. apply (i_range _ _ _ HI); [lia|exact Hu|]. apply present_app in Hp; [exact Hp|exact Hs].
    + destruct (last_split g (length files) ltac:(lia)) as (p & w & -> & Hlp). apply Forall_app in Hu. destruct Hu as [Hup Hw]. apply Forall_inv in Hw.
      apply present_new in Hp; [|exact Hlp]. rewrite off'_new by exact Hlp. destruct (gram_dec _ _); [|contradiction].
      pose proof (kpos_range tree _ (proj2 (tree_in p w Hlp Hup Hw) Hp)). unfold InvalidContextOffset, maxContextOffset. lia.
  - intros g Hl Hu Hp. rewrite len_app_f in Hl. destruct (le_lt_dec (length g) (length files)) as [Hs|Hs].
    + rewrite off'_old by exact Hs. apply (i_absent _ _ _ HI); [exact Hs|exact Hu|]. intros H. apply Hp. apply present_app; [exact Hs|exact H].
    + destruct (last_split g (length files) ltac:(lia)) as (p & w & -> & Hlp). rewrite off'_new by exact Hlp. destruct (gram_dec _ _) as [H|H]; [|reflexivity].
      exfalso. apply Hp. apply present_new; assumption.
  - intros g g' Hll Hl Hu Hu' Hp Hp' E. rewrite len_app_f in Hl. destruct (le_lt_dec (length g) (length files)) as [Hs|Hs].
    + rewrite !off'_old in E by lia. apply (i_inj _ _ _ HI g g'); try assumption; [apply present_app in Hp|apply present_app in Hp']; try assumption; lia.
    + destruct (last_split g (length files) ltac:(lia)) as (p & w & -> & Hlp). destruct (last_split g' (length files) ltac:(lia)) as (p' & w' & -> & Hlp').
      apply Forall_app in Hu, Hu'. destruct Hu as [Hup Hw]. destruct Hu' as [Hup' Hw']. apply Forall_inv in Hw, Hw'.
      apply present_new in Hp, Hp'; [|assumption|assumption]. rewrite !off'_new in E by assumption.
      destruct (gram_dec (p ++ [w]) (map fst f)); [|contradiction]. destruct (gram_dec (p' ++ [w']) (map fst f)); [|contradiction].
      apply kpos_inj in E; [|apply tree_in; assumption|apply tree_in; assumption].
      apply in_map_iff in Hp'. destruct Hp' as ([x c] & Ex & Hp'). cbn [fst] in Ex. subst x.
      apply in_map_iff in Hp. destruct Hp as ([x c0] & Ex & Hp). cbn [fst] in Ex. subst x.
      rewrite <- (gkey_snoc p' w') in E. destruct (gkey_present p w p' w' c Hlp Hup Hw Hp' E) as [-> ->]; [eapply Hc; exact Hp|reflexivity].
  - intros k v Hk. destruct (le_lt_dec (length vs) k) as [Hs|Hs].
    + rewrite nth_error_app2 in Hk by exact Hs. destruct (k - length vs)%nat as [|m] eqn:Ek; [|destruct m; discriminate]. cbn in Hk. injection Hk as <-.
      assert (k = length files) by lia. subst k. exists tree. split; [reflexivity|]. split; [exact Hok|]. split; [exact Hzt|]. split.
      * intros c w n Hcu Hw. split.
        -- intros Hin. pose proof (in_map fst _ _ Hin) as Hk. cbn [fst] in Hk. unfold tree in Hk. apply puts_keys in Hk. destruct Hk as [[]|Hk]. unfold keyed in Hk. rewrite map_map in Hk. apply in_map_iff in Hk. destruct Hk as ([g c0] & Ek' & Hg). cbn [fst] in Ek'.
           destruct (Hf g c0 Hg) as (Hlg & Hgu & _). destruct (last_split g _ Hlg) as (p & w' & -> & Hlp). apply Forall_app in Hgu. destruct Hgu as [Hpu Hwu]. apply Forall_inv in Hwu.
           rewrite gkey_snoc in Ek'. pose proof (off_u32 p ltac:(lia) Hpu) as Ho. apply pack_inj in Ek'; try assumption. destruct Ek' as [<- <-].
           exists p. split; [exact Hlp|]. split; [exact Hpu|]. pose proof (in_map fst _ _ Hg) as Hg'. cbn [fst] in Hg'. split; [apply present_new; assumption|]. rewrite off'_old by lia. split; [reflexivity|].
           rewrite count_new by exact Hlp. pose proof (tree_count p w' Hlp Hpu Hwu Hg') as Ht.
           assert (NoDup (map fst tree)) as Hnd. { destruct Hok as (Hs' & _). clear -Hs'. induction Hs' as [|x l Hs IH Hf]; constructor; [|exact IH]. intros Hin. rewrite Forall_forall in Hf. specialize (Hf _ Hin). lia. }
           apply (mget_In _ Zeqb_ok _ _ _ Hnd) in Hin. congruence.
        -- intros (p & Hlp & Hpu & Hpr & -> & ->). rewrite off'_old by lia. rewrite count_new by exact Hlp. apply present_new in Hpr; [|exact Hlp].
           pose proof (tree_count p w Hlp Hpu Hw Hpr) as Ht. apply (mget_In _ Zeqb_ok) in Ht; [exact Ht|].
           destruct Hok as (Hs' & _). clear -Hs'. induction Hs' as [|x l Hs IH Hf]; constructor; [|exact IH]. intros Hin. rewrite Forall_forall in Hf. specialize (Hf _ Hin). lia.
      * rewrite nth_last_file. unfold tree. rewrite csum_puts. f_equal. cbn [csum fold_right]. unfold keyed. clear. induction f as [|[g c] l IH]; [reflexivity|]. cbn [map csum fold_right count_all snd] in *. fold (csum (map (fun l => (gkey (fst l), snd l)) l)). fold (count_all l). lia.
    + rewrite nth_error_app1 in Hk by exact Hs. destruct (i_node _ _ _ HI k v Hk) as (ns & -> & H1 & H2 & H3 & H4). exists ns. split; [reflexivity|]. split; [exact H1|]. split; [exact H2|]. split.
      * intros c w n Hcu Hw. rewrite (H3 c w n Hcu Hw). split; intros (p & Hlp & Hpu & Hpr & -> & ->); exists p; (split; [exact Hlp|]; split; [exact Hpu|]).
        -- split; [apply present_app; [rewrite app_length; cbn [length]; lia|exact Hpr]|]. rewrite off'_old by lia. split; [reflexivity|]. rewrite count_of_app by (rewrite app_length; cbn [length]; lia). reflexivity.
        -- apply present_app in Hpr; [|rewrite app_length; cbn [length]; lia]. split; [exact Hpr|]. rewrite off'_old by lia. split; [reflexivity|]. rewrite count_of_app by (rewrite app_length; cbn [length]; lia). reflexivity.
      * rewrite app_nth1 by lia. exact H4.
Qed.
End Step.

Lemma inv_nil : Inv [] [] (fun _ => InvalidContextOffset).
Proof.
  constructor; try reflexivity.
  - intros g Hl _. destruct g; [reflexivity|cbn in Hl; lia].
  - intros g [Hl Hl']. cbn in Hl'. lia.
  - intros g g' Hl Hl'. destruct g; [|cbn in Hl'; lia]. destruct g'; [reflexivity|discriminate].
  - intros [|k] v H; discriminate.
Qed.
Lemma read_inv : forall todo done vs off, Inv done vs off -> files_ok (done ++ todo) -> prefix_closed (done ++ todo) ->
  exists ixs off', read_vectors vs todo = Ret ixs /\ Inv (done ++ todo) ixs off'.
Proof.
  induction todo as [|f todo IH]; intros done vs off HI Hok Hcl.
  - exists vs, off. rewrite app_nil_r. split; [reflexivity|exact HI].
  - cbn [read_vectors]. assert (nth_error (done ++ f :: todo) (length done) = Some f) as Hnf by (rewrite nth_error_app2, Nat.sub_diag by lia; reflexivity).
    destruct (Hok (length done) f Hnf) as [Hf Hz].
    assert (forall g w c, In (g ++ [w], c) f -> present done g) as Hc.
    { intros g w c Hin. destruct (Hf _ _ Hin) as (Hl & _). rewrite app_length in Hl. cbn [length] in Hl. unfold present. destruct (length g) as [|k] eqn:Eg; [exact I|].
      assert (nth_error (done ++ f :: todo) k = Some (nth k done [])) as Hk by (rewrite nth_error_app1 by lia; apply nth_error_nth'; lia).
      assert (S k = length done) as Ek by lia. apply (Hcl k _ f Hk ltac:(rewrite Ek; exact Hnf) g w c Hin). }
    rewrite (put_lines_ok done vs off f HI Hf Hc f []) by auto. cbn [bind].
    pose proof (step_inv done vs off f HI Hf Hz Hc) as HI'. fold (keyed off f). fold (tree off f).
    destruct (IH (done ++ [f]) (vs ++ [CreatePackedArray (tree off f)]) _ HI') as (ixs & o & E & HIx).
    + rewrite <- app_assoc. exact Hok.
    + rewrite <- app_assoc. exact Hcl.
    + exists ixs, o. rewrite <- app_assoc in HIx. split; [exact E|exact HIx].
Qed.
Lemma read_ok files : files_ok files -> prefix_closed files -> exists ixs off, read_vectors [] files = Ret ixs /\ Inv files ixs off.
Proof. intros H1 H2. apply (read_inv files [] [] _ inv_nil H1 H2). Qed.
