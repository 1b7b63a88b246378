(** Every step keeps the invariant of LifetimeProofs.v: the service, the collector; what follows. *)
From Coq Require Import Lia.
From Verif Require Import Base Lifetime LifetimeProofs LifetimeProofs2.

Lemma obj_set st x o y : (x < length (heap st))%nat -> obj (set_obj st x o) y = if Nat.eqb y x then Some o else obj st y.
Proof.
  intros H. unfold obj, set_obj. cbn. destruct (Nat.eqb_spec y x) as [-> |Hn].
  - now apply set_nth_same.
  - apply set_nth_other. auto.
Qed.

(** ** The service's map *)
Lemma Inv_service st s refs refs' : Inv st -> obj st s = Some (mkObj KService refs None) ->
  (forall y, In y refs' -> In y refs \/ kept st y /\ (y < length (heap st))%nat) ->
  Inv (set_obj st s (mkObj KService refs' None)).
Proof.
  intros I Hs Hr. set (st' := set_obj st s (mkObj KService refs' None)).
  assert (Hl : (s < length (heap st))%nat) by (eapply obj_lt; eauto).
  assert (Eo : forall y, obj st' y = if Nat.eqb y s then Some (mkObj KService refs' None) else obj st y) by (intros; now apply obj_set).
  assert (Ek : forall y, kind_of st' y = kind_of st y).
  { intros y. unfold kind_of. rewrite Eo. destruct (Nat.eqb_spec y s); auto. subst. rewrite Hs. reflexivity. }
  assert (El : length (heap st') = length (heap st)) by apply set_nth_length.
  assert (Ed : forall x, dict_reader st' x -> dict_reader st x).
  { intros x (d & od & f & Hd & Hk & Hi). rewrite Eo in Hd. destruct (Nat.eqb d s).
    - injection Hd as <-. discriminate.
    - exists d, od, f. auto. }
  assert (Ep : forall x, kept st' x -> kept st x).
  { intros x H. induction H as [x Hx|x ob y _ IH Ho Hy].
    - apply r_here. destruct Hx as [Hx|(y & ob & f & Ho & Hf & Hi)]; [left; exact Hx|right].
      rewrite Eo in Ho. destruct (Nat.eqb y s); [injection Ho as <-; discriminate|]. exists y, ob, f. auto.
    - fold (obj st' x) in Ho. rewrite Eo in Ho. destruct (Nat.eqb_spec x s).
      + injection Ho as <-. cbn in Hy. destruct (Hr _ Hy) as [Hy'|[Hy' _]]; auto.
        subst x. eapply r_ref; [exact IH|exact Hs|exact Hy'].
      + eapply r_ref; eauto. }
  destruct I as [J1 J2 J3 J4 J5 J6 J7 J8 J9 J10 J11 J12 J13].
  constructor; try (rewrite ?El); try assumption.
  - intros x ob y Ho Hy. rewrite Eo in Ho. destruct (Nat.eqb_spec x s).
    + injection Ho as <-. cbn in Hy. destruct (Hr _ Hy) as [Hy'|[_ Hy']]; auto. eapply J1; [exact Hs|exact Hy'].
    + eauto.
  - intros x ob y Ho Hk Hy. rewrite Eo in Ho. rewrite Ek. destruct (Nat.eqb_spec x s).
    + injection Ho as <-. cbn in Hk. congruence.
    + eauto.
  - intros x ob f y Ho Hk Hy. rewrite Eo in Ho. rewrite Ek. destruct (Nat.eqb_spec x s).
    + injection Ho as <-. discriminate.
    + eauto.
  - intros x ob Ho. rewrite Eo in Ho. destruct (Nat.eqb_spec x s); [injection Ho as <-; reflexivity|].
    pose proof (J5 _ _ Ho) as L. unfold local in *. destruct (o_kind ob) as [f [|]| | | | | | | | |]; auto.
    + destruct L as [L1 [L2|(r & L2 & L3)]]; split; auto. right. exists r. split; auto. rewrite Eo.
      destruct (Nat.eqb_spec r s); auto. subst r. rewrite Hs in L3. discriminate.
    + destruct L as [L1 (i & L2 & L3)]. split; auto. exists i. now rewrite Ek.
    + destruct L as [L1|(i & L2 & L3)]; auto. right. exists i. now rewrite Ek.
    + destruct L as [L1|(i & L2 & L3)]; auto. right. exists i. now rewrite Ek.
    + destruct L as [L1 (i & b & L2 & L3)]. split; auto. exists i, b. now rewrite Ek.
  - intros r r' f b b'. rewrite !Ek. apply J6.
  - intros x x' o o' r Ho Ho' F F'. rewrite Eo in Ho, Ho'.
    destruct (Nat.eqb x s); [injection Ho as <-; discriminate|].
    destruct (Nat.eqb x' s); [injection Ho' as <-; discriminate|]. eauto.
  - intros x o r Ho F D. rewrite Eo in Ho.
    destruct (Nat.eqb x s); [injection Ho as <-; discriminate|]. eauto.
  - intros f. change (mapped st') with (mapped st). rewrite (J9 f). split; intros (r & H); exists r; rewrite ?Ek in *; auto.
  - intros f. change (unmaps st') with (unmaps st). rewrite (J10 f). split; intros (r & H); exists r; rewrite ?Ek in *; auto.
  - intros f. change (next_map st') with (next_map st). rewrite (J12 f). split; intros (r & b & H); exists r, b; rewrite ?Ek in *; auto.
  - intros x ob Hk Ho. rewrite Eo in Ho. destruct (Nat.eqb_spec x s).
    + injection Ho as <-. exact I.
    + pose proof (J13 _ _ (Ep _ Hk) Ho) as A. unfold alive in *. destruct (o_kind ob); auto.
Qed.

(** ** The collector *)
(** The object's finalizer is gone; a reader may have been closed. *)
Definition after (x : nat) (cl : option nat) (y : nat) (o : object) : object :=
  let closed := match cl with Some r => Nat.eqb y r | None => false end in
  mkObj (match o_kind o with KReader f b => KReader f (if closed then false else b) | k => k end)
        (o_refs o) (if (Nat.eqb y x || closed)%bool then None else o_fin o).
Lemma after_refs x cl y o : o_refs (after x cl y o) = o_refs o.
Proof. reflexivity. Qed.
Lemma after_fin x cl y o f : o_fin (after x cl y o) = Some f -> o_fin o = Some f /\ y <> x /\ cl <> Some y.
Proof.
  unfold after. cbn. destruct (Nat.eqb_spec y x) as [-> |Hn]; cbn [orb]; [discriminate|].
  destruct cl as [r|].
  - destruct (Nat.eqb_spec y r) as [-> |Hn']; [discriminate|]. intros H. repeat split; auto. congruence.
  - intros H. repeat split; auto. discriminate.
Qed.
Lemma after_nochange x cl y o : y <> x -> cl <> Some y -> after x cl y o = o.
Proof.
  intros H1 H2. unfold after. destruct (Nat.eqb_spec y x); [contradiction|].
  assert (E : match cl with Some r => Nat.eqb y r | None => false end = false).
  { destruct cl as [r|]; auto. apply Nat.eqb_neq. congruence. }
  rewrite E. cbn. destruct o as [[] ]; reflexivity.
Qed.
Section Collect.
Context (st st' : state) (x : nat) (ox : object) (fx : final) (cl : option nat).
Context (I : Inv st) (Hx : obj st x = Some ox) (Hfx : o_fin ox = Some fx) (Hnk : ~ kept st x).
Context (Ho : forall y, obj st' y = option_map (after x cl y) (obj st y)).
Context (Hlen : length (heap st') = length (heap st)) (Hvars : vars st' = vars st) (Hnext : next_map st' = next_map st).
Context (Hcl : match cl with
               | Some r => exists f, kind_of st r = Some (KReader f true) /\ (x = r \/ fx = FReader r) /\
                                     mapped st' = del f (mapped st) /\ unmaps st' = f :: unmaps st
               | None => (forall f, fx = f -> exists i, f = FInput i) /\ mapped st' = mapped st /\ unmaps st' = unmaps st
               end).

Lemma obj' y o' : obj st' y = Some o' -> exists o, obj st y = Some o /\ o' = after x cl y o.
Proof. rewrite Ho. destruct (obj st y) as [o|]; cbn; intros H; inversion H; eauto. Qed.
Lemma obj_back y o : obj st y = Some o -> obj st' y = Some (after x cl y o).
Proof. intros H. rewrite Ho, H. reflexivity. Qed.
Lemma kind_of' y k : (forall f b, k <> KReader f b) -> (kind_of st' y = Some k <-> kind_of st y = Some k).
Proof.
  intros Hk. unfold kind_of. rewrite Ho. destruct (obj st y) as [o|]; cbn; [|tauto].
  destruct (o_kind o) eqn:E; split; intros H; inversion H; subst; auto; exfalso; eapply Hk; eauto.
Qed.
Lemma reader_of' y f b' : kind_of st' y = Some (KReader f b') ->
  exists b, kind_of st y = Some (KReader f b) /\ b' = (if match cl with Some r => Nat.eqb y r | None => false end then false else b).
Proof.
  unfold kind_of. rewrite Ho. destruct (obj st y) as [o|]; cbn; [|discriminate].
  destruct (o_kind o) eqn:E; intros H; inversion H; subst; eauto.
Qed.
Lemma reader_back y f b : kind_of st y = Some (KReader f b) ->
  kind_of st' y = Some (KReader f (if match cl with Some r => Nat.eqb y r | None => false end then false else b)).
Proof.
  unfold kind_of. rewrite Ho. destruct (obj st y) as [o|]; cbn; [|discriminate]. intros H. inversion H as [H1].
  rewrite H1. reflexivity.
Qed.
Lemma kept' y : kept st' y -> kept st y.
Proof.
  intros H. induction H as [y Hy|y ob z _ IH Hob Hz].
  - apply r_here. destruct Hy as [(t & Hy)|(z & ob & f & Hob & Hf & Hi)].
    + left. exists t. now rewrite <- Hvars.
    + right. apply obj' in Hob as (o & Hob & ->). apply after_fin in Hf as (Hf & _ & _).
      exists z, o, f. auto.
  - apply obj' in Hob as (o & Hob & ->). eapply r_ref; eauto.
Qed.
Lemma dict' y : dict_reader st' y -> dict_reader st y.
Proof.
  intros (d & od & f & Hd & Hk & Hi). apply obj' in Hd as (o & Hd & ->).
  exists d, o, f. repeat split; auto. cbn in Hk. destruct (o_kind o); inversion Hk; auto.
Qed.
(** The collected object, if another one than the reader closed, is an input with that reader. *)
Lemma closed_input r : cl = Some r -> x <> r -> fx = FReader r.
Proof. intros E Hn. rewrite E in Hcl. destruct Hcl as (f & _ & [H|H] & _); auto. contradiction. Qed.

Lemma cl_dec : (exists r, cl = Some r) \/ cl = None.
Proof. destruct cl; eauto. Qed.
Lemma Inv_after : Inv st'.
Proof.
  pose proof I as I0. destruct I as [J1 J2 J3 J4 J5 J6 J7 J8 J9 J10 J11 J12 J13]. constructor.
  - intros y ob z Hob Hz. rewrite Hlen. apply obj' in Hob as (o & Hob & ->). eauto.
  - intros y ob z Hob Hk Hz. apply obj' in Hob as (o & Hob & ->).
    assert (Hk' : o_kind o <> KService) by (cbn in Hk; destruct (o_kind o); congruence).
    destruct (J2 _ _ _ Hob Hk' Hz) as [H1 H2]. split; auto. rewrite kind_of' by discriminate. exact H2.
  - intros y ob f z Hob Hf Hz. apply obj' in Hob as (o & Hob & ->). apply after_fin in Hf as (Hf & _).
    destruct (J3 _ _ _ _ Hob Hf Hz) as [H1 H2]. split; auto. rewrite kind_of' by discriminate. exact H2.
  - intros t y. rewrite Hvars, Hlen. apply J4.
  - intros y ob Hob. apply obj' in Hob as (o & Hob & ->). pose proof (J5 _ _ Hob) as L.
    unfold local in *. cbn [o_kind after o_refs]. destruct (o_kind o) as [f b| | | | | | | | |] eqn:Ek.
    + set (c := match cl with Some r => Nat.eqb y r | None => false end).
      assert (Hn : b = true -> y = x -> c = true).
      { intros -> ->. subst c. destruct L as [_ L]. rewrite Hx in Hob. injection Hob as ->.
        destruct cl as [r|].
        - destruct Hcl as (f' & _ & [-> |E] & _); [apply Nat.eqb_refl|]. rewrite Hfx in L. congruence.
        - destruct Hcl as (E & _). destruct (E _ eq_refl) as (i & E'). rewrite Hfx in L. congruence. }
      unfold after. cbn [o_fin]. fold c. destruct c eqn:Ec.
      * rewrite Bool.orb_true_r. destruct b; destruct L as [L1 L2]; auto.
      * destruct b; destruct L as [L1 L2]; split; auto.
        -- destruct (Nat.eqb_spec y x); [specialize (Hn eq_refl e); discriminate|]. exact L2.
        -- rewrite L2. destruct (_ || _)%bool; reflexivity.
    + destruct L as [L1 L2]. split; auto. unfold after. cbn [o_fin].
      destruct (_ || _)%bool eqn:Eb; [left; reflexivity|]. destruct L2 as [L2|(r & L2 & L3)]; [left; exact L2|].
      right. exists r. split; auto. rewrite Ho, L3. cbn. f_equal.
      apply Bool.orb_false_iff in Eb as [Eb1 Eb2]. apply Nat.eqb_neq in Eb1.
      apply after_nochange.
      * intros ->. apply Hnk. apply r_here. right. exists y, o, (FReader x). cbn. auto.
      * intros E. assert (Hxr : x <> r).
        { intros ->. apply Hnk. apply r_here. right. exists y, o, (FReader r). cbn. auto. }
        pose proof (closed_input _ E Hxr) as F. rewrite F in Hfx.
        apply Eb1. eapply J7; eauto.
    + unfold after. cbn [o_fin]. rewrite L. destruct (_ || _)%bool; reflexivity.
    + destruct L as [L1 (i & L2 & L3)]. split; [unfold after; cbn [o_fin]; rewrite L1; destruct (_ || _)%bool; reflexivity|].
      exists i. rewrite kind_of' by discriminate. auto.
    + unfold after. cbn [o_fin]. destruct (_ || _)%bool; [auto|]. destruct L as [L|(i & L1 & L2)]; auto.
      right. exists i. rewrite kind_of' by discriminate. auto.
    + unfold after. cbn [o_fin]. rewrite L. destruct (_ || _)%bool; reflexivity.
    + unfold after. cbn [o_fin]. destruct (_ || _)%bool; [auto|]. destruct L as [L|(i & L1 & L2)]; auto.
      right. exists i. rewrite kind_of' by discriminate. auto.
    + destruct L as [L1 (i & b & L2 & L3)]. split; [unfold after; cbn [o_fin]; rewrite L1; destruct (_ || _)%bool; reflexivity|].
      exists i. apply reader_back in L3. eauto.
    + unfold after. cbn [o_fin]. rewrite L. destruct (_ || _)%bool; reflexivity.
    + unfold after. cbn [o_fin]. rewrite L. destruct (_ || _)%bool; reflexivity.
  - intros r r' f b b' H1 H2. apply reader_of' in H1 as (b1 & H1 & _). apply reader_of' in H2 as (b2 & H2 & _). eauto.
  - intros y y' o o' r H1 H2 F1 F2. apply obj' in H1 as (o1 & H1 & ->). apply obj' in H2 as (o2 & H2 & ->).
    apply after_fin in F1 as (F1 & _). apply after_fin in F2 as (F2 & _). eauto.
  - intros y o r H1 F1 D. apply obj' in H1 as (o1 & H1 & ->). apply after_fin in F1 as (F1 & _).
    apply dict' in D. eauto.
  - intros f. destruct cl_dec as [(r & Ec)|Ec]; pose proof Hcl as Hcl'; rewrite Ec in Hcl'.
    + destruct Hcl' as (g & Hg & _ & Hm & _). rewrite Hm, del_in, (J9 f). split.
      * intros [(r' & H) Hne]. exists r'. apply reader_back in H. rewrite Ec in H.
        destruct (Nat.eqb_spec r' r); [|exact H]. subst r'.
        exfalso. apply Hne. apply reader_of' in H as (b & H & _). rewrite Hg in H. congruence.
      * intros (r' & H). apply reader_of' in H as (b & H & Hb). rewrite Ec in Hb.
        destruct (Nat.eqb_spec r' r); [discriminate|]. subst b. split; [eauto|]. intros ->. eauto.
    + destruct Hcl' as (_ & Hm & _). rewrite Hm, (J9 f). split; intros (r & H); exists r.
      * apply reader_back in H. rewrite Ec in H. exact H.
      * apply reader_of' in H as (b & H & Hb). rewrite Ec in Hb. congruence.
  - intros f. destruct cl_dec as [(r & Ec)|Ec]; pose proof Hcl as Hcl'; rewrite Ec in Hcl'.
    + destruct Hcl' as (g & Hg & _ & _ & Hm). rewrite Hm. cbn [In]. rewrite (J10 f). split.
      * intros [<- |(r' & H)].
        -- exists r. apply reader_back in Hg. rewrite Ec, Nat.eqb_refl in Hg. exact Hg.
        -- exists r'. apply reader_back in H. rewrite Ec in H. destruct (Nat.eqb r' r); exact H.
      * intros (r' & H). apply reader_of' in H as (b & H & Hb). rewrite Ec in Hb.
        destruct (Nat.eqb_spec r' r); [subst r'; left; congruence|]. right. exists r'. congruence.
    + destruct Hcl' as (_ & _ & Hm). rewrite Hm, (J10 f). split; intros (r & H); exists r.
      * apply reader_back in H. rewrite Ec in H. exact H.
      * apply reader_of' in H as (b & H & Hb). rewrite Ec in Hb. congruence.
  - destruct cl_dec as [(r & Ec)|Ec]; pose proof Hcl as Hcl'; rewrite Ec in Hcl'.
    + destruct Hcl' as (g & Hg & _ & _ & Hm). rewrite Hm. constructor; auto.
      intros H. apply J10 in H as (r' & H). pose proof (J6 _ _ _ _ _ Hg H). subst r'. congruence.
    + destruct Hcl' as (_ & _ & Hm). now rewrite Hm.
  - intros f. rewrite Hnext, (J12 f). split; intros (r & b & H).
    + apply reader_back in H. eauto.
    + apply reader_of' in H as (b' & H & _). eauto.
  - intros y ob Hk Hob. apply kept' in Hk. apply obj' in Hob as (o & Hob & ->).
    pose proof (J13 _ _ Hk Hob) as A.
    assert (Hy : y <> x) by congruence.
    assert (Hr : forall r, cl = Some r -> y = r -> ~ dict_reader st r).
    { intros r E -> D. pose proof (closed_input _ E (fun e => Hy (eq_sym e))) as F. rewrite F in Hfx. eauto. }
    assert (Hkr : forall r, cl = Some r -> exists f, kind_of st r = Some (KReader f true)).
    { intros r E. rewrite E in Hcl. destruct Hcl as (f & H & _). eauto. }
    destruct cl_dec as [(r & Ec)|Ec]; pose proof Hcl as Hcl'; rewrite Ec in Hcl'.
    + destruct (Nat.eq_dec y r) as [Hyr|Hyr].
      * destruct (Hkr r Ec) as (f & Hf). subst r. rewrite (obj_kind _ _ _ Hob) in Hf. injection Hf as Hf.
        unfold alive. cbn [o_kind after]. rewrite Hf. intros D. apply dict' in D. exfalso. eapply Hr; eauto.
      * rewrite after_nochange; [|auto|congruence]. unfold alive in *. destruct (o_kind o); auto.
        intros D. apply dict' in D. auto.
    + rewrite after_nochange; [|auto|congruence]. unfold alive in *. destruct (o_kind o); auto.
      intros D. apply dict' in D. auto.
Qed.
End Collect.

Lemma Inv_collect st x o f : Inv st -> obj st x = Some o -> o_fin o = Some f -> ~ kept st x -> Inv (run_final st x o f).
Proof.
  intros I Hx Hf Hk. pose proof (i_loc _ I _ _ Hx) as L.
  assert (Hl : (x < length (heap st))%nat) by (eapply obj_lt; eauto).
  unfold run_final. set (s1 := set_obj st x _).
  assert (E1 : forall y, obj s1 y = if Nat.eqb y x then Some (mkObj (o_kind o) (o_refs o) None) else obj st y)
    by (intros y; now apply obj_set).
  assert (L1 : length (heap s1) = length (heap st)) by apply set_nth_length.
  assert (Hclose : forall r g refs, obj s1 r = Some (mkObj (KReader g true) refs (if Nat.eqb r x then None else Some FSelf)) ->
            close_reader s1 r = mkState (set_nth (heap s1) r (mkObj (KReader g false) refs None)) (vars st) (del g (mapped st))
                                        (g :: unmaps st) (next_map st) (faults st)).
  { intros r g refs H. unfold close_reader. rewrite H. reflexivity. }
  destruct f as [|r|i].
  - (* the reader itself *)
    assert (Hr : exists g, o_kind o = KReader g true /\ o_refs o = []).
    { unfold local in L. rewrite Hf in L. destruct (o_kind o) as [g [|]| | | | | | | | |];
        repeat match goal with
               | H : _ /\ _ |- _ => destruct H
               | H : _ \/ _ |- _ => destruct H
               | H : exists _, _ |- _ => destruct H
               end; try discriminate; eauto. }
    destruct Hr as (g & Hg & Hrf).
    rewrite (Hclose x g []) by (rewrite E1, Nat.eqb_refl, Hg, Hrf; reflexivity).
    set (st' := mkState _ _ _ _ _ _).
    apply (Inv_after st st' x o FSelf (Some x)); auto.
    + intros y. unfold obj, st'. cbn [heap]. destruct (Nat.eq_dec y x) as [-> |Hn].
      * rewrite set_nth_same by lia. fold (obj st x). rewrite Hx. unfold after. cbn. rewrite Hg, Hrf, Nat.eqb_refl. reflexivity.
      * rewrite set_nth_other by auto. fold (obj s1 y). rewrite E1.
        destruct (Nat.eqb_spec y x); [contradiction|]. unfold obj. destruct (nth_error (heap st) y) as [oy|]; cbn [option_map]; auto.
        f_equal. symmetry. apply after_nochange; congruence.
    + unfold st'. cbn [heap]. now rewrite set_nth_length.
    + exists g. rewrite (obj_kind _ _ _ Hx), Hg. auto.
  - (* an input: its reader *)
    assert (Hr : exists g, o_kind o = KInput g /\ obj st r = Some (NewMMapReader g)).
    { unfold local in L. rewrite Hf in L. destruct (o_kind o) as [g [|]| | | | | | | | |];
        repeat match goal with
               | H : _ /\ _ |- _ => destruct H
               | H : _ \/ _ |- _ => destruct H
               | H : exists _, _ |- _ => destruct H
               end; try discriminate; eauto.
      match goal with H : Some (FReader _) = Some (FReader _) |- _ => inversion H; subst end. eauto. }
    destruct Hr as (g & Hg & Hr).
    assert (Hn : r <> x) by (intros ->; rewrite Hx in Hr; inversion Hr; subst; discriminate).
    assert (Hrl : (r < length (heap st))%nat) by (eapply obj_lt; eauto).
    rewrite (Hclose r g []).
    2: { rewrite E1. destruct (Nat.eqb_spec r x); [contradiction|]. exact Hr. }
    set (st' := mkState _ _ _ _ _ _).
    apply (Inv_after st st' x o (FReader r) (Some r)); auto.
    + intros y. unfold obj, st'. cbn [heap]. destruct (Nat.eq_dec y r) as [-> |Hn'].
      * rewrite set_nth_same by lia. fold (obj st r). rewrite Hr. unfold after. cbn. rewrite Nat.eqb_refl, Bool.orb_true_r. reflexivity.
      * rewrite set_nth_other by auto. fold (obj s1 y). rewrite E1.
        destruct (Nat.eqb_spec y x) as [-> |Hn2].
        -- fold (obj st x). rewrite Hx. unfold after. cbn. rewrite Hg, Nat.eqb_refl. reflexivity.
        -- unfold obj. destruct (nth_error (heap st) y) as [oy|]; cbn [option_map]; auto.
           f_equal. symmetry. apply after_nochange; congruence.
    + unfold st'. cbn [heap]. now rewrite set_nth_length.
    + exists g. rewrite (obj_kind _ _ _ Hr). auto.
  - (* an index or a language model *)
    apply (Inv_after st s1 x o (FInput i) None); auto.
    + intros y. rewrite E1. destruct (Nat.eqb_spec y x) as [-> |Hn].
      * rewrite Hx. unfold after. cbn. rewrite Nat.eqb_refl. cbn. f_equal. destruct (o_kind o); reflexivity.
      * destruct (obj st y) as [oy|]; cbn [option_map]; auto. f_equal. symmetry. apply after_nochange; congruence.
    + repeat split; auto. intros f <-. eauto.
Qed.

Lemma Inv_step st e st' : Inv st -> step st e st' -> Inv st'.
Proof.
  intros I H. destruct H.
  - apply (Inv_shrink _ _ (Inv_file st t I)); auto. cbn. intros v [H|H]; [left|right; right]; auto.
  - now apply Inv_index.
  - now apply Inv_opencdb.
  - now apply Inv_lm.
  - apply Inv_plain; auto.
    + split; cbn; auto.
    + cbn. tauto.
    + discriminate.
  - apply Inv_plain; auto.
    + split; cbn; auto.
    + cbn. intros y Hy. destruct (H y Hy). split; auto. now exists t.
    + discriminate.
  - apply Inv_add; auto.
    + eapply r_ref; [apply r_here; left; eauto|exact H0|exact H1].
    + eapply i_refs; eauto.
  - apply Inv_add; auto.
    + apply r_here; left; eauto.
    + eapply i_vars; eauto.
  - apply Inv_vars; auto. intros v. apply del1_in.
  - apply Inv_plain; auto.
    + split; cbn; auto.
    + cbn. tauto.
    + discriminate.
  - exact I.
  - now apply Inv_faults.
  - exact I.
  - apply (Inv_service st s refs); auto. intros y [<- |Hy]; auto. right. split.
    + apply r_here; left; eauto.
    + eapply i_vars; eauto.
  - apply (Inv_service st s refs); auto. intros y Hy. left. apply del_in in Hy. tauto.
  - eapply Inv_collect; eauto.
Qed.
Lemma Inv_exec st es st' : Inv st -> exec st es st' -> Inv st'.
Proof. intros I H. induction H; auto. apply IHexec. eapply Inv_step; eauto. Qed.
Lemma Inv_reachable st : reachable st -> Inv st.
Proof. intros (es & H). eapply Inv_exec; eauto. apply Inv_start. Qed.

(** ** What is kept is mapped *)
Definition file_of (k : kind) : option nat :=
  match k with KInput f | KInverted f | KIndices f | KLM f => Some f | _ => None end.
Lemma input_mapped st x f : Inv st -> kept st x -> kind_of st x = Some (KInput f) -> In f (mapped st).
Proof.
  intros I Hk Hx. apply kind_obj in Hx as (o & Ho & E).
  pose proof (i_live _ I _ _ Hk Ho) as A. unfold alive in A. rewrite E in A.
  pose proof (i_loc _ I _ _ Ho) as L. unfold local in L. rewrite E in L.
  destruct L as [_ [L|(r & L & Hr)]]; [contradiction|].
  apply (i_maps _ I). exists r. now rewrite (obj_kind _ _ _ Hr).
Qed.
Lemma kept_mapped st x k f : Inv st -> kept st x -> kind_of st x = Some k -> file_of k = Some f -> In f (mapped st).
Proof.
  intros I Hk Hx Hf. apply kind_obj in Hx as (o & Ho & E).
  pose proof (i_live _ I _ _ Hk Ho) as A. unfold alive in A. rewrite E in A.
  pose proof (i_loc _ I _ _ Ho) as L. unfold local in L. rewrite E in L.
  destruct k; try discriminate; injection Hf as ->.
  - eapply input_mapped; eauto. now rewrite (obj_kind _ _ _ Ho), E.
  - destruct L as [_ (i & Hi & Ki)]. apply (input_mapped st i); auto. eapply r_ref; [exact Hk|exact Ho|].
    rewrite Hi. left. reflexivity.
  - destruct L as [L|(i & Hi & Ki)]; [contradiction|]. apply (input_mapped st i); auto.
    apply r_here. right. exists x, o, (FInput i). cbn. auto.
  - destruct L as [L|(i & Hi & Ki)]; [contradiction|]. apply (input_mapped st i); auto.
    apply r_here. right. exists x, o, (FInput i). cbn. auto.
Qed.
Lemma dict_open st x f : Inv st -> kept st x -> kind_of st x = Some (KDict f) ->
  exists o r, obj st x = Some o /\ o_refs o = [r] /\ kind_of st r = Some (KReader f true) /\ In f (mapped st).
Proof.
  intros I Hk Hx. apply kind_obj in Hx as (o & Ho & E).
  pose proof (i_loc _ I _ _ Ho) as L. unfold local in L. rewrite E in L.
  destruct L as [_ (r & b & Hr & Kr)]. exists o, r.
  assert (Kk : kept st r) by (eapply r_ref; [exact Hk|exact Ho|]; rewrite Hr; left; reflexivity).
  apply kind_obj in Kr as (rr & Hrr & Er).
  pose proof (i_live _ I _ _ Kk Hrr) as A. unfold alive in A. rewrite Er in A.
  assert (D : dict_reader st r). { exists x, o, f. repeat split; auto. rewrite Hr. left. reflexivity. }
  specialize (A D). pose proof (i_loc _ I _ _ Hrr) as L. unfold local in L. rewrite Er in L.
  destruct b; [|destruct L; contradiction].
  assert (Kr : kind_of st r = Some (KReader f true)) by now rewrite (obj_kind _ _ _ Hrr), Er.
  repeat split; auto. apply (i_maps _ I). eauto.
Qed.

(** ** Release *)
Lemma svc_or_below st x y : Inv st -> vars st = [] ->
  (forall z o f, obj st z = Some o -> o_fin o = Some f -> (z <= x)%nat) ->
  kept st y -> (y < x)%nat /\ kind_of st y <> Some KService.
Proof.
  intros I Hv Hmax H. induction H as [y Hy|y ob z _ IH Hob Hz].
  - destruct Hy as [(t & Hy)|(z & ob & f & Hob & Hf & Hi)]; [rewrite Hv in Hy; destruct Hy|].
    pose proof (Hmax _ _ _ Hob Hf).
    destruct Hi as [Hi|Hi].
    + assert (Hk : o_kind ob <> KService).
      { intros E. pose proof (i_loc _ I _ _ Hob) as L. unfold local in L. rewrite E in L. congruence. }
      destruct (i_ord _ I _ _ _ Hob Hk Hi). split; auto. lia.
    + destruct (i_cap _ I _ _ _ _ Hob Hf Hi). split; auto. lia.
  - destruct IH as [IH1 IH2]. fold (obj st y) in Hob. rewrite (obj_kind _ _ _ Hob) in IH2.
    destruct (i_ord _ I y ob z Hob) as [H1 H2]; auto; [congruence|]. split; auto. lia.
Qed.
Definition has_fin (o : object) : bool := match o_fin o with Some _ => true | None => false end.
Definition finals (h : list object) : nat := length (filter has_fin h).
Lemma max_fin (h : list object) : finals h <> 0%nat ->
  exists x o f, nth_error h x = Some o /\ o_fin o = Some f /\
    forall z o' f', nth_error h z = Some o' -> o_fin o' = Some f' -> (z <= x)%nat.
Proof.
  induction h as [|o h IH] using rev_ind; [cbn; congruence|].
  intros H. destruct (o_fin o) as [f|] eqn:E.
  - exists (length h), o, f. rewrite obj_app, Nat.eqb_refl. repeat split; auto.
    intros z o' f' Hz _. apply obj_lt in Hz. rewrite app_length in Hz. cbn in Hz. lia.
  - unfold finals in *. rewrite filter_app, app_length in H. cbn in H. unfold has_fin at 2 in H. rewrite E in H. cbn in H.
    rewrite Nat.add_0_r in H. destruct (IH H) as (x & o' & f & H1 & H2 & H3). exists x, o', f. repeat split; auto.
    + rewrite obj_app. apply obj_lt in H1 as H1'. destruct (Nat.eqb_spec x (length h)); [lia|auto].
    + intros z oz fz Hz Fz. rewrite obj_app in Hz. destruct (Nat.eqb_spec z (length h)); [injection Hz as <-; congruence|eauto].
Qed.
Lemma no_fin_unmapped st : Inv st -> finals (heap st) = 0%nat -> mapped st = [].
Proof.
  intros I H. destruct (mapped st) as [|f l] eqn:E; auto. exfalso.
  assert (Hf : In f (mapped st)) by (rewrite E; left; reflexivity).
  apply (i_maps _ I) in Hf as (r & Hr). apply kind_obj in Hr as (o & Ho & Ek).
  pose proof (i_loc _ I _ _ Ho) as L. unfold local in L. rewrite Ek in L. destruct L as [_ L].
  assert (Hin : In o (filter has_fin (heap st))).
  { apply filter_In. split; [eapply nth_error_In; exact Ho|]. unfold has_fin. now rewrite L. }
  unfold finals in H. apply length_zero_iff_nil in H. rewrite H in Hin. destruct Hin.
Qed.
Lemma finals_set (h : list object) x o o' f : nth_error h x = Some o -> o_fin o = Some f -> o_fin o' = None ->
  S (finals (set_nth h x o')) = finals h.
Proof.
  revert x. induction h as [|a h IH]; intros [|x] H1 H2 H3; cbn in H1; try discriminate.
  - injection H1 as ->. unfold finals. cbn.
    assert (E1 : has_fin o = true) by (unfold has_fin; now rewrite H2).
    assert (E2 : has_fin o' = false) by (unfold has_fin; now rewrite H3).
    now rewrite E1, E2.
  - specialize (IH x H1 H2 H3). unfold finals in *. cbn. destruct (has_fin a); cbn; lia.
Qed.
Lemma finals_le (h : list object) x o' : o_fin o' = None -> (finals (set_nth h x o') <= finals h)%nat.
Proof.
  intros H. revert x. induction h as [|a h IH]; intros [|x]; unfold finals in *; cbn; try lia.
  - assert (E2 : has_fin o' = false) by (unfold has_fin; now rewrite H). rewrite E2. destruct (has_fin a); cbn; lia.
  - specialize (IH x). destruct (has_fin a); cbn; lia.
Qed.
Lemma collect_finals st x o f : obj st x = Some o -> o_fin o = Some f ->
  (finals (heap (run_final st x o f)) < finals (heap st))%nat.
Proof.
  intros Ho Hf. set (o' := mkObj (o_kind o) (o_refs o) None).
  assert (H : S (finals (heap (set_obj st x o'))) = finals (heap st)) by (eapply finals_set; eauto).
  assert (Hc : forall s r, (finals (heap (close_reader s r)) <= finals (heap s))%nat).
  { intros s r. unfold close_reader. destruct (obj s r) as [[[g [|]| | | | | | | | |] rf fn]|]; auto.
    cbn. now apply finals_le. }
  unfold run_final. fold o'. destruct f.
  - specialize (Hc (set_obj st x o') x). lia.
  - specialize (Hc (set_obj st x o') r). lia.
  - lia.
Qed.
Lemma collect_vars st x o f : vars (run_final st x o f) = vars st.
Proof.
  unfold run_final. assert (Hc : forall s r, vars (close_reader s r) = vars s).
  { intros s r. unfold close_reader. destruct (obj s r) as [[[g [|]| | | | | | | | |] rf fn]|]; reflexivity. }
  destruct f; rewrite ?Hc; reflexivity.
Qed.
Lemma can_collect st : Inv st -> vars st = [] -> mapped st <> [] ->
  exists x o f, obj st x = Some o /\ o_fin o = Some f /\ ~ kept st x.
Proof.
  intros I Hv Hm.
  assert (Hn : finals (heap st) <> 0%nat) by (intros E; apply Hm; now apply no_fin_unmapped).
  destruct (max_fin _ Hn) as (x & o & f & H1 & H2 & H3).
  exists x, o, f. repeat split; auto. intros Hk.
  destruct (svc_or_below st x x I Hv H3 Hk). lia.
Qed.
Lemma release st : Inv st -> vars st = [] ->
  exists xs st', exec st (map ECollect xs) st' /\ mapped st' = [] /\ (length xs <= finals (heap st))%nat.
Proof.
  remember (finals (heap st)) as n eqn:En. revert st En.
  induction n as [n IH] using lt_wf_ind. intros st En I Hv.
  destruct (mapped st) as [|g l] eqn:Em.
  - exists [], st. repeat split; auto; [constructor|cbn; lia].
  - destruct (can_collect st I Hv) as (x & o & f & Ho & Hf & Hk); [congruence|].
    assert (Hstep : step st (ECollect x) (run_final st x o f)) by (econstructor; eauto).
    pose proof (collect_finals st x o f Ho Hf) as Hlt.
    destruct (IH (finals (heap (run_final st x o f)))) with (st := run_final st x o f) as (xs & st' & E & M & L); auto; try lia.
    + eapply Inv_step; eauto.
    + now rewrite collect_vars.
    + exists (x :: xs), st'. repeat split; auto.
      * cbn. econstructor; eauto.
      * cbn. lia.
Qed.
