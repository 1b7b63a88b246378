(** Every step keeps the invariant of LifetimeProofs.v. *)
From Coq Require Import Lia.
From Verif Require Import Base Lifetime LifetimeProofs.

Lemma Inv_shrink s s' : Inv s -> heap s' = heap s -> incl (vars s') (vars s) -> mapped s' = mapped s ->
  unmaps s' = unmaps s -> next_map s' = next_map s -> Inv s'.
Proof.
  intros I H1 H2 H3 H4 H5. destruct s' as [h v m u n fl]. cbn in *. subst.
  apply (Inv_faults _ fl (Inv_vars _ _ I H2)).
Qed.
Lemma held_alloc st os vs maps x : held st x -> held (alloc st os vs maps) x.
Proof. intros (t & H). exists t. cbn. apply in_or_app. auto. Qed.
Lemma obj_alloc st os vs maps x o : obj st x = Some o -> obj (alloc st os vs maps) x = Some o.
Proof. unfold obj. cbn. intros H. rewrite nth_error_app1; auto. eapply obj_lt; eauto. Qed.
Lemma kind_alloc st os vs maps x k : kind_of st x = Some k -> kind_of (alloc st os vs maps) x = Some k.
Proof.
  intros H. apply kind_obj in H as (o & H & <-). apply obj_kind. now apply obj_alloc.
Qed.
Lemma heap_alloc st os vs maps : heap (alloc st os vs maps) = heap st ++ os.
Proof. reflexivity. Qed.
Lemma obj_last st o vs maps : obj (alloc st [o] vs maps) (length (heap st)) = Some o.
Proof. unfold obj. cbn. rewrite nth_error_app2, Nat.sub_diag by lia. reflexivity. Qed.
Lemma held_last st o t maps : held (alloc st [o] [(t, length (heap st))] maps) (length (heap st)).
Proof. exists t. cbn. auto. Qed.

(** ** New objects *)
(* mmap_reader.go:22-45 *)
Lemma Inv_reader st t : Inv st -> Inv (alloc st [NewMMapReader (next_map st)] [(t, length (heap st))] [next_map st]).
Proof.
  intros I. apply Inv_new; cbn; auto; try tauto; try discriminate.
  - intros f y H. inversion H; subst. intros [].
Qed.
Lemma last_captured st r x o : Inv st -> S r = length (heap st) -> obj st x = Some o -> o_fin o <> Some (FReader r).
Proof.
  intros I Hr Ho Hf. pose proof (obj_lt _ _ _ Ho).
  destruct (i_cap _ I x o (FReader r) r Ho Hf) as [Hl _]; [cbn; auto|]. lia.
Qed.
Lemma last_dict st r : Inv st -> S r = length (heap st) -> ~ dict_reader st r.
Proof.
  intros I Hr (d & od & f & Hd & Hk & Hi). pose proof (obj_lt _ _ _ Hd).
  destruct (i_ord _ I d od r Hd) as [Hl _]; auto; [congruence|]. lia.
Qed.
Lemma Inv_input st t r f : Inv st -> S r = length (heap st) -> held st r -> obj st r = Some (NewMMapReader f) ->
  Inv (alloc st [OpenInput f r] [(t, length (heap st))] []).
Proof.
  intros I Hr Hh Ho. apply Inv_new; auto; try (cbn; tauto); try discriminate.
  - intros g y H. inversion H; subst. cbn. intros [<- |[]]. split; auto. rewrite (obj_kind _ _ _ Ho). discriminate.
  - split; auto. right. exists r. split; auto. now apply obj_alloc.
  - cbn. intros r' H. inversion H; subst r'. split; [now apply last_dict|]. intros x ob Hx. eapply last_captured; eauto.
Qed.
Lemma Inv_cdb st t r f : Inv st -> S r = length (heap st) -> held st r -> obj st r = Some (NewMMapReader f) ->
  Inv (alloc st [mkObj (KDict f) [r] None] [(t, length (heap st))] []).
Proof.
  intros I Hr Hh Ho. apply Inv_new; auto; try (cbn; tauto); try discriminate.
  - cbn. intros y [<- |[]]. split; auto. rewrite (obj_kind _ _ _ Ho). discriminate.
  - split; auto. exists r, true. split; auto. apply kind_alloc. now rewrite (obj_kind _ _ _ Ho).
  - cbn. intros g r' H [<- |[]]. split.
    + intros x ob Hx. eapply last_captured; eauto.
    + intros ob. rewrite Ho. intros E. inversion E. discriminate.
Qed.
(** Objects without a finalizer, which are no dictionaries. *)
Definition plain (o : object) : Prop :=
  o_fin o = None /\ match o_kind o with KView _ | KModel _ | KStruct | KService | KInverted _ => True | _ => False end.
Lemma Inv_plain st t o : Inv st -> plain o -> (forall y, In y (o_refs o) -> held st y /\ kind_of st y <> Some KService) ->
  (forall f, o_kind o = KInverted f -> exists i, o_refs o = [i] /\ kind_of st i = Some (KInput f)) ->
  Inv (alloc st [o] [(t, length (heap st))] []).
Proof.
  intros I [Hf Hk] Hr Hi. apply Inv_new; auto; rewrite ?Hf; try discriminate.
  - unfold local. destruct (o_kind o); try tauto; auto. split; auto.
    destruct (Hi f eq_refl) as (i & H1 & H2). exists i. split; auto. now apply kind_alloc.
  - destruct (o_kind o); tauto.
  - intros f r E. rewrite E in Hk. tauto.
  - destruct (o_kind o); tauto.
Qed.
Lemma Inv_top st t i refs k f : Inv st -> held st i -> kind_of st i = Some (KInput f) ->
  k = KIndices f \/ k = KLM f -> (forall y, In y refs -> held st y /\ kind_of st y <> Some KService) ->
  Inv (alloc st [mkObj k refs (Some (FInput i))] [(t, length (heap st))] []).
Proof.
  intros I Hh Hi Hk Hr. apply Inv_new; auto; try (destruct Hk; subst; cbn; (tauto || discriminate)).
  - cbn. intros g y H. inversion H; subst. cbn. intros [<- |[]]. split; auto. congruence.
  - assert (E : kind_of (alloc st [mkObj k refs (Some (FInput i))] [(t, length (heap st))] []) i = Some (KInput f))
      by now apply kind_alloc.
    destruct Hk; subst k; right; exists i; auto.
Qed.
Lemma alloc_alloc st os os' vs vs' m m' :
  alloc (alloc st os vs m) os' vs' m' = alloc st (os ++ os') (vs' ++ vs) (m' ++ m).
Proof.
  unfold alloc. cbn. rewrite !app_assoc, app_length. f_equal. lia.
Qed.
Lemma Inv_repeat st t o k : Inv st -> plain o -> (forall y, In y (o_refs o) -> held st y /\ kind_of st y <> Some KService) ->
  (forall f, o_kind o = KInverted f -> exists i, o_refs o = [i] /\ kind_of st i = Some (KInput f)) ->
  exists vs, Inv (alloc st (repeat o k) vs []) /\ forall j, (j < k)%nat -> In (t, (length (heap st) + j)%nat) vs.
Proof.
  intros I Hp Hr Hi. induction k as [|k (vs & IH & Hv)].
  - exists []. split; [|intros j; lia].
    apply (Inv_shrink st); auto; cbn; try apply app_nil_r; try lia. apply incl_refl.
  - exists ((t, (length (heap st) + k)%nat) :: vs). split.
    + set (s := alloc st (repeat o k) vs []) in *.
      assert (J : Inv (alloc s [o] [(t, length (heap s))] [])).
      { apply Inv_plain; auto.
        - intros y Hy. destruct (Hr y Hy) as [H1 H2]. split; [now apply held_alloc|].
          destruct H1 as (t' & H1). apply (i_vars _ I) in H1.
          unfold kind_of, obj in *. cbn. rewrite nth_error_app1; auto.
        - intros f E. destruct (Hi f E) as (i & H1 & H2). exists i. split; auto. now apply kind_alloc. }
      apply (Inv_shrink _ _ J); unfold s; rewrite ?alloc_alloc; cbn; try lia; auto.
      * f_equal. clear. induction k; cbn; congruence.
      * rewrite app_length, repeat_length. apply incl_refl.
    + intros j Hj. destruct (Nat.eq_dec j k) as [-> |Hn]; [left; reflexivity|right; apply Hv; lia].
Qed.

(** A file opened. *)
Lemma Inv_file st t : Inv st ->
  Inv (alloc st [NewMMapReader (next_map st); OpenInput (next_map st) (length (heap st))]
             [(t, length (heap st) + 1)%nat; (t, length (heap st))] [next_map st]).
Proof.
  intros I. pose proof (Inv_reader st t I) as I1.
  set (s := alloc st [NewMMapReader (next_map st)] [(t, length (heap st))] [next_map st]) in *.
  assert (I2 : Inv (alloc s [OpenInput (next_map st) (length (heap st))] [(t, length (heap s))] [])).
  { apply Inv_input; auto.
    - unfold s. rewrite heap_alloc, app_length. cbn. lia.
    - apply held_last.
    - apply obj_last. }
  unfold s in I2. rewrite alloc_alloc in I2. cbn [app heap alloc] in I2. rewrite app_length in I2. exact I2.
Qed.
Lemma open_kind st t : kind_of (alloc st [NewMMapReader (next_map st); OpenInput (next_map st) (length (heap st))]
             [(t, length (heap st) + 1)%nat; (t, length (heap st))] [next_map st]) (length (heap st) + 1)
  = Some (KInput (next_map st)).
Proof.
  unfold kind_of, obj. cbn. rewrite nth_error_app2 by lia.
  replace (length (heap st) + 1 - length (heap st))%nat with 1%nat by lia. reflexivity.
Qed.
Lemma Inv_index st t k : Inv st ->
  let h := length (heap st) in
  Inv (alloc st (Read_objects h (next_map st) k) [(t, h + 4 + k)%nat] [next_map st + 1; next_map st]%nat).
Proof.
  intros I h. pose proof (Inv_file st t I) as I1. fold h in I1.
  set (s1 := alloc st _ _ _) in I1.
  pose proof (Inv_file s1 t I1) as I2.
  assert (H1 : length (heap s1) = (h + 2)%nat) by (unfold s1; rewrite heap_alloc, app_length; cbn; unfold h; lia).
  assert (M1 : next_map s1 = (next_map st + 1)%nat) by reflexivity.
  pose proof (open_kind s1 t) as K2.
  rewrite H1, M1 in *. set (s2 := alloc s1 _ _ _) in I2, K2.
  replace (h + 2 + 1)%nat with (h + 3)%nat in * by lia.
  assert (H2 : length (heap s2) = (h + 4)%nat) by (unfold s2; rewrite heap_alloc, app_length, H1; cbn; lia).
  assert (V2 : held s2 (h + 3)) by (exists t; unfold s2; cbn; left; f_equal; lia).
  destruct (Inv_repeat s2 t (NewInvertedIndex (next_map st + 1) (h + 3)) k I2) as (vs & I3 & Hvs).
  { split; cbn; auto. }
  { cbn. intros y [<- |[]]. split; auto. rewrite K2. discriminate. }
  { intros f E. inversion E; subst f. exists (h + 3)%nat. split; auto. }
  set (s3 := alloc s2 _ vs []) in I3.
  assert (H3 : length (heap s3) = (h + 4 + k)%nat) by (unfold s3; rewrite heap_alloc, app_length, H2, repeat_length; lia).
  assert (I4 : Inv (alloc s3 [mkObj (KIndices (next_map st + 1)) (seq (h + 4) k) (Some (FInput (h + 3)))] [(t, length (heap s3))] [])).
  { apply (Inv_top s3 t (h + 3)%nat _ _ (next_map st + 1)%nat); auto.
    - now apply held_alloc.
    - now apply kind_alloc.
    - intros y Hy. apply in_seq in Hy. split.
      + exists t. unfold s3. cbn. apply in_or_app. left. rewrite H2 in Hvs.
        replace y with (h + 4 + (y - h - 4))%nat by lia. apply Hvs. lia.
      + assert (E : nth_error (repeat (NewInvertedIndex (next_map st + 1) (h + 3)) k) (y - (h + 4)) = Some (NewInvertedIndex (next_map st + 1) (h + 3))).
        { apply nth_error_repeat. lia. }
        unfold kind_of, obj, s3. rewrite heap_alloc, nth_error_app2, H2, E by lia. discriminate. }
  unfold s3, s2, s1 in I4. rewrite !alloc_alloc in I4.
  apply (Inv_shrink _ _ I4); auto.
  - cbn. intros v [<- |Hv].
    + left. f_equal. rewrite app_length. cbn. rewrite repeat_length. unfold h. lia.
    + right. apply in_or_app. auto.
Qed.
Lemma Inv_opencdb st t : Inv st ->
  let h := length (heap st) in
  Inv (alloc st (OpenCDB_objects h (next_map st)) [(t, h + 1)%nat] [next_map st]).
Proof.
  intros I h. pose proof (Inv_reader st t I) as I1.
  set (s := alloc st [NewMMapReader (next_map st)] [(t, length (heap st))] [next_map st]) in *.
  assert (I2 : Inv (alloc s [mkObj (KDict (next_map st)) [length (heap st)] None] [(t, length (heap s))] [])).
  { apply Inv_cdb; auto.
    - unfold s. rewrite heap_alloc, app_length. cbn. lia.
    - apply held_last.
    - apply obj_last. }
  unfold s in I2. rewrite alloc_alloc in I2. cbn [app heap alloc] in I2. rewrite app_length in I2.
  apply (Inv_shrink _ _ I2); auto. intros v [<- |Hv]; [left; reflexivity|]. right. right. exact Hv.
Qed.
Lemma Inv_lm st t k : Inv st ->
  let h := length (heap st) in
  Inv (alloc st (RetrieveLM_objects h (next_map st) k) [(t, h + 5 + k)%nat] [next_map st + 1; next_map st]%nat).
Proof.
  intros I h. pose proof (Inv_opencdb st t I) as I1. cbn zeta in I1. fold h in I1.
  set (s1 := alloc st _ _ _) in I1.
  pose proof (Inv_file s1 t I1) as I2.
  assert (H1 : length (heap s1) = (h + 2)%nat) by (unfold s1; rewrite heap_alloc, app_length; cbn; unfold h; lia).
  assert (M1 : next_map s1 = (next_map st + 1)%nat) by reflexivity.
  pose proof (open_kind s1 t) as K2.
  assert (V1 : held s1 (h + 1)) by (exists t; unfold s1; cbn; auto).
  assert (K1 : kind_of s1 (h + 1) = Some (KDict (next_map st))).
  { unfold kind_of, obj, s1. rewrite heap_alloc, nth_error_app2 by (unfold h; lia).
    replace (h + 1 - length (heap st))%nat with 1%nat by (unfold h; lia). reflexivity. }
  rewrite H1, M1 in *. set (s2 := alloc s1 _ _ _) in I2, K2.
  replace (h + 2 + 1)%nat with (h + 3)%nat in * by lia.
  assert (H2 : length (heap s2) = (h + 4)%nat) by (unfold s2; rewrite heap_alloc, app_length, H1; cbn; lia).
  assert (V2 : held s2 (h + 3)) by (exists t; unfold s2; cbn; left; f_equal; lia).
  set (ob := mkObj (KView (next_map st + 1)) [] None).
  destruct (Inv_repeat s2 t ob k I2) as (vs & I3 & Hvs).
  { split; cbn; auto. }
  { cbn. tauto. }
  { intros f E. inversion E. }
  set (s3 := alloc s2 _ vs []) in I3.
  assert (H3 : length (heap s3) = (h + 4 + k)%nat) by (unfold s3; rewrite heap_alloc, app_length, H2, repeat_length; lia).
  set (md := mkObj (KModel (next_map st + 1)) (seq (h + 4) k) None).
  assert (I4 : Inv (alloc s3 [md] [(t, length (heap s3))] [])).
  { apply Inv_plain; auto.
    - split; cbn; auto.
    - intros y Hy. apply in_seq in Hy. split.
      + exists t. unfold s3. cbn. apply in_or_app. left. rewrite H2 in Hvs.
        replace y with (h + 4 + (y - h - 4))%nat by lia. apply Hvs. lia.
      + assert (E : nth_error (repeat ob k) (y - (h + 4)) = Some ob).
        { apply nth_error_repeat. lia. }
        unfold kind_of, obj, s3. rewrite heap_alloc, nth_error_app2, H2, E by lia. discriminate.
    - intros f E. inversion E. }
  set (s4 := alloc s3 _ _ []) in I4.
  assert (H4 : length (heap s4) = (h + 5 + k)%nat) by (unfold s4; rewrite heap_alloc, app_length, H3; cbn; lia).
  assert (I5 : Inv (alloc s4 [mkObj (KLM (next_map st + 1)) [h + 4 + k; h + 1]%nat (Some (FInput (h + 3)))] [(t, length (heap s4))] [])).
  { apply (Inv_top s4 t (h + 3)%nat _ _ (next_map st + 1)%nat); auto.
    - now do 2 apply held_alloc.
    - now do 2 apply kind_alloc.
    - intros y [<- |[<- |[]]]; split.
      + unfold s4. rewrite <- H3. apply held_last.
      + unfold s4, kind_of. rewrite <- H3, obj_last. discriminate.
      + now do 3 apply held_alloc.
      + unfold s4, s3, s2. rewrite !(kind_alloc _ _ _ _ _ (KDict (next_map st))); [discriminate|].
        now do 2 apply kind_alloc. }
  unfold s4, s3, s2, s1 in I5. rewrite !alloc_alloc in I5.
  apply (Inv_shrink _ _ I5); auto.
  - cbn. intros v [<- |Hv].
    + left. f_equal. rewrite app_length. cbn. rewrite app_length, repeat_length. unfold h. cbn. lia.
    + right. right. apply in_or_app. auto.
Qed.
