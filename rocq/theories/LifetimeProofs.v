(** Invariant of the mapped files' lifetime (Lifetime.v), for every history. *)
From Coq Require Import Lia.
From Verif Require Import Base Lifetime.

(** ** Lists *)
Lemma set_nth_length {A} (l : list A) n a : length (set_nth l n a) = length l.
Proof. revert n; induction l; intros [|n]; cbn; auto. Qed.
Lemma set_nth_same {A} (l : list A) n a : (n < length l)%nat -> nth_error (set_nth l n a) n = Some a.
Proof. revert n; induction l; intros [|n] H; cbn in *; try lia; auto. apply IHl. lia. Qed.
Lemma set_nth_other {A} (l : list A) n m a : n <> m -> nth_error (set_nth l n a) m = nth_error l m.
Proof. revert n m; induction l; intros [|n] [|m] H; cbn in *; auto; try lia. Qed.
Lemma del_in n m l : In m (del n l) <-> In m l /\ m <> n.
Proof.
  unfold del. rewrite filter_In, Bool.negb_true_iff, Nat.eqb_neq. intuition congruence.
Qed.
Lemma del1_in v w l : In w (del1 v l) -> In w l.
Proof.
  induction l as [|u l IH]; cbn; auto. destruct (_ && _)%bool; cbn; intuition.
Qed.
Lemma del1_other v w l : In w l -> w <> v -> In w (del1 v l).
Proof.
  induction l as [|u l IH]; cbn; auto. intros [-> |H] Hn.
  - destruct (_ && _)%bool eqn:E; [|left; auto].
    apply Bool.andb_true_iff in E. rewrite !Nat.eqb_eq in E. destruct v, w, E; cbn in *; subst; congruence.
  - destruct (_ && _)%bool; cbn; auto.
Qed.
Lemma obj_app h o x : nth_error (h ++ [o]) x = (if Nat.eqb x (length h) then Some o else nth_error h x) :> option object.
Proof.
  destruct (Nat.eqb_spec x (length h)) as [-> |Hn].
  - rewrite nth_error_app2, Nat.sub_diag by lia. reflexivity.
  - destruct (Nat.lt_ge_cases x (length h)).
    + now rewrite nth_error_app1.
    + rewrite (proj2 (nth_error_None h x)) by lia. apply nth_error_None. rewrite app_length; cbn; lia.
Qed.
Lemma obj_lt h (x : nat) (o : object) : nth_error h x = Some o -> (x < length h)%nat.
Proof. intros H. apply nth_error_Some. congruence. Qed.

(** ** Reachability *)
Lemma reach_mono h h' (S S' : nat -> Prop) x :
  (forall y, S y -> S' y) ->
  (forall y o z, nth_error h y = Some o -> In z (o_refs o) -> exists o', nth_error h' y = Some o' /\ In z (o_refs o')) ->
  reach h S x -> reach h' S' x.
Proof.
  intros HS Hh H. induction H as [x Hx|x o y _ IH Ho Hy].
  - apply r_here; auto.
  - destruct (Hh _ _ _ Ho Hy) as (o' & Ho' & Hy'). eapply r_ref; eauto.
Qed.
Lemma reach_trans h (S S' : nat -> Prop) x :
  (forall y, S y -> reach h S' y) -> reach h S x -> reach h S' x.
Proof.
  intros HS H. induction H as [x Hx|x o y _ IH Ho Hy]; auto. eapply r_ref; eauto.
Qed.

(** ** The invariant *)
Definition local (st : state) (o : object) : Prop :=
  match o_kind o with
  | KReader f true => o_refs o = [] /\ o_fin o = Some FSelf
  | KReader f false => o_refs o = [] /\ o_fin o = None
  | KInput f => o_refs o = [] /\ (o_fin o = None \/ exists r, o_fin o = Some (FReader r) /\ obj st r = Some (NewMMapReader f))
  | KView _ | KModel _ | KStruct | KService => o_fin o = None
  | KInverted f => o_fin o = None /\ exists i, o_refs o = [i] /\ kind_of st i = Some (KInput f)
  | KIndices f | KLM f => o_fin o = None \/ exists i, o_fin o = Some (FInput i) /\ kind_of st i = Some (KInput f)
  | KDict f => o_fin o = None /\ exists r b, o_refs o = [r] /\ kind_of st r = Some (KReader f b)
  end.
(** Some dictionary reads through x. *)
Definition dict_reader (st : state) (x : nat) : Prop :=
  exists d od f, obj st d = Some od /\ o_kind od = KDict f /\ In x (o_refs od).
Definition alive (st : state) (x : nat) (o : object) : Prop :=
  match o_kind o with
  | KInput _ | KIndices _ | KLM _ => o_fin o <> None
  | KReader _ _ => dict_reader st x -> o_fin o <> None
  | _ => True
  end.
Record Inv (st : state) : Prop := mkInv {
  i_refs : forall x o y, obj st x = Some o -> In y (o_refs o) -> (y < length (heap st))%nat;
  i_ord : forall x o y, obj st x = Some o -> o_kind o <> KService -> In y (o_refs o) ->
            (y < x)%nat /\ kind_of st y <> Some KService;
  i_cap : forall x o f y, obj st x = Some o -> o_fin o = Some f -> In y (captured f) ->
            (y < x)%nat /\ kind_of st y <> Some KService;
  i_vars : forall t x, In (t, x) (vars st) -> (x < length (heap st))%nat;
  i_loc : forall x o, obj st x = Some o -> local st o;
  i_inj : forall r r' f b b', kind_of st r = Some (KReader f b) -> kind_of st r' = Some (KReader f b') -> r = r';
  i_cinj : forall x x' o o' r, obj st x = Some o -> obj st x' = Some o' ->
            o_fin o = Some (FReader r) -> o_fin o' = Some (FReader r) -> x = x';
  i_dict : forall x o r, obj st x = Some o -> o_fin o = Some (FReader r) -> dict_reader st r -> False;
  i_maps : forall f, In f (mapped st) <-> exists r, kind_of st r = Some (KReader f true);
  i_unm : forall f, In f (unmaps st) <-> exists r, kind_of st r = Some (KReader f false);
  i_once : NoDup (unmaps st);
  i_next : forall f, (f < next_map st)%nat <-> exists r b, kind_of st r = Some (KReader f b);
  i_live : forall x o, kept st x -> obj st x = Some o -> alive st x o }.

Lemma kind_obj st x k : kind_of st x = Some k -> exists o, obj st x = Some o /\ o_kind o = k.
Proof. unfold kind_of. destruct (obj st x) as [o|]; cbn; intros H; inversion H; eauto. Qed.
Lemma obj_kind st x o : obj st x = Some o -> kind_of st x = Some (o_kind o).
Proof. unfold kind_of. now intros ->. Qed.
Lemma kind_lt st x k : kind_of st x = Some k -> (x < length (heap st))%nat.
Proof. intros H. apply kind_obj in H as (o & H & _). eapply obj_lt; eauto. Qed.

Lemma Inv_start : Inv start.
Proof.
  assert (E : forall x, obj start x = None) by (intros [|x]; reflexivity).
  assert (E' : forall x, kind_of start x = None) by (intros [|x]; reflexivity).
  constructor; try (intros; rewrite ?E, ?E' in *; discriminate).
  - intros t x [].
  - intros f. split; [intros []|intros (r & H); rewrite E' in H; discriminate].
  - intros f. split; [intros []|intros (r & H); rewrite E' in H; discriminate].
  - constructor.
  - intros f. split; [cbn; lia|intros (r & b & H); rewrite E' in H; discriminate].
Qed.

(** Fewer variables. *)
Lemma Inv_vars st vs : Inv st -> incl vs (vars st) ->
  Inv (mkState (heap st) vs (mapped st) (unmaps st) (next_map st) (faults st)).
Proof.
  intros I Hi. destruct I; constructor; try assumption.
  - cbn. intros t x H. eapply i_vars0. apply Hi, H.
  - intros x o Hk Ho. apply i_live0; auto.
    eapply reach_mono; [| |exact Hk]; [|cbn; eauto].
    intros y [(t & H)|H]; [left; exists t; apply Hi, H|right; exact H].
Qed.
(** More variables, of what is kept. *)
Lemma Inv_add st t x : Inv st -> kept st x -> (x < length (heap st))%nat -> Inv (alloc st [] [(t, x)] []).
Proof.
  intros I Hk Hl. destruct st as [h vs m u n fl].
  assert (E : alloc (mkState h vs m u n fl) [] [(t, x)] [] = mkState h ((t, x) :: vs) m u n fl)
    by (unfold alloc; cbn; now rewrite app_nil_r, Nat.add_0_r).
  rewrite E. destruct I; constructor; try assumption.
  - cbn in *. intros t' y [H|H]; [inversion H; subst; auto|eauto].
  - intros y o Hy Ho. apply i_live0; auto. cbn in Hy.
    eapply reach_trans; [|exact Hy]. intros z [(t' & [H|H])|H].
    + inversion H; subst. exact Hk.
    + apply r_here. left. exists t'. exact H.
    + apply r_here. right. exact H.
Qed.
Lemma Inv_faults st fl : Inv st ->
  Inv (mkState (heap st) (vars st) (mapped st) (unmaps st) (next_map st) fl).
Proof. intros I. destruct I; constructor; assumption. Qed.

(** ** One new object, held by a variable, pointing to what variables hold *)
Definition held (st : state) (x : nat) : Prop := exists t, In (t, x) (vars st).

Section New.
Context (st : state) (o : object) (t : nat) (maps : list nat).
Let h := length (heap st).
Let st' := alloc st [o] [(t, h)] maps.
Context (I : Inv st).
Context (Hrefs : forall y, In y (o_refs o) -> held st y /\ kind_of st y <> Some KService).
Context (Hcap : forall f y, o_fin o = Some f -> In y (captured f) -> held st y /\ kind_of st y <> Some KService).

Lemma new_obj x : obj st' x = if Nat.eqb x h then Some o else obj st x.
Proof. unfold obj, st', alloc. cbn [heap]. apply obj_app. Qed.
Lemma new_kind x : kind_of st' x = if Nat.eqb x h then Some (o_kind o) else kind_of st x.
Proof. unfold kind_of. rewrite new_obj. destruct (Nat.eqb x h); reflexivity. Qed.
Lemma held_lt y : held st y -> (y < h)%nat.
Proof. intros (t' & H). eapply i_vars in H; eauto. Qed.
Lemma old_kind x k : kind_of st x = Some k -> kind_of st' x = Some k.
Proof.
  intros H. rewrite new_kind. destruct (Nat.eqb_spec x h); auto.
  subst x. apply kind_lt in H. unfold h in H. lia.
Qed.
Lemma old_obj x ob : obj st x = Some ob -> obj st' x = Some ob.
Proof.
  intros H. rewrite new_obj. destruct (Nat.eqb_spec x h); auto.
  subst x. apply obj_lt in H. unfold h in H. lia.
Qed.
Lemma old_local ob : local st ob -> local st' ob.
Proof.
  unfold local. destruct (o_kind ob) as [f [|]| | | | | | | | |]; auto.
  - intros [H [H1|(r & H1 & H2)]]; split; auto. right. exists r. split; auto. now apply old_obj.
  - intros [H (i & H1 & H2)]; split; auto. exists i. split; auto. now apply old_kind.
  - intros [H1|(r & H1 & H2)]; auto. right. exists r. split; auto. now apply old_kind.
  - intros [H1|(r & H1 & H2)]; auto. right. exists r. split; auto. now apply old_kind.
  - intros [H (i & b & H1 & H2)]; split; auto. exists i, b. split; auto. now apply old_kind.
Qed.
(** Nothing new is kept but the object. *)
Lemma new_kept x : kept st' x -> x = h \/ kept st x.
Proof.
  intros H. induction H as [x Hx|x ob y _ IH Ho Hy].
  - destruct Hx as [(t' & Hv)|(y & ob & f & Ho & Hf & Hi)].
    + cbn in Hv. destruct Hv as [Hv|Hv]; [inversion Hv; auto|right; apply r_here; left; eauto].
    + rewrite new_obj in Ho. destruct (Nat.eqb_spec y h).
      * inversion Ho; subst ob. right. apply r_here. left.
        destruct Hi as [Hi|Hi]; [apply (Hrefs _ Hi)|apply (Hcap _ _ Hf Hi)].
      * right. apply r_here. right. exists y, ob, f. auto.
  - fold (obj st' x) in Ho. rewrite new_obj in Ho. destruct (Nat.eqb_spec x h).
    + inversion Ho; subst ob. right. apply r_here. left. apply (Hrefs _ Hy).
    + right. destruct IH as [IH|IH]; [contradiction|]. eapply r_ref; eauto.
Qed.
Lemma new_dict_reader x : dict_reader st' x -> (exists f, o_kind o = KDict f /\ In x (o_refs o)) \/ dict_reader st x.
Proof.
  intros (d & od & f & Hd & Hk & Hi). rewrite new_obj in Hd. destruct (Nat.eqb d h).
  - inversion Hd; subst. left. eauto.
  - right. exists d, od, f. auto.
Qed.

(** What each kind of object needs. *)
Context (Hloc : local st' o).
Context (Hr : match o_kind o with
              | KReader f b => b = true /\ f = next_map st /\ maps = [f]
              | _ => maps = [] end).
Context (Hf : forall r, o_fin o = Some (FReader r) ->
              ~ dict_reader st r /\ forall x ob, obj st x = Some ob -> o_fin ob <> Some (FReader r)).
Context (Hd : forall f r, o_kind o = KDict f -> In r (o_refs o) ->
              (forall x ob, obj st x = Some ob -> o_fin ob <> Some (FReader r)) /\
              forall ob, obj st r = Some ob -> o_fin ob <> None).
Context (Ha : match o_kind o with KInput _ | KIndices _ | KLM _ => o_fin o <> None | _ => True end).

Lemma not_reader : (forall f b, o_kind o <> KReader f b) -> maps = [].
Proof. intros H. destruct (o_kind o) eqn:E; auto. exfalso. eapply H; eauto. Qed.
Lemma reader_dec : (exists f b, o_kind o = KReader f b) \/ (forall f b, o_kind o <> KReader f b).
Proof. destruct (o_kind o); try (right; discriminate). left; eauto. Qed.
Lemma old_reader f b r : kind_of st r = Some (KReader f b) -> (f < next_map st)%nat.
Proof. intros H. apply (proj2 (i_next _ I f)). eauto. Qed.

Lemma Inv_new : Inv st'.
Proof.
  pose proof I as I0. destruct I as [J1 J2 J3 J4 J5 J6 J7 J8 J9 J10 J11 J12 J13].
  assert (Hlen : length (heap st') = S h) by (unfold st', alloc; cbn; rewrite app_length; cbn; unfold h; lia).
  constructor.
  - intros x ob y Ho Hy. rewrite Hlen. rewrite new_obj in Ho. destruct (Nat.eqb_spec x h).
    + inversion Ho; subst ob. pose proof (held_lt _ (proj1 (Hrefs _ Hy))). lia.
    + pose proof (J1 _ _ _ Ho Hy). unfold h. lia.
  - intros x ob y Ho Hs Hy. rewrite new_obj in Ho. destruct (Nat.eqb_spec x h).
    + inversion Ho; subst ob. destruct (Hrefs _ Hy) as [Hh Hn]. pose proof (held_lt _ Hh). split; [lia|].
      rewrite new_kind. destruct (Nat.eqb_spec y h); [lia|auto].
    + destruct (J2 _ _ _ Ho Hs Hy) as [Hl Hn]. split; auto.
      rewrite new_kind. pose proof (J1 _ _ _ Ho Hy). destruct (Nat.eqb_spec y h); [unfold h in *; lia|auto].
  - intros x ob f y Ho Hs Hy. rewrite new_obj in Ho. destruct (Nat.eqb_spec x h).
    + inversion Ho; subst ob. destruct (Hcap _ _ Hs Hy) as [Hh Hn]. pose proof (held_lt _ Hh). split; [lia|].
      rewrite new_kind. destruct (Nat.eqb_spec y h); [lia|auto].
    + destruct (J3 _ _ _ _ Ho Hs Hy) as [Hl Hn]. split; auto.
      rewrite new_kind. pose proof (obj_lt _ _ _ Ho). destruct (Nat.eqb_spec y h); [unfold h in *; lia|auto].
  - intros t' x Hv. rewrite Hlen. cbn in Hv. destruct Hv as [Hv|Hv]; [inversion Hv; lia|].
    apply J4 in Hv. unfold h. lia.
  - intros x ob Ho. rewrite new_obj in Ho. destruct (Nat.eqb_spec x h).
    + inversion Ho; subst ob. exact Hloc.
    + apply old_local. eauto.
  - intros r r' f b b' H1 H2. rewrite new_kind in H1, H2.
    destruct (Nat.eqb_spec r h), (Nat.eqb_spec r' h); try congruence.
    + injection H1 as H1. rewrite H1 in Hr. destruct Hr as (_ & Hf' & _). apply old_reader in H2. lia.
    + injection H2 as H2. rewrite H2 in Hr. destruct Hr as (_ & Hf' & _). apply old_reader in H1. lia.
    + eauto.
  - intros x x' ob ob' r H1 H2 F1 F2. rewrite new_obj in H1, H2.
    destruct (Nat.eqb_spec x h), (Nat.eqb_spec x' h); try congruence.
    + injection H1 as <-. exfalso. destruct (Hf _ F1) as [_ Hn]. eapply Hn; eauto.
    + injection H2 as <-. exfalso. destruct (Hf _ F2) as [_ Hn]. eapply Hn; eauto.
    + eauto.
  - intros x ob r H1 F1 Hdr. rewrite new_obj in H1. destruct (Nat.eqb_spec x h).
    + injection H1 as <-. apply new_dict_reader in Hdr as [(f & Hk & Hi)|Hdr].
      * unfold local in Hloc. rewrite Hk in Hloc. destruct Hloc. congruence.
      * destruct (Hf _ F1) as [Hn _]. auto.
    + apply new_dict_reader in Hdr as [(f & Hk & Hi)|Hdr].
      * destruct (Hd _ _ Hk Hi) as [Hn _]. eapply Hn; eauto.
      * eauto.
  - intros f. destruct reader_dec as [(g & b & Hk)|Hn].
    + rewrite Hk in Hr. destruct Hr as (-> & Hg & Hm). change (mapped st') with (maps ++ mapped st). rewrite Hm. split.
      * intros [H| H]; [exists h; rewrite new_kind, Nat.eqb_refl, Hk; congruence|].
        apply J9 in H as (r & H). exists r. now apply old_kind.
      * intros (r & H). rewrite new_kind in H. destruct (Nat.eqb_spec r h).
        -- rewrite Hk in H. left. congruence.
        -- right. apply J9. eauto.
    + pose proof (not_reader Hn) as Hm. change (mapped st') with (maps ++ mapped st). rewrite Hm. cbn [app]. split.
      * intros H. apply J9 in H as (r & H). exists r. now apply old_kind.
      * intros (r & H). rewrite new_kind in H. destruct (Nat.eqb_spec r h); [injection H as H; now apply Hn in H|].
        apply J9. eauto.
  - intros f. change (unmaps st') with (unmaps st). split.
    + intros H. apply J10 in H as (r & H). exists r. now apply old_kind.
    + intros (r & H). rewrite new_kind in H. destruct (Nat.eqb_spec r h); [|apply J10; eauto].
      injection H as H. rewrite H in Hr. destruct Hr. discriminate.
  - exact J11.
  - intros f. destruct reader_dec as [(g & b & Hk)|Hn].
    + rewrite Hk in Hr. destruct Hr as (-> & Hg & Hm). change (next_map st') with (next_map st + length maps)%nat. rewrite Hm. cbn [length]. split.
      * intros H. destruct (Nat.eq_dec f g) as [-> |Hne].
        -- exists h, true. rewrite new_kind, Nat.eqb_refl, Hk. reflexivity.
        -- assert (H' : (f < next_map st)%nat) by lia. apply J12 in H' as (r & b & H').
           exists r, b. now apply old_kind.
      * intros (r & b & H). rewrite new_kind in H. destruct (Nat.eqb_spec r h).
        -- rewrite Hk in H. injection H as -> _. lia.
        -- apply old_reader in H. lia.
    + pose proof (not_reader Hn) as Hm. change (next_map st') with (next_map st + length maps)%nat. rewrite Hm. cbn [length]. rewrite Nat.add_0_r. split.
      * intros H. apply J12 in H as (r & b & H). exists r, b. now apply old_kind.
      * intros (r & b & H). rewrite new_kind in H. destruct (Nat.eqb_spec r h); [injection H as H; now apply Hn in H|].
        apply J12. eauto.
  - intros x ob Hk Ho. rewrite new_obj in Ho. destruct (Nat.eqb_spec x h).
    + injection Ho as <-. unfold alive. destruct (o_kind o) as [f b| | | | | | | | |] eqn:Ek; auto.
      intros Hdr. apply new_dict_reader in Hdr as [(f' & Hk' & _)|Hdr]; [congruence|].
      destruct Hdr as (d & od & f' & Hd' & Hk' & Hi). pose proof (J1 _ _ _ Hd' Hi). unfold h in *. lia.
    + apply new_kept in Hk as [Hk|Hk]; [contradiction|]. pose proof (J13 _ _ Hk Ho) as Hal.
      unfold alive in *. destruct (o_kind ob) as [f b| | | | | | | | |] eqn:Ek; auto.
      intros Hdr. apply new_dict_reader in Hdr as [(f' & Hk' & Hi)|Hdr]; [|auto].
      destruct (Hd _ _ Hk' Hi) as [_ Hn]. auto.
Qed.
End New.
