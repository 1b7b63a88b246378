(** C79: mapped files and the garbage collector.  C80: the reader of a mapped file. *)
From Coq Require Import Lia.
From Verif Require Import Base Lifetime LifetimeProofs LifetimeProofs2 LifetimeProofs3.

(** ** Specification *)
(** Some variable thread t will still read leads to x. *)
Definition holds (st : state) (t x : nat) : Prop := reach (heap st) (fun y => In (t, y) (vars st)) x.
(** x is an opened input, an index, one of an index's parts, or a language model, over mapping f. *)
Definition made_from (st : state) (x f : nat) : Prop :=
  kind_of st x = Some (KInput f) \/ kind_of st x = Some (KInverted f) \/
  kind_of st x = Some (KIndices f) \/ kind_of st x = Some (KLM f).
(** y leads to x (through fields, without variables). *)
Definition leads (st : state) (y x : nat) : Prop := reach (heap st) (fun z => z = y) x.

Lemma holds_kept st t x : holds st t x -> kept st x.
Proof.
  intros H. eapply reach_mono; [| |exact H]; [|eauto]. intros y Hy. left. exists t. exact Hy.
Qed.
Lemma made_file st x f : made_from st x f -> exists k, kind_of st x = Some k /\ file_of k = Some f.
Proof. intros [H|[H|[H|H]]]; eexists; split; try exact H; reflexivity. Qed.

(** ** C79 *)
(** At any moment of any history, whatever collections have run: what a thread still uses is mapped. *)
Theorem C79_held_is_mapped : forall st t x f,
  reachable st -> holds st t x -> made_from st x f -> In f (mapped st).
Proof.
  intros st t x f Hr Hh Hm. apply made_file in Hm as (k & Hk & Hf).
  eapply kept_mapped; eauto; [now apply Inv_reachable|now apply holds_kept in Hh].
Qed.
Print Assumptions C79_held_is_mapped.

(** A dictionary in use never meets ErrMMapIsClosed: its reader is open and the mapping there. *)
Theorem C79_dictionary : forall st t x f,
  reachable st -> holds st t x -> kind_of st x = Some (KDict f) ->
  exists o r, obj st x = Some o /\ o_refs o = [r] /\ kind_of st r = Some (KReader f true) /\ In f (mapped st).
Proof.
  intros st t x f Hr Hh Hk. eapply dict_open; eauto; [now apply Inv_reachable|now apply holds_kept in Hh].
Qed.
Print Assumptions C79_dictionary.

(** Fields other than the service's never change. *)
Lemma set_shape st x o' y o : obj st y = Some o ->
  (y = x -> o_refs o' = o_refs o /\ (o_kind o' = o_kind o \/ exists f b b', o_kind o = KReader f b /\ o_kind o' = KReader f b')) ->
  (x < length (heap st))%nat ->
  exists oy, obj (set_obj st x o') y = Some oy /\ o_refs oy = o_refs o /\
             (o_kind oy = o_kind o \/ exists f b b', o_kind o = KReader f b /\ o_kind oy = KReader f b').
Proof.
  intros Ho Hs Hl. rewrite obj_set by auto. destruct (Nat.eqb_spec y x).
  - destruct (Hs e) as [H1 H2]. exists o'. auto.
  - exists o. auto.
Qed.
Definition keeps (st st' : state) : Prop :=
  forall y o, obj st y = Some o -> o_kind o <> KService ->
  exists o', obj st' y = Some o' /\ o_refs o' = o_refs o /\
             (o_kind o' = o_kind o \/ exists f b b', o_kind o = KReader f b /\ o_kind o' = KReader f b').
Lemma keeps_refl st : keeps st st.
Proof. intros y o H _. exists o. auto. Qed.
Lemma keeps_heap st st' : heap st' = heap st -> keeps st st'.
Proof. intros E y o H _. exists o. unfold obj in *. rewrite E. auto. Qed.
Lemma keeps_alloc st os vs maps : keeps st (alloc st os vs maps).
Proof. intros y o H _. exists o. split; [now apply obj_alloc|auto]. Qed.
Lemma keeps_trans s1 s2 s3 : keeps s1 s2 -> keeps s2 s3 -> keeps s1 s3.
Proof.
  intros H1 H2 y o Ho Hk. destruct (H1 y o Ho Hk) as (o2 & Ho2 & R2 & K2).
  assert (Hk2 : o_kind o2 <> KService) by (destruct K2 as [K2|(f & b & b' & K2 & K2')]; congruence).
  destruct (H2 y o2 Ho2 Hk2) as (o3 & Ho3 & R3 & K3). exists o3. split; auto. split; [congruence|].
  destruct K2 as [K2|(f & b & b' & K2 & K2')], K3 as [K3|(g & c & c' & K3 & K3')].
  - left. congruence.
  - right. exists g, c, c'. split; congruence.
  - right. exists f, b, b'. split; congruence.
  - right. exists f, b, c'. split; congruence.
Qed.
Lemma keeps_close st r : keeps st (close_reader st r).
Proof.
  unfold close_reader. destruct (obj st r) as [[[g [|]| | | | | | | | |] rf fn]|] eqn:E; try apply keeps_refl.
  intros y o Ho _. apply (set_shape st r (mkObj (KReader g false) rf None) y o Ho).
  - intros ->. rewrite Ho in E. inversion E. cbn. split; auto. right. exists g, true, false. auto.
  - eapply obj_lt; eauto.
Qed.
Lemma keeps_step st e st' : step st e st' -> keeps st st'.
Proof.
  intros H. destruct H; try apply keeps_alloc; try apply keeps_refl; try (apply keeps_heap; reflexivity).
  - intros y o Ho Hk. rewrite obj_set by (eapply obj_lt; eauto). destruct (Nat.eqb_spec y s).
    + subst y. rewrite H1 in Ho. inversion Ho. subst o. cbn in Hk. congruence.
    + exists o. auto.
  - intros y o Ho Hk. rewrite obj_set by (eapply obj_lt; eauto). destruct (Nat.eqb_spec y s).
    + subst y. rewrite H0 in Ho. inversion Ho. subst o. cbn in Hk. congruence.
    + exists o. auto.
  - assert (K : keeps st (set_obj st x (mkObj (o_kind o) (o_refs o) None))).
    { intros y oy Ho _. apply set_shape; auto; [|eapply obj_lt; eauto].
      intros ->. rewrite H in Ho. inversion Ho. auto. }
    unfold run_final. destruct f; auto; eapply keeps_trans; eauto; apply keeps_close.
Qed.
Lemma leads_keeps st st' y x : Inv st -> keeps st st' -> leads st y x -> kind_of st y <> Some KService -> (y < length (heap st))%nat ->
  leads st' y x /\ kind_of st x <> Some KService.
Proof.
  intros I K H Hy Hl. induction H as [x Hx|x o z _ IH Ho Hz].
  - subst x. split; auto. apply r_here. reflexivity.
  - destruct IH as [IH1 IH2]. assert (Hk : o_kind o <> KService).
    { intros E. apply IH2. unfold kind_of, obj. rewrite Ho. cbn. congruence. }
    destruct (K x o Ho Hk) as (o' & Ho' & R & _). split.
    + eapply r_ref; [exact IH1|exact Ho'|]. now rewrite R.
    + eapply i_ord; eauto.
Qed.
Lemma made_keeps st st' x f : keeps st st' -> made_from st x f -> made_from st' x f.
Proof.
  intros K Hm.
  assert (G : forall k, k <> KService -> (forall g b, k <> KReader g b) -> kind_of st x = Some k -> kind_of st' x = Some k).
  { intros k H1 H2 H. apply kind_obj in H as (o & Ho & <-).
    destruct (K x o Ho H1) as (o' & Ho' & _ & [E|(g & b & b' & E & _)]); [|now apply H2 in E].
    now rewrite (obj_kind _ _ _ Ho'), E. }
  unfold made_from in *. destruct Hm as [H|[H|[H|H]]]; apply G in H; try discriminate; tauto.
Qed.
Lemma vars_step st e st' t y : step st e st' -> In (t, y) (vars st) -> e <> EDrop t y -> In (t, y) (vars st').
Proof.
  intros H Hv Hn. destruct H; cbn [vars alloc set_obj]; auto; try (apply in_or_app; right; exact Hv).
  - apply del1_other; auto. intros E. inversion E. subst. congruence.
  - rewrite collect_vars. exact Hv.
Qed.
Lemma faults_step st e st' : step st e st' ->
  faults st' = faults st \/ exists f, faults st' = f :: faults st /\ ~ In f (mapped st).
Proof.
  intros H. destruct H; auto.
  - right. exists f. auto.
  - left. unfold run_final.
    assert (Hc : forall s r, faults (close_reader s r) = faults s).
    { intros s r. unfold close_reader. destruct (obj s r) as [[[g [|]| | | | | | | | |] rf fn]|]; reflexivity. }
    destruct f; rewrite ?Hc; reflexivity.
Qed.
Lemma leads_holds st t y x : In (t, y) (vars st) -> leads st y x -> holds st t x.
Proof. intros Hv H. eapply reach_mono; [| |exact H]; [|eauto]. intros z ->. exact Hv. Qed.

(** Searches and scores: from any moment on, however long, whatever the other threads do (replace the
    index in the service, open and drop files) and whenever the collector runs: while thread t keeps a
    variable y that leads to the index or model x, no read by any thread of bytes of x's file faults.
    Service.Suggest is such a user: its workers keep the suggester to the end (suggester.go:71-110). *)
Theorem C79_no_fault : forall st1 es st2 t y x f,
  reachable st1 -> exec st1 es st2 ->
  In (t, y) (vars st1) -> kind_of st1 y <> Some KService -> leads st1 y x -> made_from st1 x f ->
  ~ In (EDrop t y) es ->
  exists fl, faults st2 = fl ++ faults st1 /\ ~ In f fl.
Proof.
  intros st1 es st2 t y x f Hr Hx. apply Inv_reachable in Hr.
  induction Hx as [st1|st1 e st es st2 Hs _ IH]; intros Hv Hk Hl Hm Hn.
  - exists []. auto.
  - pose proof (keeps_step _ _ _ Hs) as K.
    assert (Hlt : (y < length (heap st1))%nat) by (eapply i_vars; eauto).
    destruct (leads_keeps st1 st y x Hr K Hl Hk Hlt) as [Hl' _].
    destruct IH as (fl & E & Hf).
    + eapply Inv_step; eauto.
    + eapply vars_step; eauto. intros ->. apply Hn. left. reflexivity.
    + apply nth_error_Some in Hlt. fold (obj st1 y) in Hlt. destruct (obj st1 y) as [oy|] eqn:Ey; [|contradiction].
      rewrite (obj_kind _ _ _ Ey) in Hk. assert (Hk' : o_kind oy <> KService) by congruence.
      destruct (K y oy Ey Hk') as (o' & Ho' & _ & [Eq|(g & b & b' & _ & Eq)]); rewrite (obj_kind _ _ _ Ho'), Eq; congruence.
    + exact Hl'.
    + eapply made_keeps; eauto.
    + intros H. apply Hn. right. exact H.
    + destruct (faults_step _ _ _ Hs) as [E'|(g & E' & Hg)].
      * exists fl. rewrite E, E'. auto.
      * exists (fl ++ [g]). rewrite E, E', <- app_assoc. split; auto.
        intros H. apply in_app_iff in H as [H|[<- |[]]]; auto. apply Hg.
        apply made_file in Hm as (k & Km & Fm). eapply kept_mapped; eauto.
        eapply holds_kept, leads_holds; eauto.
Qed.
Print Assumptions C79_no_fault.

(** Every mapping is unmapped at most once, and is either mapped or was unmapped. *)
Theorem C79_unmapped_once : forall st,
  reachable st ->
  NoDup (unmaps st) /\
  (forall f, In f (mapped st) \/ In f (unmaps st) <-> (f < next_map st)%nat) /\
  (forall f, In f (mapped st) -> ~ In f (unmaps st)).
Proof.
  intros st Hr. apply Inv_reachable in Hr as I. split; [apply i_once; auto|]. split.
  - intros f. rewrite (i_maps _ I), (i_unm _ I), (i_next _ I). split.
    + intros [(r & H)|(r & H)]; eauto.
    + intros (r & [|] & H); eauto.
  - intros f H1 H2. apply (i_maps _ I) in H1 as (r & H1). apply (i_unm _ I) in H2 as (r' & H2).
    pose proof (i_inj _ I _ _ _ _ _ H1 H2). subst r'. congruence.
Qed.
Print Assumptions C79_unmapped_once.

(** Nothing leaks: once no variable is left, collections can unmap everything; and whatever
    collections have run, as long as a mapping exists another collection is possible. *)
Theorem C79_released : forall st,
  reachable st -> vars st = [] ->
  (exists xs st', exec st (map ECollect xs) st' /\ mapped st' = []) /\
  ((forall x st', ~ step st (ECollect x) st') -> mapped st = []).
Proof.
  intros st Hr Hv. apply Inv_reachable in Hr as I. split.
  - destruct (release st I Hv) as (xs & st' & H1 & H2 & _). eauto.
  - intros Hn. destruct (mapped st) as [|f l] eqn:E; auto. exfalso.
    destruct (can_collect st I Hv) as (x & o & f' & H1 & H2 & H3); [congruence|].
    eapply Hn. econstructor; eauto.
Qed.
Print Assumptions C79_released.

(** ** Running histories *)
Definition refs_at (h : list object) (x : nat) : list nat := match nth_error h x with Some o => o_refs o | None => [] end.
Definition marks (st : state) : list nat :=
  map snd (vars st) ++ flat_map (fun o => match o_fin o with Some f => o_refs o ++ captured f | None => [] end) (heap st).
Definition mem (x : nat) (l : list nat) : bool := existsb (Nat.eqb x) l.
Fixpoint close_over (n : nat) (h : list object) (S : list nat) : list nat :=
  match n with O => S | S n' => close_over n' h (nodup Nat.eq_dec (S ++ flat_map (refs_at h) S)) end.
Definition not_kept (st : state) (x : nat) : bool :=
  let S := close_over (length (heap st)) (heap st) (marks st) in
  forallb (fun y => mem y S) (marks st) &&
  forallb (fun y => forallb (fun z => mem z S) (refs_at (heap st) y)) S && negb (mem x S).
Lemma mem_in x l : mem x l = true <-> In x l.
Proof.
  unfold mem. rewrite existsb_exists. split.
  - intros (y & H & E). apply Nat.eqb_eq in E. congruence.
  - intros H. exists x. split; auto. apply Nat.eqb_refl.
Qed.
Lemma not_kept_ok st x : not_kept st x = true -> ~ kept st x.
Proof.
  unfold not_kept. set (S := close_over _ _ _). clearbody S. rewrite !Bool.andb_true_iff, !forallb_forall, Bool.negb_true_iff.
  intros [[H1 H2] H3] Hk.
  assert (G : forall y, kept st y -> In y S).
  { intros y H. induction H as [y Hy|y o z _ IH Ho Hz].
    - apply mem_in, H1. unfold marks. apply in_or_app. destruct Hy as [(t & Hy)|(z & o & f & Ho & Hf & Hi)].
      + left. apply in_map_iff. exists (t, y). auto.
      + right. apply in_flat_map. exists o. split; [eapply nth_error_In; exact Ho|]. rewrite Hf. apply in_or_app. tauto.
    - specialize (H2 y IH). rewrite forallb_forall in H2. apply mem_in, H2. unfold refs_at. now rewrite Ho. }
  apply G in Hk. apply mem_in in Hk. congruence.
Qed.
Definition has_var (st : state) (t x : nat) : bool := existsb (fun v => Nat.eqb (fst v) t && Nat.eqb (snd v) x)%bool (vars st).
Lemma has_var_ok st t x : has_var st t x = true -> In (t, x) (vars st).
Proof.
  unfold has_var. rewrite existsb_exists. intros ([a b] & H & E). cbn in E.
  apply Bool.andb_true_iff in E. rewrite !Nat.eqb_eq in E. destruct E. subst. exact H.
Qed.
Definition serviceb (st : state) (x : nat) : bool := match kind_of st x with Some KService => true | _ => false end.
Definition run1 (st : state) (e : event) : option state :=
  let h := length (heap st) in
  match e with
  | EOpenInput t => Some (alloc st [NewMMapReader (next_map st); OpenInput (next_map st) h] [(t, h + 1)%nat] [next_map st])
  | EReadIndex t k => Some (alloc st (Read_objects h (next_map st) k) [(t, h + 4 + k)%nat] [next_map st + 1; next_map st]%nat)
  | EOpenDict t => Some (alloc st (OpenCDB_objects h (next_map st)) [(t, h + 1)%nat] [next_map st])
  | ELoadLM t k => Some (alloc st (RetrieveLM_objects h (next_map st) k) [(t, h + 5 + k)%nat] [next_map st + 1; next_map st]%nat)
  | ENewService t => Some (alloc st [mkObj KService [] None] [(t, h)] [])
  | EStruct t xs => if forallb (fun x => has_var st t x && negb (serviceb st x))%bool xs
                    then Some (alloc st [mkObj KStruct xs None] [(t, h)] []) else None
  | ELoad t x y => if has_var st t x && mem y (refs_at (heap st) x) then Some (alloc st [] [(t, y)] []) else None
  | EGive t u x => if has_var st t x then Some (alloc st [] [(u, x)] []) else None
  | EDrop t x => if has_var st t x then Some (mkState (heap st) (del1 (t, x) (vars st)) (mapped st) (unmaps st) (next_map st) (faults st)) else None
  | ESlice t x => match kind_of st x with
                  | Some k => match view_of k with
                              | Some f => if has_var st t x then Some (alloc st [mkObj (KView f) [] None] [(t, h)] []) else None
                              | None => None end
                  | None => None end
  | ERead t x => match kind_of st x with
                 | Some k => match view_of k with
                             | Some f => if has_var st t x
                                         then if mem f (mapped st) then Some st
                                              else Some (mkState (heap st) (vars st) (mapped st) (unmaps st) (next_map st) (f :: faults st))
                                         else None
                             | None => None end
                 | None => None end
  | EClose t x => match kind_of st x with Some (KInput _) => if has_var st t x then Some st else None | _ => None end
  | EPut t s x => match obj st s with
                  | Some (mkObj KService refs None) =>
                      if (has_var st t s && has_var st t x)%bool then Some (set_obj st s (mkObj KService (x :: refs) None)) else None
                  | _ => None end
  | ERemove t s x => match obj st s with
                  | Some (mkObj KService refs None) =>
                      if has_var st t s then Some (set_obj st s (mkObj KService (del x refs) None)) else None
                  | _ => None end
  | ECollect x => match obj st x with
                  | Some o => match o_fin o with
                              | Some f => if not_kept st x then Some (run_final st x o f) else None
                              | None => None end
                  | None => None end
  end.
Lemma run1_ok st e st' : run1 st e = Some st' -> step st e st'.
Proof.
  intros H. destruct e; cbn in H.
  - injection H as <-. constructor.
  - injection H as <-. constructor.
  - injection H as <-. constructor.
  - injection H as <-. constructor.
  - injection H as <-. constructor.
  - destruct (forallb _ _) eqn:E; [|discriminate]. injection H as <-. constructor.
    rewrite forallb_forall in E. intros x Hx. specialize (E x Hx). apply Bool.andb_true_iff in E as [E1 E2].
    split; [now apply has_var_ok|]. unfold serviceb in E2. intros Hk. rewrite Hk in E2. discriminate.
  - destruct (has_var st t x) eqn:E; [|discriminate]. destruct (mem y _) eqn:E2; [|discriminate]. cbn in H. injection H as <-.
    apply has_var_ok in E. apply mem_in in E2. unfold refs_at in E2. destruct (nth_error (heap st) x) as [o|] eqn:Eo; [|destruct E2].
    econstructor; eauto.
  - destruct (has_var st t x) eqn:E; [|discriminate]. injection H as <-. constructor. now apply has_var_ok.
  - destruct (has_var st t x) eqn:E; [|discriminate]. injection H as <-. constructor. now apply has_var_ok.
  - destruct (kind_of st x) as [k|] eqn:Ek; [|discriminate]. destruct (view_of k) as [f|] eqn:Ef; [|discriminate].
    destruct (has_var st t x) eqn:E; [|discriminate]. injection H as <-. econstructor; eauto. now apply has_var_ok.
  - destruct (kind_of st x) as [k|] eqn:Ek; [|discriminate]. destruct (view_of k) as [f|] eqn:Ef; [|discriminate].
    destruct (has_var st t x) eqn:E; [|discriminate]. apply has_var_ok in E.
    destruct (mem f (mapped st)) eqn:Em; injection H as <-.
    + eapply s_read; eauto. now apply mem_in.
    + eapply s_fault; eauto. intros Hi. apply mem_in in Hi. congruence.
  - destruct (kind_of st x) as [[]|] eqn:Ek; try discriminate.
    destruct (has_var st t x) eqn:E; [|discriminate]. injection H as <-. econstructor; eauto. now apply has_var_ok.
  - destruct (obj st s) as [[[] refs [|]]|] eqn:Eo; try discriminate.
    destruct (has_var st t s) eqn:E1; [|discriminate]. destruct (has_var st t x) eqn:E2; [|discriminate].
    injection H as <-. econstructor; eauto using has_var_ok.
  - destruct (obj st s) as [[[] refs [|]]|] eqn:Eo; try discriminate.
    destruct (has_var st t s) eqn:E1; [|discriminate]. injection H as <-. econstructor; eauto using has_var_ok.
  - destruct (obj st x) as [o|] eqn:Eo; [|discriminate]. destruct (o_fin o) as [f|] eqn:Ef; [|discriminate].
    destruct (not_kept st x) eqn:Ek; [|discriminate]. injection H as <-. econstructor; eauto. now apply not_kept_ok.
Qed.
Fixpoint run (st : state) (es : list event) : option state :=
  match es with [] => Some st | e :: es => match run1 st e with Some st' => run st' es | None => None end end.
Lemma run_ok es : forall st st', run st es = Some st' -> exec st es st'.
Proof.
  induction es as [|e es IH]; cbn; intros st st' H.
  - injection H as <-. constructor.
  - destruct (run1 st e) as [s|] eqn:E; [|discriminate]. apply (x_step _ _ s); [now apply run1_ok|auto].
Qed.
Definition outcome (es : list event) : option (list nat * list nat) :=
  option_map (fun st => (mapped st, faults st)) (run start es).
Lemma outcome_ok es m f : outcome es = Some (m, f) -> exists st, exec start es st /\ mapped st = m /\ faults st = f.
Proof.
  unfold outcome. destruct (run start es) as [st|] eqn:E; [|discriminate]. cbn. intros H. inversion H.
  exists st. split; auto. now apply run_ok.
Qed.

(** ** Holding only a part is not enough *)
(** A posting list's bytes (Input.Slice, inverted_index.go:64): index opened, a part of it asked for a
    posting list, nothing else used any more; two collections, and the bytes are gone. *)
Definition only_postings : list event :=
  [EReadIndex 0 1; ELoad 0 5 4; EDrop 0 5; ELoad 0 4 3; EDrop 0 4; ESlice 0 3; EDrop 0 3;
   ERead 0 6; ECollect 5; ECollect 3; ERead 0 6]%nat.
(** What lm.Next returned (ngram_model.go:94-98): the model itself is no longer used. *)
Definition only_next : list event :=
  [ELoadLM 0 2; ELoad 0 7 6; ELoad 0 6 5; EDrop 0 7; EDrop 0 6; ESlice 0 5; EDrop 0 5; EStruct 0 [8]; ERead 0 8;
   ECollect 7; ECollect 3; ERead 0 8]%nat.
Theorem C79_parts_refuted :
  (exists st, exec start only_postings st /\ faults st = [1]%nat) /\
  (exists st, exec start only_next st /\ faults st = [1]%nat).
Proof.
  split.
  - destruct (outcome_ok only_postings [0]%nat [1]%nat) as (st & H1 & H2 & H3); [vm_compute; reflexivity|eauto].
  - destruct (outcome_ok only_next [0]%nat [1]%nat) as (st & H1 & H2 & H3); [vm_compute; reflexivity|eauto].
Qed.
Print Assumptions C79_parts_refuted.

(** ** Reindexing under a running Autocomplete *)
(** service.go:142-155, autocomplete.go:40-58, searcher.go:28-60: thread t loads the autocomplete out of
    the service, the indices, one part, the posting list, and while the lists are merged reads only the
    latter: no earlier variable is used again after the last call it is needed for. *)
Definition autocomplete_request (t svc auto idx part input postings : nat) : list event :=
  [ELoad t svc auto; EDrop t svc; ELoad t auto idx; EDrop t auto; ELoad t idx part; EDrop t idx;
   ELoad t part input; ESlice t input; EDrop t input; EDrop t part; ERead t postings].
(** service.go:78-91 *)
Definition replace_index (t svc old : nat) (h : nat) : list event :=
  [EReadIndex t 1; EStruct t [h + 5]; EDrop t (h + 5); EPut t svc (h + 6); ERemove t svc old; EDrop t (h + 6)]%nat.
Definition reindex_during_autocomplete : list event :=
  [ENewService 0; EReadIndex 0 1; EStruct 0 [6]; EDrop 0 6; EPut 0 0 7; EDrop 0 7; EGive 0 1 0]%nat ++
  autocomplete_request 1 0 7 6 5 4 8 ++
  replace_index 0 0 7 9 ++ [ECollect 6; ECollect 4; ERead 1 8]%nat.
(** The request, still merging, reads memory that is no longer mapped. *)
Theorem C79_autocomplete_reindex_refuted :
  exists st, exec start reindex_during_autocomplete st /\ faults st = [1]%nat.
Proof.
  destruct (outcome_ok reindex_during_autocomplete [3; 2; 0]%nat [1]%nat) as (st & H1 & H2 & H3); [vm_compute; reflexivity|eauto].
Qed.
Print Assumptions C79_autocomplete_reindex_refuted.

(** Without the replacement the same request is fine (the service leads to the index). *)
Example C79_nonvacuous_autocomplete :
  exists st, exec start ([ENewService 0; EReadIndex 0 1; EStruct 0 [6]; EDrop 0 6; EPut 0 0 7; EDrop 0 7; EGive 0 1 0]%nat ++
                         autocomplete_request 1 0 7 6 5 4 8) st /\ faults st = [] /\ mapped st = [1; 0]%nat.
Proof.
  destruct (outcome_ok ([ENewService 0; EReadIndex 0 1; EStruct 0 [6]; EDrop 0 6; EPut 0 0 7; EDrop 0 7; EGive 0 1 0]%nat ++
                         autocomplete_request 1 0 7 6 5 4 8) [1; 0]%nat []) as (st & H1 & H2 & H3); [vm_compute; reflexivity|eauto].
Qed.
(** A history for the theorems above: an index in use, its replacement, collections that unmap the
    header's file and the old index. *)
Example C79_nonvacuous_release :
  exists st, exec start ([ENewService 0; EReadIndex 0 1; EStruct 0 [6]; EDrop 0 6; EPut 0 0 7; EDrop 0 7]%nat ++
                         replace_index 0 0 7 8 ++ [ECollect 6; ECollect 4; ECollect 2; EDrop 0 0]%nat) st /\
             faults st = [] /\ mapped st = [3; 2]%nat /\ vars st = [].
Proof.
  set (es := _ ++ _).
  assert (E : option_map (fun st => (mapped st, faults st, vars st)) (run start es) = Some ([3; 2]%nat, [], [])) by (vm_compute; reflexivity).
  destruct (run start es) as [st|] eqn:R; [|discriminate]. cbn in E. inversion E. exists st. apply run_ok in R. auto.
Qed.
Example C79_nonvacuous_no_fault :
  exists st1 es st2, reachable st1 /\ exec st1 es st2 /\ In (0, 6)%nat (vars st1) /\ kind_of st1 6 <> Some KService /\
    leads st1 6 5 /\ made_from st1 5 1 /\ ~ In (EDrop 0 6)%nat es /\ (length es = 3)%nat.
Proof.
  set (es1 := [EReadIndex 0 1; EStruct 0 [5]; EDrop 0 5]%nat).
  destruct (run start es1) as [st1|] eqn:R1; [|vm_compute in R1; discriminate].
  set (es2 := [EReadIndex 0 0; ECollect 1; EDrop 0 11]%nat).
  assert (R2 : match run start es1 with Some s => match run s es2 with Some _ => true | None => false end | None => false end = true) by (vm_compute; reflexivity).
  rewrite R1 in R2. destruct (run st1 es2) as [st2|] eqn:R2'; [|discriminate].
  exists st1, es2, st2. split; [exists es1; now apply run_ok|]. split; [now apply run_ok|].
  vm_compute in R1. injection R1 as <-. repeat split.
  - cbn. auto.
  - cbn. discriminate.
  - eapply r_ref; [apply r_here; reflexivity|reflexivity|cbn; auto].
  - right. right. left. reflexivity.
  - intros [H|[H|[H|[]]]]; discriminate.
Qed.

(** ** C80: utils.MMapReader *)
(** Closing twice, reading and asking for the bytes after closing are errors; nothing is unmapped twice. *)
Theorem C80_closed : forall r err unm r',
  MClose r = (err, unm, r') ->
  r' = None /\ (unm = true <-> r <> None) /\ (err = None <-> r <> None) /\
  MClose r' = (Some MMapIsClosed, false, None) /\
  MBytes r' = ([], Some MMapIsClosed) /\
  forall n off, MReadAt r' n off = ([], Some MMapIsClosed).
Proof.
  intros [d|] err unm r' H; inversion H; subst; repeat split; auto; try discriminate; try congruence.
Qed.
Print Assumptions C80_closed.

(** ReadAt of an open reader: the bytes from off on, as many as asked for or as there are, with io.EOF
    exactly if there are fewer; an offset behind the end (but not at the end) or before the start is an error. *)
Theorem C80_read_at : forall data n off,
  MReadAt (Some data) n off =
    if ((off <? 0) || (Z.of_nat (length data) <? off))%Z then ([], Some MMapInvalidOffset)
    else (firstn n (skipn (Z.to_nat off) data),
          if (Z.of_nat (length data) - off <? Z.of_nat n)%Z then Some MEOF else None).
Proof.
  intros data n off. unfold MReadAt, zlen. destruct (_ || _)%bool eqn:E; auto. f_equal.
  apply Bool.orb_false_iff in E as [E1 E2]. apply Z.ltb_ge in E1, E2.
  rewrite firstn_length, skipn_length.
  destruct (Nat.ltb_spec (Nat.min n (length data - Z.to_nat off)) n), (Z.ltb_spec (Z.of_nat (length data) - off) (Z.of_nat n)); auto; lia.
Qed.
Print Assumptions C80_read_at.
Example C80_nonvacuous :
  MReadAt (Some [1; 2; 3]%Z) 2 1 = ([2; 3]%Z, None) /\ MReadAt (Some [1; 2; 3]%Z) 2 3 = ([], Some MEOF) /\
  MReadAt (Some [1; 2; 3]%Z) 0 4 = ([], Some MMapInvalidOffset).
Proof. repeat split. Qed.
