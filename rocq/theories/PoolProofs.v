(** Ownership: a program that only touches what it holds cannot be disturbed. *)
From Verif Require Import Base BaseLemmas GoMap Store Postings Merger Index Pool.
Local Open Scope Z_scope.

Definition mem := addr -> option cell.
Definition del (m : mem) (a : addr) : mem := fun b => if (b =? a)%nat then None else m b.

(* what may lie in a pool *)
Definition fits (q : pool) (c : cell) : Prop :=
  match q, c with
  | PVb, CVb _ => True
  | PSk, CSk s => sk_gap s = skippingGapSize
  | PBit, CBit _ _ => True
  | PBuf, CBuf _ => True
  | _, _ => False
  end.
Lemma fits_one : forall p q c, fits p c -> fits q c -> p = q.
Proof. intros [] [] [] H1 H2; cbn in *; try contradiction; reflexivity. Qed.
Lemma fits_fresh : forall q, fits q (fresh q).
Proof. intros []; cbn; auto. Qed.

(* [wp m p Q]: run alone with the objects in [m], whatever the pools hand out, [p]
   touches only objects it holds, puts back only what fits, and ends in [Q] *)
Fixpoint wp {A} (m : mem) (p : prog A) (Q : A -> mem -> Prop) : Prop :=
  match p with
  | Done a => Q a m
  | Get q k => forall a c, m a = None -> fits q c -> wp (heap_set m a c) (k a) Q
  | Put q a k => exists c, m a = Some c /\ fits q c /\ wp (del m a) k Q
  | Load a k => exists c, m a = Some c /\ wp m (k c) Q
  | Save a c k => (exists c0, m a = Some c0) /\ wp (heap_set m a c) k Q
  | New c k => forall a, m a = None -> wp (heap_set m a c) (k a) Q
  end.

Lemma wp_mono {A} : forall (p : prog A) m (Q Q' : A -> mem -> Prop),
  (forall a m', Q a m' -> Q' a m') -> wp m p Q -> wp m p Q'.
Proof.
  induction p as [a|q k IH|q a k IH|a k IH|a c k IH|c k IH]; intros m Q Q' HQ H; cbn in *.
  - now apply HQ.
  - intros a c Hn Hf. exact (IH a _ _ _ HQ (H a c Hn Hf)).
  - destruct H as (c & H1 & H2 & H3). exists c. split; [exact H1|]. split; [exact H2|].
    exact (IH _ _ _ HQ H3).
  - destruct H as (c & H1 & H2). exists c. split; [exact H1|]. exact (IH c _ _ _ HQ H2).
  - destruct H as (H1 & H2). split; [exact H1|]. exact (IH _ _ _ HQ H2).
  - intros a Hn. exact (IH a _ _ _ HQ (H a Hn)).
Qed.
Lemma wp_bind {A B} : forall (p : prog A) (f : A -> prog B) m Q,
  wp m p (fun a m' => wp m' (f a) Q) -> wp m (pbind p f) Q.
Proof.
  induction p as [a|q k IH|q a k IH|a k IH|a c k IH|c k IH]; intros f m Q H; cbn in *.
  - exact H.
  - intros a c Hn Hf. exact (IH a _ _ _ (H a c Hn Hf)).
  - destruct H as (c & H1 & H2 & H3). exists c. split; [exact H1|]. split; [exact H2|].
    exact (IH _ _ _ H3).
  - destruct H as (c & H1 & H2). exists c. split; [exact H1|]. exact (IH c _ _ _ H2).
  - destruct H as (H1 & H2). split; [exact H1|]. exact (IH _ _ _ H2).
  - intros a Hn. exact (IH a _ _ _ (H a Hn)).
Qed.

(** ** The invariant of the shared memory *)
Record inv {A} (Qs : list (A -> mem -> Prop)) (w : world A) (own : list mem) : Prop := {
  i_len : length own = length (w_run w);
  i_lenQ : length Qs = length (w_run w);
  i_wp : forall i p m Q, nth_error (w_run w) i = Some p -> nth_error own i = Some m ->
           nth_error Qs i = Some Q -> wp m p Q;
  i_heap : forall i m a c, nth_error own i = Some m -> m a = Some c -> w_heap w a = Some c;
  i_apart : forall i j mi mj a, nth_error own i = Some mi -> nth_error own j = Some mj ->
           i <> j -> mi a <> None -> mj a = None;
  i_free : forall q a, In a (w_free w q) -> exists c, w_heap w a = Some c /\ fits q c;
  i_unheld : forall q a i m, In a (w_free w q) -> nth_error own i = Some m -> m a = None;
  i_once : forall q, NoDup (w_free w q) }.

Lemma nth_mid {X} : forall (l1 : list X) x l2 i,
  nth_error (l1 ++ x :: l2) i =
  if (i =? length l1)%nat then Some x else nth_error (l1 ++ x :: l2) i.
Proof.
  intros l1 x l2 i. destruct (Nat.eqb_spec i (length l1)) as [-> |]; [|reflexivity].
  rewrite nth_error_app2 by lia. now rewrite Nat.sub_diag.
Qed.
Lemma nth_change {X} : forall (l1 : list X) x y l2 i, i <> length l1 ->
  nth_error (l1 ++ x :: l2) i = nth_error (l1 ++ y :: l2) i.
Proof.
  intros l1 x y l2 i Hi. destruct (lt_dec i (length l1)) as [H|H].
  - now rewrite !nth_error_app1 by lia.
  - rewrite !nth_error_app2 by lia.
    destruct (i - length l1)%nat eqn:E; [lia|reflexivity].
Qed.
Lemma nth_at {X} : forall (l1 : list X) x l2, nth_error (l1 ++ x :: l2) (length l1) = Some x.
Proof. intros. rewrite nth_error_app2 by lia. now rewrite Nat.sub_diag. Qed.

Lemma own_split {X} : forall (own : list X) n, (n < length own)%nat ->
  exists o1 m o2, own = o1 ++ m :: o2 /\ length o1 = n.
Proof.
  intros own n H. destruct (nth_error own n) as [m|] eqn:E.
  - apply nth_error_split in E. destruct E as (o1 & o2 & -> & Hl). now exists o1, m, o2.
  - apply nth_error_None in E. lia.
Qed.

Lemma pool_eqb_ok : forall p q, pool_eqb p q = true <-> p = q.
Proof. intros [] []; cbn; split; congruence. Qed.
Lemma free_set_same : forall f q l, free_set f q l q = l.
Proof. intros. unfold free_set. now replace (pool_eqb q q) with true by (destruct q; reflexivity). Qed.
Lemma free_set_other : forall f q l p, p <> q -> free_set f q l p = f p.
Proof.
  intros f q l p H. unfold free_set. destruct (pool_eqb p q) eqn:E; [|reflexivity].
  apply pool_eqb_ok in E. contradiction.
Qed.
Lemma heap_set_same : forall h a c, heap_set h a c a = Some c.
Proof. intros. unfold heap_set. now rewrite Nat.eqb_refl. Qed.
Lemma heap_set_other : forall h a c b, b <> a -> heap_set h a c b = h b.
Proof. intros h a c b H. unfold heap_set. destruct (Nat.eqb_spec b a); [contradiction|reflexivity]. Qed.
Lemma del_same : forall m a, del m a a = None.
Proof. intros. unfold del. now rewrite Nat.eqb_refl. Qed.
Lemma del_other : forall m a b, b <> a -> del m a b = m b.
Proof. intros m a b H. unfold del. destruct (Nat.eqb_spec b a); [contradiction|reflexivity]. Qed.

(* the goroutine at place [length before] moves from [p], holding [m], to [p'],
   holding [m'] *)
Section Move.
Context {A : Type} (Qs : list (A -> mem -> Prop)).
Context (h h' : addr -> option cell) (f f' : pool -> list addr).
Context (before after : list (prog A)) (p p' : prog A) (o1 o2 : list mem) (m m' : mem).
Hypothesis Hlen : length o1 = length before.
Hypothesis I : inv Qs (mkWorld h f (before ++ p :: after)) (o1 ++ m :: o2).
Hypothesis Hwp : forall Q, wp m p Q -> wp m' p' Q.
Hypothesis Hheap : forall a c, m' a = Some c -> h' a = Some c.
Hypothesis Hothers : forall j mj a c, j <> length o1 -> nth_error (o1 ++ m :: o2) j = Some mj ->
  mj a = Some c -> h' a = Some c.
Hypothesis Happart : forall j mj a, j <> length o1 -> nth_error (o1 ++ m :: o2) j = Some mj ->
  m' a <> None -> mj a = None.
Hypothesis Hfree : forall q a, In a (f' q) -> exists c, h' a = Some c /\ fits q c.
Hypothesis Hun : forall q a, In a (f' q) -> m' a = None.
Hypothesis Hunj : forall q a j mj, j <> length o1 -> nth_error (o1 ++ m :: o2) j = Some mj ->
  In a (f' q) -> mj a = None.
Hypothesis Honce : forall q, NoDup (f' q).
Lemma inv_move : inv Qs (mkWorld h' f' (before ++ p' :: after)) (o1 ++ m' :: o2).
Proof.
  destruct I as [L LQ W Hp Ap Fr Un On]. cbn in *. constructor; cbn.
  - rewrite !app_length in *. exact L.
  - rewrite !app_length in *. exact LQ.
  - intros i q n Q Hq Hn HQ. destruct (Nat.eq_dec i (length before)) as [-> |Hi].
    + rewrite nth_at in Hq. injection Hq as <-. rewrite <- Hlen, nth_at in Hn. injection Hn as <-.
      apply Hwp. apply (W (length before)); [apply nth_at| |exact HQ]. rewrite <- Hlen. apply nth_at.
    + rewrite (nth_change before p' p after i Hi) in Hq.
      rewrite (nth_change o1 m' m o2 i) in Hn by (rewrite Hlen; exact Hi). exact (W i q n Q Hq Hn HQ).
  - intros i n a c Hn Hc. destruct (Nat.eq_dec i (length o1)) as [-> |Hi].
    + rewrite nth_at in Hn. injection Hn as <-. now apply Hheap.
    + rewrite (nth_change o1 m' m o2 i Hi) in Hn. exact (Hothers i n a c Hi Hn Hc).
  - intros i j mi mj a Hi Hj Hne Ha.
    destruct (Nat.eq_dec i (length o1)) as [-> |Hi'].
    + rewrite nth_at in Hi. injection Hi as <-.
      assert (Hj' : j <> length o1) by congruence.
      rewrite (nth_change o1 m' m o2 j Hj') in Hj. exact (Happart j mj a Hj' Hj Ha).
    + rewrite (nth_change o1 m' m o2 i Hi') in Hi.
      destruct (Nat.eq_dec j (length o1)) as [-> |Hj'].
      * rewrite nth_at in Hj. injection Hj as <-.
        destruct (m' a) as [c|] eqn:E; [|reflexivity].
        exfalso. apply Ha. apply (Happart i mi a Hi' Hi). congruence.
      * rewrite (nth_change o1 m' m o2 j Hj') in Hj. exact (Ap i j mi mj a Hi Hj Hne Ha).
  - exact Hfree.
  - intros q a i n Hin Hn. destruct (Nat.eq_dec i (length o1)) as [-> |Hi].
    + rewrite nth_at in Hn. injection Hn as <-. exact (Hun q a Hin).
    + rewrite (nth_change o1 m' m o2 i Hi) in Hn. exact (Hunj q a i n Hi Hn Hin).
  - exact Honce.
Qed.
End Move.

Lemma in_drop {X} : forall (l1 : list X) a l2 b, In b (l1 ++ l2) -> In b (l1 ++ a :: l2).
Proof. intros l1 a l2 b H. apply in_app_or in H. apply in_or_app. cbn. tauto. Qed.

Lemma inv_command {A} : forall Qs h f (p : prog A) h' f' p' before after own,
  command h f p h' f' p' ->
  inv Qs (mkWorld h f (before ++ p :: after)) own ->
  exists own', inv Qs (mkWorld h' f' (before ++ p' :: after)) own'.
Proof.
  intros Qs h f p h' f' p' before after own C I.
  destruct (own_split own (length before)) as (o1 & m & o2 & -> & Hl).
  { rewrite (i_len _ _ _ I). cbn. rewrite app_length. cbn. lia. }
  assert (HW : exists Q, nth_error Qs (length before) = Some Q /\ wp m p Q).
  { destruct (nth_error Qs (length before)) as [Q|] eqn:E.
    - exists Q. split; [reflexivity|]. apply (i_wp _ _ _ I (length before)); cbn; [apply nth_at| |exact E].
      rewrite <- Hl. apply nth_at.
    - apply nth_error_None in E. pose proof (i_lenQ _ _ _ I) as H. cbn in H.
      rewrite app_length in H. cbn in H. lia. }
  destruct HW as (Q0 & _ & HW).
  assert (Hm : forall a c, m a = Some c -> h a = Some c).
  { intros a c. apply (i_heap _ _ _ I (length o1)). apply nth_at. }
  assert (Ho : forall j mj a c, nth_error (o1 ++ m :: o2) j = Some mj -> mj a = Some c -> h a = Some c).
  { intros j mj a c. exact (i_heap _ _ _ I j mj a c). }
  assert (Hap : forall j mj a, j <> length o1 -> nth_error (o1 ++ m :: o2) j = Some mj ->
            m a <> None -> mj a = None).
  { intros j mj a Hj Hn Ha. refine (i_apart _ _ _ I (length o1) j m mj a _ Hn _ Ha).
    - apply nth_at. - congruence. }
  assert (Hun0 : forall q a j mj, In a (f q) -> nth_error (o1 ++ m :: o2) j = Some mj -> mj a = None).
  { intros q a j mj Hin Hn. exact (i_unheld _ _ _ I q a j mj Hin Hn). }
  destruct C as [h f q k l1 a l2 Ef | h f q k a Ha | h f q a k | h f a k c Ha | h f a c c0 k Ha | h f c k a Ha].
  - (* reuse *)
    assert (Hin : In a (f q)) by (rewrite Ef; apply in_or_app; cbn; tauto).
    destruct (i_free _ _ _ I q a Hin) as (c & Hc & Hf). cbn in Hc.
    assert (Hma : m a = None) by (apply (Hun0 q a (length o1)); [exact Hin|apply nth_at]).
    exists (o1 ++ heap_set m a c :: o2).
    assert (Hd : forall p b, In b (free_set f q (l1 ++ l2) p) -> In b (f p) /\ b <> a).
    { intros p b Hb. destruct (pool_eqb p q) eqn:E.
      - apply pool_eqb_ok in E. subst p. rewrite free_set_same in Hb. split.
        + rewrite Ef. now apply in_drop.
        + intros ->. pose proof (i_once _ _ _ I q) as N. cbn in N. rewrite Ef in N.
          apply NoDup_remove_2 in N. contradiction.
      - assert (Hpq : p <> q) by (intros ->; destruct q; discriminate).
        rewrite free_set_other in Hb by exact Hpq. split; [exact Hb|].
        intros ->. destruct (i_free _ _ _ I p a Hb) as (c' & Hc' & Hf'). cbn in Hc'.
        rewrite Hc in Hc'. injection Hc' as <-. apply Hpq. exact (fits_one _ _ _ Hf' Hf). }
    eapply inv_move; [exact Hl|exact I|..].
    + intros Q H. cbn in H. exact (H a c Hma Hf).
    + intros b c' Hb. destruct (Nat.eq_dec b a) as [-> |Hne].
      * rewrite heap_set_same in Hb. congruence.
      * rewrite heap_set_other in Hb by exact Hne. now apply Hm.
    + intros j mj b c' _ Hn Hb. exact (Ho j mj b c' Hn Hb).
    + intros j mj b Hj Hn Hb. destruct (Nat.eq_dec b a) as [-> |Hne].
      * exact (Hun0 q a j mj Hin Hn).
      * rewrite heap_set_other in Hb by exact Hne. exact (Hap j mj b Hj Hn Hb).
    + intros p b Hb. apply Hd in Hb. exact (i_free _ _ _ I p b (proj1 Hb)).
    + intros p b Hb. apply Hd in Hb. rewrite heap_set_other by tauto.
      apply (Hun0 p b (length o1)); [tauto|apply nth_at].
    + intros p b j mj Hj Hn Hb. apply Hd in Hb. exact (Hun0 p b j mj (proj1 Hb) Hn).
    + intros p. destruct (pool_eqb p q) eqn:E.
      * apply pool_eqb_ok in E. subst p. rewrite free_set_same.
        pose proof (i_once _ _ _ I q) as N. cbn in N. rewrite Ef in N. now apply NoDup_remove_1 in N.
      * assert (Hpq : p <> q) by (intros ->; destruct q; discriminate).
        rewrite free_set_other by exact Hpq. exact (i_once _ _ _ I p).
  - (* a fresh object *)
    assert (Hma : m a = None) by (destruct (m a) eqn:E; [apply Hm in E; congruence|reflexivity]).
    assert (Hja : forall j mj, nth_error (o1 ++ m :: o2) j = Some mj -> mj a = None).
    { intros j mj Hn. destruct (mj a) eqn:E; [apply (Ho j mj) in E; [congruence|exact Hn]|reflexivity]. }
    assert (Hfa : forall p, ~ In a (f p)).
    { intros p Hin. destruct (i_free _ _ _ I p a Hin) as (c & Hc & _). cbn in Hc. congruence. }
    exists (o1 ++ heap_set m a (fresh q) :: o2).
    eapply inv_move; [exact Hl|exact I|..].
    + intros Q H. cbn in H. exact (H a (fresh q) Hma (fits_fresh q)).
    + intros b c' Hb. destruct (Nat.eq_dec b a) as [-> |Hne].
      * rewrite heap_set_same in *. exact Hb.
      * rewrite heap_set_other in * by exact Hne. now apply Hm.
    + intros j mj b c' _ Hn Hb. rewrite heap_set_other; [exact (Ho j mj b c' Hn Hb)|].
      intros ->. rewrite (Hja j mj Hn) in Hb. discriminate.
    + intros j mj b Hj Hn Hb. destruct (Nat.eq_dec b a) as [-> |Hne].
      * exact (Hja j mj Hn).
      * rewrite heap_set_other in Hb by exact Hne. exact (Hap j mj b Hj Hn Hb).
    + intros p b Hb. rewrite heap_set_other by (intros ->; exact (Hfa p Hb)).
      exact (i_free _ _ _ I p b Hb).
    + intros p b Hb. rewrite heap_set_other by (intros ->; exact (Hfa p Hb)).
      apply (Hun0 p b (length o1)); [exact Hb|apply nth_at].
    + intros p b j mj Hj Hn Hb. exact (Hun0 p b j mj Hb Hn).
    + exact (i_once _ _ _ I).
  - (* put back *)
    cbn in HW. destruct HW as (c & Hma & Hf & _).
    exists (o1 ++ del m a :: o2).
    assert (Hfa : forall p, ~ In a (f p)).
    { intros p Hin. rewrite (Hun0 p a (length o1) m Hin (nth_at _ _ _)) in Hma. discriminate. }
    assert (Hin' : forall p b, In b (free_set f q (a :: f q) p) -> (p = q /\ b = a) \/ In b (f p)).
    { intros p b Hb. destruct (pool_eqb p q) eqn:E.
      - apply pool_eqb_ok in E. subst p. rewrite free_set_same in Hb. destruct Hb as [<- |Hb]; tauto.
      - rewrite free_set_other in Hb by (intros ->; destruct q; discriminate). tauto. }
    eapply inv_move; [exact Hl|exact I|..].
    + intros Q H. cbn in H. destruct H as (c' & _ & _ & H). exact H.
    + intros b c' Hb. destruct (Nat.eq_dec b a) as [-> |Hne].
      * rewrite del_same in Hb. discriminate.
      * rewrite del_other in Hb by exact Hne. now apply Hm.
    + intros j mj b c' _ Hn Hb. exact (Ho j mj b c' Hn Hb).
    + intros j mj b Hj Hn Hb. apply (Hap j mj b Hj Hn). destruct (Nat.eq_dec b a) as [-> |Hne].
      * rewrite del_same in Hb. congruence.
      * now rewrite del_other in Hb by exact Hne.
    + intros p b Hb. apply Hin' in Hb. destruct Hb as [[-> ->]|Hb].
      * exists c. split; [now apply Hm|exact Hf].
      * exact (i_free _ _ _ I p b Hb).
    + intros p b Hb. apply Hin' in Hb. destruct Hb as [[-> ->]|Hb]; [apply del_same|].
      rewrite del_other by (intros ->; exact (Hfa p Hb)).
      apply (Hun0 p b (length o1)); [exact Hb|apply nth_at].
    + intros p b j mj Hj Hn Hb. apply Hin' in Hb. destruct Hb as [[-> ->]|Hb].
      * apply (Hap j mj a Hj Hn). congruence.
      * exact (Hun0 p b j mj Hb Hn).
    + intros p. destruct (pool_eqb p q) eqn:E.
      * apply pool_eqb_ok in E. subst p. rewrite free_set_same. constructor; [apply Hfa|].
        exact (i_once _ _ _ I q).
      * rewrite free_set_other by (intros ->; destruct q; discriminate). exact (i_once _ _ _ I p).
  - (* load *)
    exists (o1 ++ m :: o2). eapply inv_move; [exact Hl|exact I|..].
    + intros Q H. cbn in H. destruct H as (c' & Hc' & H). apply Hm in Hc'.
      rewrite Ha in Hc'. injection Hc' as <-. exact H.
    + exact Hm.
    + intros j mj b c' _ Hn Hb. exact (Ho j mj b c' Hn Hb).
    + exact Hap.
    + exact (i_free _ _ _ I).
    + intros p b Hb. apply (Hun0 p b (length o1)); [exact Hb|apply nth_at].
    + intros p b j mj Hj Hn Hb. exact (Hun0 p b j mj Hb Hn).
    + exact (i_once _ _ _ I).
  - (* save *)
    cbn in HW. destruct HW as ((c1 & Hma) & _).
    assert (Hfa : forall p, ~ In a (f p)).
    { intros p Hin. rewrite (Hun0 p a (length o1) m Hin (nth_at _ _ _)) in Hma. discriminate. }
    exists (o1 ++ heap_set m a c :: o2). eapply inv_move; [exact Hl|exact I|..].
    + intros Q H. cbn in H. exact (proj2 H).
    + intros b c' Hb. destruct (Nat.eq_dec b a) as [-> |Hne].
      * rewrite heap_set_same in *. exact Hb.
      * rewrite heap_set_other in * by exact Hne. now apply Hm.
    + intros j mj b c' Hj Hn Hb. rewrite heap_set_other; [exact (Ho j mj b c' Hn Hb)|].
      intros ->. rewrite (Hap j mj a Hj Hn) in Hb; congruence.
    + intros j mj b Hj Hn Hb. apply (Hap j mj b Hj Hn). destruct (Nat.eq_dec b a) as [-> |Hne].
      * congruence. * now rewrite heap_set_other in Hb by exact Hne.
    + intros p b Hb. rewrite heap_set_other by (intros ->; exact (Hfa p Hb)).
      exact (i_free _ _ _ I p b Hb).
    + intros p b Hb. rewrite heap_set_other by (intros ->; exact (Hfa p Hb)).
      apply (Hun0 p b (length o1)); [exact Hb|apply nth_at].
    + intros p b j mj Hj Hn Hb. exact (Hun0 p b j mj Hb Hn).
    + exact (i_once _ _ _ I).
  - (* allocate *)
    assert (Hma : m a = None) by (destruct (m a) eqn:E; [apply Hm in E; congruence|reflexivity]).
    assert (Hja : forall j mj, nth_error (o1 ++ m :: o2) j = Some mj -> mj a = None).
    { intros j mj Hn. destruct (mj a) eqn:E; [apply (Ho j mj) in E; [congruence|exact Hn]|reflexivity]. }
    assert (Hfa : forall p, ~ In a (f p)).
    { intros p Hin. destruct (i_free _ _ _ I p a Hin) as (c' & Hc & _). cbn in Hc. congruence. }
    exists (o1 ++ heap_set m a c :: o2).
    eapply inv_move; [exact Hl|exact I|..].
    + intros Q H. cbn in H. exact (H a Hma).
    + intros b c' Hb. destruct (Nat.eq_dec b a) as [-> |Hne].
      * rewrite heap_set_same in *. exact Hb.
      * rewrite heap_set_other in * by exact Hne. now apply Hm.
    + intros j mj b c' _ Hn Hb. rewrite heap_set_other; [exact (Ho j mj b c' Hn Hb)|].
      intros ->. rewrite (Hja j mj Hn) in Hb. discriminate.
    + intros j mj b Hj Hn Hb. destruct (Nat.eq_dec b a) as [-> |Hne].
      * exact (Hja j mj Hn).
      * rewrite heap_set_other in Hb by exact Hne. exact (Hap j mj b Hj Hn Hb).
    + intros p b Hb. rewrite heap_set_other by (intros ->; exact (Hfa p Hb)).
      exact (i_free _ _ _ I p b Hb).
    + intros p b Hb. rewrite heap_set_other by (intros ->; exact (Hfa p Hb)).
      apply (Hun0 p b (length o1)); [exact Hb|apply nth_at].
    + intros p b j mj Hj Hn Hb. exact (Hun0 p b j mj Hb Hn).
    + exact (i_once _ _ _ I).
Qed.

Lemma inv_gc {A} : forall Qs h f (ps : list (prog A)) q l1 a l2 own,
  f q = l1 ++ a :: l2 -> inv Qs (mkWorld h f ps) own ->
  inv Qs (mkWorld h (free_set f q (l1 ++ l2)) ps) own.
Proof.
  intros Qs h f ps q l1 a l2 own Ef [L LQ W Hp Ap Fr Un On]. cbn in *.
  assert (Hd : forall p b, In b (free_set f q (l1 ++ l2) p) -> In b (f p)).
  { intros p b Hb. destruct (pool_eqb p q) eqn:E.
    - apply pool_eqb_ok in E. subst p. rewrite free_set_same in Hb. rewrite Ef. now apply in_drop.
    - rewrite free_set_other in Hb by (intros ->; destruct q; discriminate). exact Hb. }
  constructor; cbn; auto.
  - intros p b i m Hb. apply (Un p b). now apply Hd.
  - intros p. destruct (pool_eqb p q) eqn:E.
    + apply pool_eqb_ok in E. subst p. rewrite free_set_same. specialize (On q). rewrite Ef in On.
      now apply NoDup_remove_1 in On.
    + rewrite free_set_other by (intros ->; destruct q; discriminate). apply On.
Qed.

Lemma inv_steps {A} : forall Qs (w w' : world A), steps w w' ->
  (exists own, inv Qs w own) -> exists own, inv Qs w' own.
Proof.
  intros Qs w w' S. induction S as [w|w w' w'' S IH St]; intros H; [exact H|].
  destruct (IH H) as (own & I). destruct St as [h f before p after h' f' p' C | h f ps q l1 a l2 E].
  - exact (inv_command _ _ _ _ _ _ _ _ _ _ C I).
  - exists own. exact (inv_gc _ _ _ _ _ _ _ _ _ E I).
Qed.

Lemma inv_boot {A} : forall Qs (ps : list (prog A)),
  Forall2 (fun Q p => wp (fun _ => None) p Q) Qs ps ->
  exists own, inv Qs (boot ps) own.
Proof.
  intros Qs ps H. exists (repeat (fun _ => None) (length ps)).
  constructor; cbn.
  - now rewrite repeat_length.
  - clear - H. induction H; cbn; congruence.
  - intros i p m Q Hp Hm HQ. apply nth_error_In, repeat_spec in Hm. subst m.
    revert i Hp HQ. induction H as [|Q' p' Qs' ps' H1 H2 IH]; intros [|i] Hp HQ; cbn in *; try discriminate.
    + injection Hp as <-. injection HQ as <-. exact H1.
    + exact (IH i Hp HQ).
  - intros i m a c Hm Hc. apply nth_error_In, repeat_spec in Hm. subst m. discriminate.
  - intros i j mi mj a Hi _ _ Ha. apply nth_error_In, repeat_spec in Hi. subst mi. now elim Ha.
  - intros q a [].
  - intros q a i m [].
  - intros q. constructor.
Qed.

(** A goroutine of a reachable state is either finished, with its postcondition, or
    can go on. *)
Definition pending {A} (p : prog A) : bool := match p with Done _ => false | _ => true end.
Theorem pools_safe {A} : forall Qs (ps : list (prog A)) w,
  Forall2 (fun (Q : A -> Prop) p => wp (fun _ => None) p (fun a _ => Q a)) Qs ps ->
  steps (boot ps) w ->
  (forall i Q a, nth_error Qs i = Some Q -> nth_error (w_run w) i = Some (Done a) -> Q a).
Proof.
  intros Qs ps w H S i Q a HQ Ha.
  destruct (inv_steps (map (fun Q a (_ : mem) => Q a) Qs) _ _ S) as (own & I).
  { apply inv_boot. clear - H. induction H; cbn; constructor; auto. }
  destruct (nth_error own i) as [m|] eqn:Em.
  - apply (i_wp _ _ _ I i (Done a) m (fun a _ => Q a) Ha Em).
    rewrite nth_error_map, HQ. reflexivity.
  - apply nth_error_None in Em. rewrite (i_len _ _ _ I) in Em.
    assert (nth_error (w_run w) i <> None) by congruence. apply nth_error_Some in H0. lia.
Qed.

(** ** Every search can always go on and come to its end *)
Definition bounded {A} (w : world A) : Prop := exists N, forall a, (N <= a)%nat -> w_heap w a = None.
Lemma bounded_set : forall h a c, (exists N, forall b, (N <= b)%nat -> h b = None) ->
  exists N, forall b, (N <= b)%nat -> heap_set h a c b = None.
Proof.
  intros h a c (N & H). exists (Nat.max N (S a)). intros b Hb.
  rewrite heap_set_other by lia. apply H. lia.
Qed.
Lemma bounded_steps {A} : forall (w w' : world A), steps w w' -> bounded w -> bounded w'.
Proof.
  intros w w' S. induction S as [w|w w' w'' S IH St]; intros H; [exact H|].
  specialize (IH H). unfold bounded in *. destruct St as [h f before p after h' f' p' C | h f ps q l1 a l2 E].
  - cbn in *. destruct C; try exact IH; now apply bounded_set.
  - exact IH.
Qed.
Lemma steps_trans {A} : forall (w w' w'' : world A), steps w w' -> steps w' w'' -> steps w w''.
Proof.
  intros w w' w'' S1 S2. revert S1. induction S2; intros S1; [exact S1|].
  eapply steps_one; [apply IHS2; exact S1|exact H].
Qed.

Lemma can_command {A} : forall Qs h f (p : prog A) before after own,
  inv Qs (mkWorld h f (before ++ p :: after)) own ->
  bounded (mkWorld h f (before ++ p :: after)) -> pending p = true ->
  exists h' f' p', command h f p h' f' p'.
Proof.
  intros Qs h f p before after own I [N B] Hp. cbn in B.
  destruct (own_split own (length before)) as (o1 & m & o2 & -> & Hl).
  { rewrite (i_len _ _ _ I). cbn. rewrite app_length. cbn. lia. }
  assert (HW : exists Q, wp m p Q).
  { destruct (nth_error Qs (length before)) as [Q|] eqn:E.
    - exists Q. apply (i_wp _ _ _ I (length before)); cbn; [apply nth_at| |exact E].
      rewrite <- Hl. apply nth_at.
    - apply nth_error_None in E. pose proof (i_lenQ _ _ _ I) as H. cbn in H.
      rewrite app_length in H. cbn in H. lia. }
  destruct HW as (Q & W).
  assert (Hm : forall a c, m a = Some c -> h a = Some c).
  { intros a c. apply (i_heap _ _ _ I (length o1)). apply nth_at. }
  destruct p as [a|q k|q a k|a k|a c k|c k]; [discriminate|..]; cbn in W.
  - exists (heap_set h N (fresh q)), f, (k N). apply do_fresh. apply B. lia.
  - exists h, (free_set f q (a :: f q)), k. apply do_put.
  - destruct W as (c & Hc & _). exists h, f, (k c). apply do_load. now apply Hm.
  - destruct W as ((c0 & Hc) & _). exists (heap_set h a c), f, k. apply (do_save h f a c c0). now apply Hm.
  - exists (heap_set h N c), f, (k N). apply do_new. apply B. lia.
Qed.

Lemma finish_one {A} : forall Qs (p : prog A) h f before after own,
  inv Qs (mkWorld h f (before ++ p :: after)) own ->
  bounded (mkWorld h f (before ++ p :: after)) ->
  exists h' f' a, steps (mkWorld h f (before ++ p :: after)) (mkWorld h' f' (before ++ Done a :: after)).
Proof.
  intros Qs p. induction p as [a|q k IH|q a k IH|a k IH|a c k IH|c k IH];
    intros h f before after own I B.
  { exists h, f, a. constructor. }
  all: destruct (can_command _ _ _ _ _ _ _ I B eq_refl) as (h1 & f1 & p1 & C).
  all: assert (S1 := steps_one _ _ _ (steps_refl _) (step_run h f before _ after h1 f1 p1 C)).
  all: destruct (inv_command _ _ _ _ _ _ _ before after _ C I) as (own1 & I1).
  all: pose proof (bounded_steps _ _ S1 B) as B1.
  all: inversion C; subst.
  all: first [destruct (IH _ _ _ _ _ _ I1 B1) as (h' & f' & x & S2)
             |destruct (IH _ _ _ _ _ I1 B1) as (h' & f' & x & S2)];
       exists h', f', x; eapply steps_trans; [exact S1|exact S2].
Qed.

Theorem pools_live {A} : forall Qs (ps : list (prog A)) w,
  Forall2 (fun (Q : A -> Prop) p => wp (fun _ => None) p (fun a _ => Q a)) Qs ps ->
  steps (boot ps) w ->
  (forall i p, nth_error (w_run w) i = Some p -> pending p = true ->
     exists h' f' p', command (w_heap w) (w_free w) p h' f' p') /\
  exists w', steps w w' /\ forall p, In p (w_run w') -> pending p = false.
Proof.
  intros Qs ps w H S.
  set (Qm := map (fun Q a (_ : mem) => Q a) Qs).
  destruct (inv_steps Qm _ _ S) as (own & I).
  { apply inv_boot. unfold Qm. clear - H. induction H; cbn; constructor; auto. }
  assert (B : bounded w).
  { apply (bounded_steps _ _ S). exists O. intros a _. reflexivity. }
  split.
  - intros i p Hp Hpend. apply nth_error_split in Hp. destruct Hp as (l1 & l2 & E & _).
    destruct w as [h f run]. cbn in *. subst run. exact (can_command _ _ _ _ _ _ _ I B Hpend).
  - clear S H. destruct w as [h f run].
    assert (G : forall todo done h f own, inv Qm (mkWorld h f (done ++ todo)) own ->
              bounded (mkWorld h f (done ++ todo)) ->
              (forall p, In p done -> pending p = false) ->
              exists w', steps (mkWorld h f (done ++ todo)) w' /\
                         forall p, In p (w_run w') -> pending p = false).
    { clear. induction todo as [|p todo IH]; intros done h f own I B Hd.
      - rewrite app_nil_r in *. eexists. split; [constructor|exact Hd].
      - destruct (finish_one _ _ _ _ _ _ _ I B) as (h' & f' & a & S).
        destruct (inv_steps Qm _ _ S (ex_intro _ own I)) as (own' & I').
        pose proof (bounded_steps _ _ S B) as B'.
        change (done ++ Done a :: todo) with (done ++ [Done a] ++ todo) in *.
        rewrite app_assoc in S, I', B'.
        destruct (IH _ _ _ _ I' B') as (w' & S' & Hw').
        + intros q Hq. apply in_app_or in Hq. destruct Hq as [Hq|[<- |[]]]; [now apply Hd|reflexivity].
        + exists w'. split; [|exact Hw']. eapply steps_trans; [exact S|exact S']. }
    exact (G run [] h f own I B (fun p F => match F with end)).
Qed.
