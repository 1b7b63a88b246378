(** Property C44 (pkg/suggest/service.go): queries, listings, reloads and rebuilds in
    every interleaving.  A run is any sequence of moves of any list of goroutines. *)
From Coq Require Import String Lia.
From Verif Require Import Base BaseLemmas GoMap Service ServiceSpec ServiceProofs.
Local Open Scope Z_scope.

Lemma start_inv ts fd fi sr sched s : moves ts sched (init ts fd fi sr) = Some (Live s) -> Inv ts s.
Proof. intros H. pose proof (init_inv ts fd fi sr) as HI. unfold init in *. eapply moves_inv; eauto. Qed.
Lemma start_pcs {ts i p} : nth_error (map start_pc ts) i = Some p -> exists t, nth_error ts i = Some t /\ p = start_pc t.
Proof. intros H. rewrite nth_error_map in H. destruct (nth_error ts i) as [t|]; [|discriminate]. injection H as <-. eauto. Qed.

(** C44 (installs): the index and the dictionary a query gets were installed together, by
    one AddIndex call for that name: they are the latest pair installed at some moment
    between the query's start and its end, or nothing if nothing was installed then. *)
Theorem C44_installed_together : forall ts fd fi sr sched1 s1 sched2 s2 i n r c,
  moves ts sched1 (init ts fd fi sr) = Some (Live s1) -> moves ts sched2 (Live s1) = Some (Live s2) ->
  nth_error ts i = Some (TQuery n) -> nth_error (s_pcs s1) i = Some QLock -> nth_error (s_pcs s2) i = Some (QDone r c) ->
  exists h, prefix (s_hist s1) h /\ prefix h (s_hist s2) /\ r = seen h n.
Proof.
  intros ts fd fi sr sched1 s1 sched2 s2 i n r c H1 H2 Hi Hp1 Hp2. pose proof (start_inv _ _ _ _ _ _ H1) as HI.
  assert (QInv (s_hist s1) n i s1) as HQ by (split; [apply prefix_refl|]; intros p Hp; rewrite Hp1 in Hp; injection Hp as <-; exact I).
  pose proof (moves_qinv ts _ n i sched2 s1 s2 HI Hi HQ H2) as [_ HQ2]. exact (HQ2 _ Hp2).
Qed.
Print Assumptions C44_installed_together.
(** ... and the history is made of such pairs: each was put there by one goroutine
    that was adding an index under that name. *)
Theorem C44_installs : forall ts fd fi sr sched s n ei ed,
  moves ts sched (init ts fd fi sr) = Some (Live s) -> In (n, (ei, ed)) (s_hist s) -> e_by ei = e_by ed /\ exists d, nth_error ts (e_by ei) = Some (TAdd n d).
Proof.
  intros ts fd fi sr sched s n ei ed H Hin. pose proof (i_hist _ _ (start_inv _ _ _ _ _ _ H)) as Hh. rewrite Forall_forall in Hh. destruct (Hh _ Hin) as (A & d & B & _). eauto.
Qed.
Print Assumptions C44_installs.
(** A reload that has ended is visible: its install is in the history. *)
Definition added (s : svc) (n : name) (i : nat) : Prop := exists ei ed, In (n, (ei, ed)) (s_hist s) /\ e_by ei = i.
Lemma step_added ts s j t q s' : nth_error (s_pcs s) j = Some q -> nth_error ts j = Some t -> step t j q s = Some (Live s') ->
  (forall i n d p, nth_error ts i = Some (TAdd n d) -> nth_error (s_pcs s) i = Some p -> p = AUnlock \/ p = ADone -> added s n i) ->
  (forall i n d p, nth_error ts i = Some (TAdd n d) -> nth_error (s_pcs s') i = Some p -> p = AUnlock \/ p = ADone -> added s' n i).
Proof.
  intros Hq Ht Hs HA i n d p Hi Hp Hd. destruct (step_hist _ _ _ _ _ Hs) as (x & Ex). assert (added s n i -> added s' n i) as Hmono by (intros (ei & ed & Hin & E); exists ei, ed; split; [rewrite Ex; apply in_app_iff; left; exact Hin|exact E]).
  destruct (step_other _ _ _ _ _ Hs) as (p' & Ep). rewrite Ep, nth_set_at in Hp. destruct (Nat.eqb_spec j i) as [->|Hne]; [|apply Hmono; eapply HA; eauto].
  rewrite Hq in Hp. injection Hp as ->. replace t with (TAdd n d) in * by congruence.
  assert (forall (a b : pc), set_at i a (s_pcs s) = set_at i b (s_pcs s) -> a = b) as Hinj
    by (intros a b E; assert (nth_error (set_at i a (s_pcs s)) i = nth_error (set_at i b (s_pcs s)) i) as E2 by (rewrite E; reflexivity); rewrite !nth_set_at, Nat.eqb_refl, Hq in E2; congruence).
  destruct q; try (destruct d; discriminate Hs); unfold step, jump in Hs.
  - destruct d; [destruct (mget beqb (s_src s) n)|destruct (mget beqb (s_fdict s) n)]; injection Hs as <-; apply Hinj in Ep; subst p; destruct Hd; discriminate.
  - destruct d; [|destruct (mget beqb (s_findex s) n)]; injection Hs as <-; apply Hinj in Ep; subst p; destruct Hd; discriminate.
  - destruct d, (s_writer s); try discriminate Hs; injection Hs as <-; apply Hinj in Ep; subst p; destruct Hd; discriminate.
  - destruct d, (s_readers s); try discriminate Hs; injection Hs as <-; apply Hinj in Ep; subst p; destruct Hd; discriminate.
  - destruct d, (s_windex s); try discriminate Hs; injection Hs as <-; apply Hinj in Ep; subst p; destruct Hd; discriminate.
  - destruct d; injection Hs as <-; apply Hinj in Ep; subst p; destruct Hd; discriminate.
  - destruct d, (s_wdict s); try discriminate Hs; injection Hs as <-; apply Hinj in Ep; subst p; destruct Hd; discriminate.
  - destruct d; injection Hs as <-; exists (mkEntry i iv), (mkEntry i dv); (split; [cbn [set_pcs log_install s_hist]; apply in_app_iff; right; left; reflexivity|reflexivity]).
  - apply Hmono. apply (HA i n d AUnlock); auto.
Qed.
Theorem C44_finished_adds_are_visible : forall ts fd fi sr sched s i n d,
  moves ts sched (init ts fd fi sr) = Some (Live s) -> nth_error ts i = Some (TAdd n d) -> nth_error (s_pcs s) i = Some ADone ->
  (exists ei ed, In (n, (ei, ed)) (s_hist s) /\ e_by ei = i) /\ seen (s_hist s) n <> (None, None).
Proof.
  intros ts fd fi sr sched s i n d H Hi Hp.
  assert (added s n i) as HA.
  { assert (forall s0, moves ts sched (Live s0) = Some (Live s) -> (forall i n d p, nth_error ts i = Some (TAdd n d) -> nth_error (s_pcs s0) i = Some p -> p = AUnlock \/ p = ADone -> added s0 n i) ->
            forall i n d p, nth_error ts i = Some (TAdd n d) -> nth_error (s_pcs s) i = Some p -> p = AUnlock \/ p = ADone -> added s n i) as Hind.
    { clear. induction sched as [|j sched IH]; intros s0 H HA; cbn [moves] in H; [injection H as <-; exact HA|]. destruct (move ts j (Live s0)) as [[s1|]|] eqn:Em; [| |discriminate].
      - apply (IH s1 H). cbn [move] in Em. destruct (nth_error ts j) as [t|] eqn:Ht; [|discriminate]. destruct (nth_error (s_pcs s0) j) as [p|] eqn:Hp; [|discriminate]. eapply step_added; eauto.
      - apply moves_thrown in H. discriminate. }
    eapply Hind; [exact H| |exact Hi|exact Hp|auto]. cbn [s_pcs]. intros i0 n0 d0 p0 Hi0 Hp0 Hd0. apply start_pcs in Hp0. destruct Hp0 as (t & Ht & ->). replace t with (TAdd n0 d0) in Hd0 by congruence. destruct Hd0; discriminate. }
  split; [exact HA|]. destruct HA as (ei & ed & Hin & _). unfold seen. assert (latest (s_hist s) n <> None) as Hne.
  { clear - Hin. induction (s_hist s) as [|[m q] h IH]; [destruct Hin|]. cbn [latest]. destruct Hin as [E|Hin].
    - injection E as -> ->. destruct (latest h n); [discriminate|]. rewrite (eqb_refl _ beqb_ok). discriminate.
    - destruct (latest h n); [discriminate|]. exfalso. apply IH; auto. }
  destruct (latest (s_hist s) n) as [[a b]|]; [discriminate|congruence].
Qed.
Print Assumptions C44_finished_adds_are_visible.

(** The builds themselves.  A RAM index and its dictionary come from one reading of the
    source: what a query reads through them has one generation. *)
Theorem C44_ram_one_build : forall ts fd fi sr sched s i n e d gi gd,
  moves ts sched (init ts fd fi sr) = Some (Live s) -> nth_error ts i = Some (TQuery n) -> nth_error (s_pcs s) i = Some (QDone (Some e, Some d) (Some (gi, gd))) ->
  nth_error ts (e_by e) = Some (TAdd n RAM) -> gi = gd.
Proof.
  intros ts fd fi sr sched s i n e d gi gd H Hi Hp He. pose proof (start_inv _ _ _ _ _ _ H) as HI.
  assert (QInv [] n i s) as [_ HQ].
  { eapply (moves_qinv ts [] n i sched); [exact (init_inv ts fd fi sr)|exact Hi| |exact H]. split; [exists (@nil (name * (entry * entry))); reflexivity|]. cbn [s_pcs]. intros p Hp0. apply start_pcs in Hp0. destruct Hp0 as (t & Ht & ->). replace t with (TQuery n) by congruence. exact I. }
  specialize (HQ _ Hp). destruct HQ as (h & _ & (x & Hh) & Es). assert (In (n, (e, d)) (s_hist s)) as Hin.
  { unfold seen in Es. destruct (latest h n) as [[a b]|] eqn:El; [|discriminate]. injection Es as <- <-. apply latest_In in El. rewrite Hh. apply in_app_iff. left. exact El. }
  pose proof (i_hist _ _ HI) as Hf. rewrite Forall_forall in Hf. destruct (Hf _ Hin) as (_ & dr & Hd & Hpair). rewrite He in Hd. injection Hd as <-. cbn [pair_ok] in Hpair. destruct Hpair as (E & g & Eg).
  assert (CInv s) as HC. { eapply moves_cinv; [|exact H]. intros j p Hj. cbn [s_pcs] in Hj. apply start_pcs in Hj. destruct Hj as (t & _ & ->). destruct t; exact I. }
  destruct (HC _ _ Hp) as [R1 R2]. rewrite (R1 g), (R2 g); congruence.
Qed.
Print Assumptions C44_ram_one_build.
(** A query gets an answer exactly when it found index and dictionary, and an error
    otherwise; an index built in memory answers from the source file of its name. *)
Definition answered (p : pc) : Prop := match p with QDone (Some _, Some _) c => c <> None | QDone _ c => c = None | _ => True end.
Lemma moves_keep (P : svc -> Prop) ts sched s s' :
  (forall s0 j t p s1, P s0 -> nth_error ts j = Some t -> nth_error (s_pcs s0) j = Some p -> step t j p s0 = Some (Live s1) -> P s1) ->
  P s -> moves ts sched (Live s) = Some (Live s') -> P s'.
Proof.
  intros Hstep. revert s. induction sched as [|j sched IH]; intros s HC H; cbn [moves] in H; [injection H as <-; exact HC|].
  destruct (move ts j (Live s)) as [[s1|]|] eqn:Em; [| |discriminate].
  - apply (IH s1); [|exact H]. cbn [move] in Em. destruct (nth_error ts j) as [t|] eqn:Ht; [|discriminate]. destruct (nth_error (s_pcs s) j) as [p|] eqn:Hp; [|discriminate]. eapply Hstep; eauto.
  - apply moves_thrown in H. discriminate.
Qed.
Ltac step_cases H s t p :=
  destruct t as [n d|n| |n g], p; try (destruct d; discriminate H); try discriminate H; unfold step, jump in H;
  repeat match type of H with
  | context [match ?x with _ => _ end] => is_var x; destruct x; try discriminate H
  | context [mget beqb ?a ?b] => let E := fresh "Eget" in destruct (mget beqb a b) eqn:E in H; try discriminate H
  | context [s_writer s] => destruct (s_writer s) in H; try discriminate H
  | context [match s_readers s with _ => _ end] => destruct (s_readers s) in H; try discriminate H
  | context [if ?x then _ else _] => destruct x in H; try discriminate H
  end; injection H as <-.
Theorem C44_found_is_answered : forall ts fd fi sr sched s i r c,
  moves ts sched (init ts fd fi sr) = Some (Live s) -> nth_error (s_pcs s) i = Some (QDone r c) ->
  c <> None <-> exists e d, r = (Some e, Some d).
Proof.
  intros ts fd fi sr sched s i r c H Hp. assert (forall j p, nth_error (s_pcs s) j = Some p -> answered p) as HA.
  { revert H. unfold init. apply (moves_keep (fun s => forall j p, nth_error (s_pcs s) j = Some p -> answered p)).
    - clear. intros s i t p s' HC _ Hp H j q Hq. destruct (step_other _ _ _ _ _ H) as (p' & Ep). rewrite Ep in Hq. pose proof (HC _ _ Hp) as Hc. look Hp; [|eauto].
      assert (forall (a b : pc), set_at i a (s_pcs s) = set_at i b (s_pcs s) -> a = b) as Hinj
        by (intros a b E; assert (nth_error (set_at i a (s_pcs s)) i = nth_error (set_at i b (s_pcs s)) i) as E2 by (rewrite E; reflexivity); rewrite !nth_set_at, Nat.eqb_refl, Hp in E2; congruence).
      step_cases H s t p; cbn [set_pcs set_lock set_index set_dict set_files log_install s_pcs] in Ep; apply Hinj in Ep; subst q; first [exact I|reflexivity|discriminate].
    - cbn [s_pcs]. intros j p Hj. apply start_pcs in Hj. destruct Hj as (t & _ & ->). destruct t; exact I. }
  specialize (HA _ _ Hp). cbn [answered] in HA. destruct r as [[e|] [d|]].
  - split; [eauto|intros _; exact HA].
  - split; [intros Hc; congruence|intros (a & b & E); discriminate].
  - split; [intros Hc; congruence|intros (a & b & E); discriminate].
  - split; [intros Hc; congruence|intros (a & b & E); discriminate].
Qed.
Print Assumptions C44_found_is_answered.
Definition from_source (sr : list (name * Z)) (n : name) (h : handle) : Prop := exists g, mget beqb sr n = Some g /\ h = Snapshot g.
Definition SInv (ts : list thread) (sr : list (name * Z)) (s : svc) : Prop :=
  s_src s = sr /\
  (forall i n p, nth_error ts i = Some (TAdd n RAM) -> nth_error (s_pcs s) i = Some p ->
     (forall dv, p = AOpenIndex dv -> from_source sr n dv) /\ (forall dv iv, handles p = Some (dv, iv) -> from_source sr n dv /\ from_source sr n iv)) /\
  (forall n ei ed, In (n, (ei, ed)) (s_hist s) -> nth_error ts (e_by ei) = Some (TAdd n RAM) -> from_source sr n (e_val ei)).
Theorem C44_ram_answers_from_source : forall ts fd fi sr sched s i n e d gi gd,
  moves ts sched (init ts fd fi sr) = Some (Live s) -> nth_error ts i = Some (TQuery n) -> nth_error (s_pcs s) i = Some (QDone (Some e, Some d) (Some (gi, gd))) ->
  nth_error ts (e_by e) = Some (TAdd n RAM) -> mget beqb sr n = Some gi /\ gd = gi.
Proof.
  intros ts fd fi sr sched s i n e d gi gd H Hi Hp He. pose proof (C44_ram_one_build _ _ _ _ _ _ _ _ _ _ _ _ H Hi Hp He) as E. split; [|congruence].
  assert (SInv ts sr s) as (_ & _ & HS).
  { revert H. unfold init. apply (moves_keep (SInv ts sr)).
    - clear. intros s i t p s' (S1 & S2 & S3) Ht Hp H. destruct (step_other _ _ _ _ _ H) as (p' & Ep).
      assert (forall (a b : pc), set_at i a (s_pcs s) = set_at i b (s_pcs s) -> a = b) as Hinj
        by (intros a b E; assert (nth_error (set_at i a (s_pcs s)) i = nth_error (set_at i b (s_pcs s)) i) as E2 by (rewrite E; reflexivity); rewrite !nth_set_at, Nat.eqb_refl, Hp in E2; congruence).
      split; [|split].
      + step_cases H s t p; exact S1.
      + intros j m q Hm Hq. rewrite Ep in Hq. destruct (Nat.eq_dec i j) as [<-|Hne]; [|rewrite nth_set_at in Hq; destruct (Nat.eqb_spec i j); [contradiction|]; exact (S2 _ _ _ Hm Hq)].
        rewrite nth_set_at, Nat.eqb_refl, Hp in Hq. injection Hq as <-. replace t with (TAdd m RAM) in * by congruence. specialize (S2 _ _ _ Hm Hp). destruct S2 as [S2 S4].
        destruct p; try discriminate H; unfold step, jump in H;
        repeat match type of H with
        | context [mget beqb ?a ?b] => let E := fresh "Eget" in destruct (mget beqb a b) eqn:E in H; try discriminate H
        | context [s_writer s] => destruct (s_writer s) in H; try discriminate H
        | context [match s_readers s with _ => _ end] => destruct (s_readers s) in H; try discriminate H
        | context [if ?x then _ else _] => destruct x in H; try discriminate H
        end; injection H as <-; cbn [set_pcs set_lock set_index set_dict set_files log_install s_pcs] in Ep; apply Hinj in Ep; subst p';
        (split; [intros dv' E'; try discriminate E'|intros dv' iv' E'; try discriminate E'; cbn [handles] in E'; injection E' as <- <-; try (apply S4; reflexivity); try (split; apply S2; reflexivity)]).
        injection E' as <-. exists z. split; [rewrite <- S1; exact Eget|reflexivity].
      + intros m ei ed Hin Hm. assert (s_hist s' = s_hist s \/ exists dv iv, p = AWritingDict dv iv /\ exists m' d', t = TAdd m' d' /\ s_hist s' = s_hist s ++ [(m', (mkEntry i iv, mkEntry i dv))]) as Hh.
        { clear - H. step_cases H s t p; first [left; reflexivity|right; do 2 eexists; split; [reflexivity|]; do 2 eexists; split; reflexivity]. }
        destruct Hh as [Hh|(dv & iv & -> & m' & d' & -> & Hh)]; rewrite Hh in Hin; [exact (S3 _ _ _ Hin Hm)|]. apply in_app_iff in Hin. destruct Hin as [Hin|[Ein|[]]]; [exact (S3 _ _ _ Hin Hm)|].
        injection Ein as <- <- <-. cbn [e_by e_val] in *. destruct (S2 _ _ _ Hm Hp) as [_ S4]. apply (S4 dv iv). reflexivity.
    - split; [reflexivity|]. split; [|intros m ei ed []]. cbn [s_pcs]. intros j m p Hm Hj. apply start_pcs in Hj. destruct Hj as (t & Ht & ->). replace t with (TAdd m RAM) by congruence. cbn [start_pc handles]. split; intros; discriminate. }
  assert (QInv [] n i s) as [_ HQ].
  { eapply (moves_qinv ts [] n i sched); [exact (init_inv ts fd fi sr)|exact Hi| |exact H]. split; [exists (@nil (name * (entry * entry))); reflexivity|]. cbn [s_pcs]. intros p Hp0. apply start_pcs in Hp0. destruct Hp0 as (t & Ht & ->). replace t with (TQuery n) by congruence. exact I. }
  specialize (HQ _ Hp). destruct HQ as (h & _ & (x & Hh) & Es). assert (In (n, (e, d)) (s_hist s)) as Hin.
  { unfold seen in Es. destruct (latest h n) as [[a b]|] eqn:El; [|discriminate]. injection Es as <- <-. apply latest_In in El. rewrite Hh. apply in_app_iff. left. exact El. }
  destruct (HS _ _ _ Hin He) as (g & Eg & Ev).
  assert (CInv s) as HC. { eapply moves_cinv; [|exact H]. intros j p Hj. cbn [s_pcs] in Hj. apply start_pcs in Hj. destruct Hj as (t & _ & ->). destruct t; exact I. }
  destruct (HC _ _ Hp) as [R1 _]. rewrite (R1 g Ev). exact Eg.
Qed.
Print Assumptions C44_ram_answers_from_source.

(** A disc index: as long as nobody rewrites the files. *)
Theorem C44_disc_one_build_partial : forall ts f sr sched s i n e d gi gd,
  no_build ts -> moves ts sched (init ts f f sr) = Some (Live s) -> nth_error ts i = Some (TQuery n) -> nth_error (s_pcs s) i = Some (QDone (Some e, Some d) (Some (gi, gd))) -> gi = gd.
Proof.
  intros ts f sr sched s i n e d gi gd Hn H Hi Hp. pose proof (start_inv _ _ _ _ _ _ H) as HI.
  assert (QInv [] n i s) as [_ HQ].
  { eapply (moves_qinv ts [] n i sched); [exact (init_inv ts f f sr)|exact Hi| |exact H]. split; [exists (@nil (name * (entry * entry))); reflexivity|]. cbn [s_pcs]. intros p Hp0. apply start_pcs in Hp0. destruct Hp0 as (t & Ht & ->). replace t with (TQuery n) by congruence. exact I. }
  specialize (HQ _ Hp). destruct HQ as (h & _ & (x & Hh) & Es). assert (In (n, (e, d)) (s_hist s)) as Hin.
  { unfold seen in Es. destruct (latest h n) as [[a b]|] eqn:El; [|discriminate]. injection Es as <- <-. apply latest_In in El. rewrite Hh. apply in_app_iff. left. exact El. }
  pose proof (i_hist _ _ HI) as Hf. rewrite Forall_forall in Hf. destruct (Hf _ Hin) as (_ & dr & Hd & Hpair). 
  assert (FInv ts f f s) as (_ & _ & HF).
  { eapply moves_finv; [exact Hn| |exact H]. split; [reflexivity|]. split; [reflexivity|]. intros j m p Hm Hj. cbn [s_pcs] in Hj. apply start_pcs in Hj. destruct Hj as (t & _ & ->). destruct t; exact I. }
  specialize (HF _ _ _ Hi Hp). cbn [files_ok] in HF. destruct HF as [-> ->]. f_equal. destruct dr; cbn [pair_ok] in Hpair; [symmetry; apply Hpair|]. destruct Hpair as [-> ->]. reflexivity.
Qed.
Print Assumptions C44_disc_one_build_partial.
(** C44 refuted: a reload finishes, then the indexer rewrites the files in place while
    the service goes on answering: between the two writes a query takes its answers from
    the old index and their strings from the new dictionary. *)
Definition mix_threads : list thread := [TAdd (bs "words") Disc; TBuild (bs "words") 2; TQuery (bs "words")].
Definition mix_schedule : list nat := (repeat 0 9 ++ repeat 2 4 ++ [2] ++ [1] ++ [2])%nat.
Definition words (g : Z) : list (name * Z) := [(bs "words", g)].
Theorem C44_one_build_refuted : exists ts sched s i e d gi gd, moves ts sched (init ts (words 1) (words 1) (words 1)) = Some (Live s) /\ nth_error (s_pcs s) i = Some (QDone (Some e, Some d) (Some (gi, gd))) /\ gi <> gd.
Proof.
  assert (forall y, match y with Some (Live s) => match nth_error (s_pcs s) 2 with Some (QDone (Some _, Some _) (Some (gi, gd))) => negb (gi =? gd) | _ => false end | _ => false end = true ->
    exists s i e d gi gd, y = Some (Live s) /\ nth_error (s_pcs s) i = Some (QDone (Some e, Some d) (Some (gi, gd))) /\ gi <> gd) as H.
  { intros y H. destruct y as [[s|]|]; try discriminate. destruct (nth_error (s_pcs s) 2) as [[]|] eqn:Ep; try discriminate. destruct r as [[e|] [d|]]; try discriminate. destruct c as [[gi gd]|]; try discriminate.
    exists s, 2%nat, e, d, gi, gd. split; [reflexivity|]. split; [exact Ep|]. intros ->. rewrite Z.eqb_refl in H. discriminate. }
  exists mix_threads, mix_schedule. apply H. vm_compute. reflexivity.
Qed.
Print Assumptions C44_one_build_refuted.

(** No interleaving of queries, reloads and rebuilds makes the run time abort on a
    concurrent map access ... *)
Theorem C44_no_map_race_partial : forall ts fd fi sr sched, no_list ts -> moves ts sched (init ts fd fi sr) <> Some Thrown.
Proof. intros ts fd fi sr sched Hn. apply moves_safe; [exact Hn|]. exact (init_inv ts fd fi sr). Qed.
Print Assumptions C44_no_map_race_partial.
(** ... but a listing takes no lock: it aborts the process when it meets a reload. *)
Theorem C44_listing_race_refuted : exists sched, moves [TAdd (bs "words") RAM; TList] sched (init [TAdd (bs "words") RAM; TList] [] [] (words 1)) = Some Thrown.
Proof. exists [0; 0; 0; 0; 0; 0; 0; 1; 1]%nat. vm_compute. reflexivity. Qed.
Print Assumptions C44_listing_race_refuted.
(** Nobody waits for ever: each run is short, and until all goroutines have ended one can move. *)
Theorem C44_terminates : forall ts fd fi sr sched y, moves ts sched (init ts fd fi sr) = Some y -> zlen sched <= 9 * zlen ts + 1.
Proof. intros ts fd fi sr sched y H. apply moves_bounded in H. cbn [s_pcs] in H. pose proof (total_start ts). lia. Qed.
Print Assumptions C44_terminates.
Theorem C44_no_deadlock : forall ts fd fi sr sched s, moves ts sched (init ts fd fi sr) = Some (Live s) -> (forall p, In p (s_pcs s) -> ended p = true) \/ exists i y, move ts i (Live s) = Some y.
Proof.
  intros ts fd fi sr sched s H. destruct (forallb ended (s_pcs s)) eqn:E; [left; apply forallb_forall; exact E|right]. apply progress; [eapply start_inv; eauto|exact E].
Qed.
Print Assumptions C44_no_deadlock.

(** The hypotheses are met: a query that overlaps a second reload and sees the first. *)
Definition two : list thread := [TAdd (bs "words") RAM; TQuery (bs "words"); TAdd (bs "words") RAM].
Example C44_nonvacuous : exists s1 s2 e d c,
  moves two (repeat 0 9)%nat (init two [] [] (words 7)) = Some (Live s1) /\ moves two ([2; 2; 1; 1; 2; 1; 1; 2; 2; 1; 1; 2; 2; 2; 2])%nat (Live s1) = Some (Live s2) /\
  nth_error (s_pcs s1) 1 = Some QLock /\ nth_error (s_pcs s2) 1 = Some (QDone (Some e, Some d) (Some c)) /\ e_by e = 0%nat /\ zlen (s_hist s2) = 2 /\ c = (7, 7) /\ no_list two /\ no_build two.
Proof.
  set (w := [(bs "words", (mkEntry 0 (Snapshot 7), mkEntry 0 (Snapshot 7)))]).
  exists (mkSvc [(bs "words", mkEntry 0 (Snapshot 7))] [(bs "words", mkEntry 0 (Snapshot 7))] false false None [] [] [] (words 7) [ADone; QLock; AOpenDict] w).
  exists (mkSvc [(bs "words", mkEntry 2 (Snapshot 7))] [(bs "words", mkEntry 2 (Snapshot 7))] false false None [] [] [] (words 7)
    [ADone; QDone (Some (mkEntry 0 (Snapshot 7)), Some (mkEntry 0 (Snapshot 7))) (Some (7, 7)); ADone] (w ++ [(bs "words", (mkEntry 2 (Snapshot 7), mkEntry 2 (Snapshot 7)))])).
  exists (mkEntry 0 (Snapshot 7)), (mkEntry 0 (Snapshot 7)), (7, 7).
  split; [vm_compute; reflexivity|]. split; [vm_compute; reflexivity|]. do 5 (split; [reflexivity|]). split; [intros [H|[H|[H|[]]]]; discriminate|intros n g [H|[H|[H|[]]]]; discriminate].
Qed.
