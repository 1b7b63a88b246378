(** C83: the reindex job. *)
From Coq Require Import String ZifyBool Lia.
From Verif Require Import Base BaseLemmas GoMap Reindex.
Local Open Scope Z_scope.
Local Notation length := List.length.

(** ** Vocabulary *)
(** the version served under a name; the state of run [i] *)
Definition serves (s : state) (n : name) : option Z := mget beqb (s_served s) n.
Definition job_at (s : state) (i : nat) (j : job) : Prop := nth_error (s_jobs s) i = Some j.
(** at some moment of the events [evs], which begin in [s0], the outside was as described *)
Definition at_some_moment (evs : list event) (s0 : state) (P : world -> Prop) : Prop := exists a b s, evs = a ++ b /\ runs a s0 = Some s /\ P (s_world s).
(** no run but number [i] makes a step *)
Definition alone (i : nat) (evs : list event) : Prop := forall k, In (EJob k) evs -> k = i.

(** ** Lemmas *)
Lemma runs_app a b s : runs (a ++ b) s = match runs a s with Some s1 => runs b s1 | None => None end.
Proof. revert s. induction a as [|e a IH]; intros s; [reflexivity|]. cbn [app runs]. destruct (exec e s); [apply IH|reflexivity]. Qed.
Lemma set_job_same i x l j : nth_error l i = Some j -> nth_error (set_job i x l) i = Some x.
Proof. revert i. induction l as [|y l IH]; intros [|i] H; cbn in *; try discriminate; [reflexivity|apply IH, H]. Qed.
Lemma set_job_other i k x l : i <> k -> nth_error (set_job i x l) k = nth_error l k.
Proof. revert i k. induction l as [|y l IH]; intros [|i] [|k] H; cbn; try reflexivity; [congruence|apply IH; congruence]. Qed.
Lemma set_job_in i x l j : In j (set_job i x l) -> In j l \/ j = x.
Proof. revert i. induction l as [|y l IH]; intros [|i] H; cbn in *; [destruct H|destruct H|destruct H as [<- |H]; auto|]. destruct H as [<- |H]; [auto|]. destruct (IH i H); auto. Qed.
Lemma mget_mset' m n v k : mget beqb (mset beqb m n v) k = if beqb n k then Some v else mget (V := Z) beqb m k.
Proof. rewrite (mget_mset _ beqb_ok). reflexivity. Qed.
Lemma moment_more evs e s0 P : at_some_moment evs s0 P -> at_some_moment (evs ++ [e]) s0 P.
Proof. intros (a & b & s & -> & H & HP). exists a, (b ++ [e]), s. rewrite app_assoc. auto. Qed.
Lemma moment_end evs e s0 s (P : world -> Prop) : runs evs s0 = Some s -> P (s_world s) -> at_some_moment (evs ++ [e]) s0 P.
Proof. intros H HP. exists evs, [e], s. auto. Qed.

Definition renewed (evs : list event) (s0 : state) (done : list name) (served : list (name * Z)) : Prop :=
  forall n, (In n done -> exists v, mget beqb served n = Some v /\ at_some_moment evs s0 (fun w => version w n = Some v)) /\
            (~ In n done -> mget beqb served n = serves s0 n).
Definition progress (evs : list event) (s0 : state) (served : list (name * Z)) (j : job) : Prop :=
  match j with
  | JRead => forall n, mget beqb served n = serves s0 n
  | JOpen todo => exists c done, c = done ++ todo /\ at_some_moment evs s0 (fun w => w_config w = Some c) /\ renewed evs s0 done served
  | JInstall n v todo => exists c done, c = done ++ n :: todo /\ at_some_moment evs s0 (fun w => w_config w = Some c) /\ renewed evs s0 done served /\ at_some_moment evs s0 (fun w => version w n = Some v)
  | JDone => exists c, at_some_moment evs s0 (fun w => w_config w = Some c) /\ renewed evs s0 c served
  | JFailed => (at_some_moment evs s0 (fun w => w_config w = None) /\ forall n, mget beqb served n = serves s0 n) \/
      exists c done n todo, c = done ++ n :: todo /\ at_some_moment evs s0 (fun w => w_config w = Some c) /\ renewed evs s0 done served /\ at_some_moment evs s0 (fun w => version w n = None)
  end.
Lemma renewed_more evs e s0 d m : renewed evs s0 d m -> renewed (evs ++ [e]) s0 d m.
Proof. intros H n. destruct (H n) as [H1 H2]. split; [|exact H2]. intros Hn. destruct (H1 Hn) as (v & Hv & Hm). exists v. split; [exact Hv|apply moment_more, Hm]. Qed.
Lemma progress_more evs e s0 m j : progress evs s0 m j -> progress (evs ++ [e]) s0 m j.
Proof.
  destruct j; cbn [progress]; [auto| | | |].
  - intros (c & done & H1 & H2 & H3). exists c, done. auto using moment_more, renewed_more.
  - intros (c & done & H1 & H2 & H3 & H4). exists c, done. auto using moment_more, renewed_more.
  - intros (c & H2 & H3). exists c. auto using moment_more, renewed_more.
  - intros [[H1 H2]|(c & done & n & todo & H1 & H2 & H3 & H4)]; [left; auto using moment_more|right]. exists c, done, n, todo. auto using moment_more, renewed_more.
Qed.
Lemma job_progress i s0 : job_at s0 i JRead -> forall evs s, alone i evs -> runs evs s0 = Some s -> exists j, job_at s i j /\ progress evs s0 (s_served s) j.
Proof.
  intros H0 evs. induction evs as [|e evs IH] using rev_ind; intros s Ha Hr.
  - injection Hr as <-. exists JRead. split; [exact H0|]. intros n. reflexivity.
  - rewrite runs_app in Hr. destruct (runs evs s0) as [s1|] eqn:E1; [|discriminate]. cbn [runs] in Hr. destruct (exec e s1) as [s2|] eqn:E2; [|discriminate]. injection Hr as <-.
    destruct (IH s1) as (j & Hj & Hp); [intros k Hk; apply Ha, in_or_app; left; exact Hk|reflexivity|]. unfold job_at in *.
    destruct e as [c|n good| |k]; cbn [exec] in E2.
    + injection E2 as <-. exists j. split; [exact Hj|apply progress_more, Hp].
    + injection E2 as <-. exists j. split; [exact Hj|apply progress_more, Hp].
    + injection E2 as <-. exists j. cbn [s_jobs s_served]. split; [|apply progress_more, Hp]. rewrite nth_error_app1; [exact Hj|]. apply nth_error_Some. congruence.
    + assert (k = i) as -> by (apply Ha, in_or_app; right; left; reflexivity). rewrite Hj in E2. destruct (job_step (s_world s1) (s_served s1) j) as [[j' served']|] eqn:Es; [|discriminate]. injection E2 as <-. cbn [s_jobs s_served]. exists j'. split; [eapply set_job_same, Hj|].
      destruct j as [|[|n todo]|n v todo| |]; cbn [job_step] in Es; try discriminate.
      * cbn [progress] in Hp. destruct (w_config (s_world s1)) as [c|] eqn:Ec; injection Es as <- <-.
        -- exists c, []. split; [reflexivity|]. split; [eapply moment_end; eauto|]. intros n. split; [intros []|]. intros _. apply Hp.
        -- left. split; [eapply moment_end; eauto|exact Hp].
      * injection Es as <- <-. destruct Hp as (c & done & -> & H2 & H3). rewrite app_nil_r in H2. exists done. auto using moment_more, renewed_more.
      * destruct Hp as (c & done & -> & H2 & H3). destruct (version (s_world s1) n) as [v|] eqn:Ev; injection Es as <- <-.
        -- exists (done ++ n :: todo), done. split; [reflexivity|]. split; [apply moment_more, H2|]. split; [apply renewed_more, H3|]. eapply moment_end; eauto.
        -- right. exists (done ++ n :: todo), done, n, todo. split; [reflexivity|]. split; [apply moment_more, H2|]. split; [apply renewed_more, H3|]. eapply moment_end; eauto.
      * injection Es as <- <-. destruct Hp as (c & done & -> & H2 & H3 & H4). exists (done ++ n :: todo), (done ++ [n]). split; [rewrite <- app_assoc; reflexivity|]. split; [apply moment_more, H2|].
        intros k. rewrite mget_mset'. destruct (beqb n k) eqn:En.
        -- apply beqb_ok in En. subst k. split; [intros _; exists v; split; [reflexivity|apply moment_more, H4]|]. intros Hn. exfalso. apply Hn, in_or_app. right. left. reflexivity.
        -- assert (n <> k) as Hne by (intros ->; rewrite (eqb_refl _ beqb_ok) in En; discriminate). destruct (H3 k) as [H5 H6]. split.
           ++ intros Hk. apply in_app_or in Hk. destruct Hk as [Hk|[Hk|[]]]; [|congruence]. destruct (H5 Hk) as (u & Hu & Hm). exists u. split; [exact Hu|apply moment_more, Hm].
           ++ intros Hk. apply H6. intros H. apply Hk, in_or_app. left. exact H.
Qed.

(** ** Theorems *)
(** A run that succeeds, no other run making steps meanwhile: the configuration was readable at
    some moment of the run; afterwards every name in it is served, with a version its files had
    at some moment of the run; every other name is served as before. *)
Theorem C83_success_partial : forall i s0 evs s, job_at s0 i JRead -> alone i evs -> runs evs s0 = Some s -> job_at s i JDone ->
  exists c, at_some_moment evs s0 (fun w => w_config w = Some c) /\
  forall n, (In n c -> exists v, serves s n = Some v /\ at_some_moment evs s0 (fun w => version w n = Some v)) /\ (~ In n c -> serves s n = serves s0 n).
Proof. intros i s0 evs s H0 Ha Hr Hd. destruct (job_progress i s0 H0 evs s Ha Hr) as (j & Hj & Hp). unfold job_at in *. assert (j = JDone) as -> by congruence. destruct Hp as (c & H1 & H2). exists c. split; [exact H1|exact H2]. Qed.
Print Assumptions C83_success_partial.
(** A run that fails: either the configuration was not readable and nothing changed, or there
    is a first description that could not be opened; exactly the names before it were renewed. *)
Theorem C83_failure_partial : forall i s0 evs s, job_at s0 i JRead -> alone i evs -> runs evs s0 = Some s -> job_at s i JFailed ->
  (at_some_moment evs s0 (fun w => w_config w = None) /\ forall n, serves s n = serves s0 n) \/
  exists done bad rest, at_some_moment evs s0 (fun w => w_config w = Some (done ++ bad :: rest)) /\ at_some_moment evs s0 (fun w => version w bad = None) /\
    forall n, (In n done -> exists v, serves s n = Some v /\ at_some_moment evs s0 (fun w => version w n = Some v)) /\ (~ In n done -> serves s n = serves s0 n).
Proof.
  intros i s0 evs s H0 Ha Hr Hd. destruct (job_progress i s0 H0 evs s Ha Hr) as (j & Hj & Hp). unfold job_at in *. assert (j = JFailed) as -> by congruence. destruct Hp as [[H1 H2]|(c & done & n & todo & -> & H1 & H2 & H3)]; [left; auto|right]. exists done, n, todo. auto.
Qed.
Print Assumptions C83_failure_partial.
(** Whatever happens, with any number of runs at a time: a name once served stays served. *)
Theorem C83_never_vanishes : forall evs s s' n, runs evs s = Some s' -> serves s n <> None -> serves s' n <> None.
Proof.
  induction evs as [|e evs IH]; intros s s' n Hr Hn; [injection Hr as <-; exact Hn|]. cbn [runs] in Hr. destruct (exec e s) as [s1|] eqn:E; [|discriminate]. apply (IH s1 s' n Hr). clear IH Hr.
  unfold serves in *. destruct e as [c|k good| |k]; cbn [exec] in E; try (injection E as <-; exact Hn). destruct (nth_error (s_jobs s) k) as [j|]; [|discriminate]. destruct (job_step (s_world s) (s_served s) j) as [[j' m]|] eqn:Es; [|discriminate]. injection E as <-. cbn [s_served].
  destruct j as [|[|x todo]|x v todo| |]; cbn [job_step] in Es; try discriminate; try (injection Es as _ <-; exact Hn).
  - destruct (w_config _); injection Es as _ <-; exact Hn.
  - destruct (version _ _); injection Es as _ <-; exact Hn.
  - injection Es as _ <-. rewrite mget_mset'. destruct (beqb x n); [discriminate|exact Hn].
Qed.
Print Assumptions C83_never_vanishes.
(** ... and every version served was at some moment in the files. *)
Theorem C83_only_real_versions : forall c files evs s n v, runs evs (initial c files) = Some s -> serves s n = Some v -> at_some_moment evs (initial c files) (fun w => version w n = Some v).
Proof.
  intros c files evs. set (s0 := initial c files).
  enough (forall s, runs evs s0 = Some s -> (forall n v, serves s n = Some v -> at_some_moment evs s0 (fun w => version w n = Some v)) /\ (forall n v todo, In (JInstall n v todo) (s_jobs s) -> at_some_moment evs s0 (fun w => version w n = Some v))) as H by (intros s n v Hr; apply (H s Hr)).
  induction evs as [|e evs IH] using rev_ind; intros s Hr.
  - injection Hr as <-. split; [intros n v H; discriminate|intros n v todo []].
  - rewrite runs_app in Hr. destruct (runs evs s0) as [s1|] eqn:E1; [|discriminate]. cbn [runs] in Hr. destruct (exec e s1) as [s2|] eqn:E2; [|discriminate]. injection Hr as <-. destruct (IH s1 eq_refl) as [I1 I2]. clear IH. unfold serves in *.
    destruct e as [cf|k good| |k]; cbn [exec] in E2.
    + injection E2 as <-. cbn [s_served s_jobs]. split; intros; apply moment_more; eauto.
    + injection E2 as <-. cbn [s_served s_jobs]. split; intros; apply moment_more; eauto.
    + injection E2 as <-. cbn [s_served s_jobs]. split; [intros; apply moment_more; eauto|]. intros n v todo H. apply in_app_or in H. destruct H as [H|[H|[]]]; [apply moment_more; eauto|discriminate].
    + destruct (nth_error (s_jobs s1) k) as [j|] eqn:Ej; [|discriminate]. destruct (job_step (s_world s1) (s_served s1) j) as [[j' m]|] eqn:Es; [|discriminate]. injection E2 as <-. cbn [s_served s_jobs].
      assert (In j (s_jobs s1)) as Hin by (eapply nth_error_In, Ej).
      destruct j as [|[|x todo]|x u todo| |]; cbn [job_step] in Es; try discriminate.
      * split; [|intros n v t H; apply set_job_in in H; destruct H as [H|H]; [apply moment_more; eauto|destruct (w_config _); injection Es as <- _; discriminate]]. intros n v H. apply moment_more, I1. destruct (w_config _); injection Es as _ <-; exact H.
      * injection Es as <- <-. split; [intros; apply moment_more; eauto|]. intros n v t H. apply set_job_in in H. destruct H as [H|H]; [apply moment_more; eauto|discriminate].
      * destruct (version (s_world s1) x) as [u|] eqn:Ev; injection Es as <- <-; (split; [intros; apply moment_more; eauto|]); intros n v t H; apply set_job_in in H; (destruct H as [H|H]; [apply moment_more; eauto|]); [|discriminate].
        injection H as -> -> ->. eapply moment_end; eauto.
      * injection Es as <- <-. split.
        -- intros n v H. rewrite mget_mset' in H. destruct (beqb x n) eqn:En; [|apply moment_more; eauto]. apply beqb_ok in En. subst n. injection H as <-. apply moment_more. eauto.
        -- intros n v t H. apply set_job_in in H. destruct H as [H|H]; [apply moment_more; eauto|discriminate].
Qed.
Print Assumptions C83_only_real_versions.

(** Runs one at a time: no run starts while another has not ended. *)
Fixpoint one_at_a_time (evs : list event) (s : state) : Prop :=
  match evs with
  | [] => True
  | e :: r => (e = EStart -> forallb ended (s_jobs s) = true) /\ forall s', exec e s = Some s' -> one_at_a_time r s'
  end.
Definition le_opt (o : option Z) (v : Z) : Prop := forall u, o = Some u -> u <= v.
Record Fresh (s : state) : Prop := {
  f_files : forall n v, version (s_world s) n = Some v -> v <= w_now (s_world s);
  f_served : forall n u, serves s n = Some u -> u <= w_now (s_world s) /\ forall v, version (s_world s) n = Some v -> u <= v;
  f_jobs : forall i k, (exists j, job_at s i j /\ ended j = false) -> (exists j, job_at s k j /\ ended j = false) -> i = k;
  f_pending : forall i n v t, job_at s i (JInstall n v t) -> le_opt (serves s n) v /\ v <= w_now (s_world s) /\ forall u, version (s_world s) n = Some u -> v <= u
}.
Lemma all_ended s i : forallb ended (s_jobs s) = true -> ~ exists j, job_at s i j /\ ended j = false.
Proof. intros H (j & Hj & He). rewrite forallb_forall in H. apply nth_error_In in Hj. apply H in Hj. congruence. Qed.
Lemma fresh_step e s s' : Fresh s -> (e = EStart -> forallb ended (s_jobs s) = true) -> exec e s = Some s' -> Fresh s' /\ forall n u, serves s n = Some u -> exists v, serves s' n = Some v /\ u <= v.
Proof.
  intros HF Hone E. pose proof HF as [F1 F2 F3 F4]. unfold serves, job_at, version in *. destruct e as [c|k good| |i]; cbn [exec] in E.
  - injection E as <-. split; [|eauto with zarith]. constructor; unfold serves, job_at, version; cbn [s_world s_served s_jobs w_now w_config w_files].
    + intros n v H. apply F1 in H. lia.
    + intros n u H. destruct (F2 n u H) as [H1 H2]. split; [lia|exact H2].
    + exact F3.
    + intros i n v t H. destruct (F4 i n v t H) as (H1 & H2 & H3). split; [exact H1|]. split; [lia|exact H3].
  - injection E as <-. split; [|eauto with zarith]. set (now := w_now (s_world s) + 1).
    assert (forall n, mget beqb (mset beqb (w_files (s_world s)) k (if good then Some now else None)) n = if beqb k n then Some (if good then Some now else None) else mget beqb (w_files (s_world s)) n) as Hm by (intros n; apply (mget_mset _ beqb_ok)).
    constructor; unfold serves, job_at, version; cbn [s_world s_served s_jobs w_now w_config w_files]; fold now.
    + intros n v. rewrite Hm. destruct (beqb k n); [destruct good; [intros [= <-]; lia|discriminate]|]. intros H. apply F1 in H. lia.
    + intros n u H. destruct (F2 n u H) as [H1 H2]. split; [lia|]. intros v. rewrite Hm. destruct (beqb k n); [destruct good; [intros [= <-]; lia|discriminate]|apply H2].
    + exact F3.
    + intros i n v t H. destruct (F4 i n v t H) as (H1 & H2 & H3). split; [exact H1|]. split; [lia|]. intros u. rewrite Hm. destruct (beqb k n); [destruct good; [intros [= <-]; lia|discriminate]|apply H3].
  - injection E as <-. split; [|eauto with zarith]. specialize (Hone eq_refl). constructor; unfold serves, job_at, version; cbn [s_world s_served s_jobs w_now w_config w_files]; [exact F1|exact F2| |].
    + assert (forall i, (exists j, nth_error (s_jobs s ++ [JRead]) i = Some j /\ ended j = false) -> i = length (s_jobs s)) as H.
      { intros i (j & Hj & He). destruct (Nat.lt_ge_cases i (length (s_jobs s))) as [Hl|Hl].
        - exfalso. rewrite nth_error_app1 in Hj by exact Hl. apply (all_ended s i Hone). exists j. auto.
        - rewrite nth_error_app2 in Hj by exact Hl. destruct (i - length (s_jobs s))%nat as [|k] eqn:Ek; [lia|]. destruct k; discriminate. }
      intros i k Hi Hk. rewrite (H i Hi), (H k Hk). reflexivity.
    + intros i n v t H. apply (F4 i n v t). destruct (Nat.lt_ge_cases i (length (s_jobs s))) as [Hl|Hl]; [rewrite nth_error_app1 in H by exact Hl; exact H|].
      rewrite nth_error_app2 in H by exact Hl. destruct (i - length (s_jobs s))%nat as [|[|k]]; discriminate.
  - destruct (nth_error (s_jobs s) i) as [j|] eqn:Ej; [|discriminate]. destruct (job_step (s_world s) (s_served s) j) as [[j' m]|] eqn:Es; [|discriminate]. injection E as <-.
    assert (ended j = false) as He by (destruct j; [reflexivity|reflexivity|reflexivity|discriminate|discriminate]).
    assert (forall k j0, nth_error (set_job i j' (s_jobs s)) k = Some j0 -> ended j0 = false -> k = i /\ j0 = j') as Hk.
    { intros k j0 H H0. destruct (Nat.eq_dec i k) as [<- |Hne]; [rewrite (set_job_same i j' _ j Ej) in H; injection H as <-; auto|]. rewrite set_job_other in H by exact Hne. exfalso. apply Hne. apply (F3 i k); [exists j; auto|exists j0; auto]. }
    assert (forall k1 k2, (exists j0, nth_error (set_job i j' (s_jobs s)) k1 = Some j0 /\ ended j0 = false) -> (exists j0, nth_error (set_job i j' (s_jobs s)) k2 = Some j0 /\ ended j0 = false) -> k1 = k2) as HF3.
    { intros k1 k2 (j1 & H1 & H1') (j2 & H2 & H2'). destruct (Hk _ _ H1 H1') as [-> _]. destruct (Hk _ _ H2 H2') as [-> _]. reflexivity. }
    assert (m = s_served s -> (forall n v t, j' = JInstall n v t -> le_opt (mget beqb m n) v /\ v <= w_now (s_world s) /\ forall u, version (s_world s) n = Some u -> v <= u) -> Fresh (mkState (s_world s) m (set_job i j' (s_jobs s))) /\ forall n u, mget beqb (s_served s) n = Some u -> exists v, mget beqb m n = Some v /\ u <= v) as Hsame.
    { intros -> Hp. split; [|eauto with zarith]. constructor; unfold serves, job_at; cbn [s_world s_served s_jobs]; [exact F1|exact F2|exact HF3|]. intros k n v t H. destruct (Hk _ _ H eq_refl) as [-> E']. apply (Hp n v t). symmetry. exact E'. }
    destruct j as [|[|x todo]|x u todo| |]; cbn [job_step] in Es; try discriminate.
    + apply Hsame; [destruct (w_config _); congruence|]. intros n v t ->. destruct (w_config _); discriminate.
    + apply Hsame; [congruence|]. intros n v t ->. discriminate.
    + destruct (version (s_world s) x) as [v|] eqn:Ev; injection Es as <- <-; (apply Hsame; [reflexivity|]); intros n v' t [= <- <- <-].
      split; [intros u Hu; apply (F2 x u Hu); exact Ev|]. split; [apply (F1 x v Ev)|]. intros w Hw. rewrite Ev in Hw. injection Hw as <-. lia.
    + injection Es as <- <-. destruct (F4 i x u todo Ej) as (H1 & H2 & H3). split.
      * constructor; unfold serves, job_at; cbn [s_world s_served s_jobs]; [exact F1| |exact HF3|].
        -- intros n w. rewrite mget_mset'. destruct (beqb x n) eqn:En; [|apply F2]. apply beqb_ok in En. subst n. intros [= <-]. split; [exact H2|exact H3].
        -- intros k n v t H. destruct (Hk _ _ H eq_refl) as [_ E']. discriminate.
      * intros n w Hw. cbn [s_served]. rewrite mget_mset'. destruct (beqb x n) eqn:En; [|eauto with zarith]. apply beqb_ok in En. subst n. exists u. split; [reflexivity|apply H1, Hw].
Qed.
(** If runs never overlap, what is served under a name never goes back to an older version. *)
Theorem C83_monotone_partial : forall c files a b s s' n u, one_at_a_time (a ++ b) (initial c files) ->
  runs a (initial c files) = Some s -> runs b s = Some s' -> serves s n = Some u -> exists v, serves s' n = Some v /\ u <= v.
Proof.
  intros c files a b s s' n u Hone Ha Hb Hu.
  assert (Fresh (initial c files)) as H0.
  { assert (forall n v, version (s_world (initial c files)) n = Some v -> v = 0) as Hz.
    { intros k v. unfold version, initial. cbn [s_world w_files]. clear. induction files as [|[x g] f IH]; [discriminate|]. cbn [map mget fst snd]. destruct (beqb x k); [destruct g; congruence|exact IH]. }
    constructor; unfold serves, job_at; cbn [initial s_served s_jobs mget].
    - intros k v H. apply Hz in H. cbn. lia.
    - intros k v H. discriminate.
    - intros i k (j & Hj & _). destruct i; discriminate.
    - intros i k v t H. destruct i; discriminate. }
  assert (forall l m s1 s2, Fresh s1 -> one_at_a_time (l ++ m) s1 -> runs l s1 = Some s2 -> Fresh s2 /\ one_at_a_time m s2 /\ forall k x, serves s1 k = Some x -> exists y, serves s2 k = Some y /\ x <= y) as Hgo.
  { induction l as [|e l IH]; intros m s1 s2 HF H1 H2; [injection H2 as <-; split; [exact HF|]; split; [exact H1|]; intros; eexists; split; [eassumption|lia]|]. cbn [runs] in H2. destruct (exec e s1) as [s3|] eqn:E; [|discriminate]. destruct H1 as [Hs Hn].
    destruct (fresh_step e s1 s3 HF Hs E) as [HF3 Hmon]. destruct (IH m s3 s2 HF3 (Hn s3 E) H2) as (HF2 & Hm & Hmon2). split; [exact HF2|]. split; [exact Hm|]. intros k x Hx. destruct (Hmon k x Hx) as (y & Hy & Hxy). destruct (Hmon2 k y Hy) as (z & Hz & Hyz). exists z. split; [exact Hz|lia]. }
  destruct (Hgo a b _ _ H0 Hone Ha) as (HF & Hm & _). rewrite <- (app_nil_r b) in Hm. destruct (Hgo b [] _ _ HF Hm Hb) as (_ & _ & H). apply H, Hu.
Qed.
Print Assumptions C83_monotone_partial.
(** Nothing blocks a run, and it ends after at most two steps per configured name and two more. *)
Definition work (j : job) : Z := match j with JRead => 0 | JOpen todo => 2 * zlen todo + 1 | JInstall _ _ todo => 2 * zlen todo + 2 | _ => 0 end.
Theorem C83_ends : forall s i j, job_at s i j -> ended j = false ->
  exists s' j', exec (EJob i) s = Some s' /\ job_at s' i j' /\ (j = JRead \/ work j' < work j) /\ (j = JRead -> ended j' = true \/ exists c, w_config (s_world s) = Some c /\ work j' = 2 * zlen c + 1).
Proof.
  intros s i j Hj He. unfold job_at in *. cbn [exec]. rewrite Hj. destruct j as [|[|x todo]|x u todo| |]; cbn [job_step]; try discriminate.
  - destruct (w_config (s_world s)) as [c|] eqn:Ec; eexists; eexists; (split; [reflexivity|]); (split; [cbn [s_jobs]; eapply set_job_same, Hj|]); (split; [left; reflexivity|]); intros _; [right; exists c; split; reflexivity|left; reflexivity].
  - eexists; eexists; (split; [reflexivity|]); (split; [cbn [s_jobs]; eapply set_job_same, Hj|]); (split; [right; cbn; lia|]); discriminate.
  - destruct (version (s_world s) x); eexists; eexists; (split; [reflexivity|]); (split; [cbn [s_jobs]; eapply set_job_same, Hj|]); (split; [right; cbn [work]; rewrite zlen_cons; pose proof (zlen_nonneg todo); lia|]); discriminate.
  - eexists; eexists; (split; [reflexivity|]); (split; [cbn [s_jobs]; eapply set_job_same, Hj|]); (split; [right; cbn [work]; lia|]); discriminate.
Qed.
Print Assumptions C83_ends.

(** ** What does not hold *)
(** A successful run does not make a name disappear that was taken out of the configuration. *)
Theorem C83_removed_refuted : exists evs s, runs evs (initial (Some [bs "a"; bs "b"]) [(bs "a", true); (bs "b", true)]) = Some s /\
  w_config (s_world s) = Some [bs "a"] /\ s_jobs s = [JDone; JDone] /\ serves s (bs "b") <> None.
Proof.
  exists [EStart; EJob 0; EJob 0; EJob 0; EJob 0; EJob 0; EJob 0; EConfig (Some [bs "a"]); EStart; EJob 1; EJob 1; EJob 1; EJob 1]. eexists. split; [vm_compute; reflexivity|]. split; [reflexivity|]. split; [reflexivity|vm_compute; discriminate].
Qed.
Print Assumptions C83_removed_refuted.
(** A failed run is not without effect: "a" is renewed, "b" is not. *)
Theorem C83_all_or_nothing_refuted : exists a b s s', runs a (initial (Some [bs "a"; bs "b"]) [(bs "a", true); (bs "b", true)]) = Some s /\ runs b s = Some s' /\
  s_jobs s = [JDone] /\ s_jobs s' = [JDone; JFailed] /\ serves s (bs "a") = Some 0 /\ serves s' (bs "a") = Some 1 /\ serves s' (bs "b") = Some 0.
Proof.
  exists [EStart; EJob 0; EJob 0; EJob 0; EJob 0; EJob 0; EJob 0], [EFiles (bs "a") true; EFiles (bs "b") false; EStart; EJob 1; EJob 1; EJob 1; EJob 1]. eexists. eexists. split; [vm_compute; reflexivity|]. split; [vm_compute; reflexivity|]. repeat split.
Qed.
Print Assumptions C83_all_or_nothing_refuted.
(** Two runs at a time: both succeed, the files do not change any more after the second one
    has started, and an older version is served in the end. *)
Theorem C83_overlap_refuted : exists a b s1 s, runs a (initial (Some [bs "a"]) [(bs "a", true)]) = Some s1 /\ runs (EStart :: b) s1 = Some s /\ (forall n g, ~ In (EFiles n g) b) /\
  s_jobs s = [JDone; JDone] /\ version (s_world s) (bs "a") = Some 1 /\ serves s (bs "a") = Some 0.
Proof.
  exists [EStart; EJob 0; EJob 0; EFiles (bs "a") true], [EJob 1; EJob 1; EJob 1; EJob 1; EJob 0; EJob 0]. eexists. eexists. split; [vm_compute; reflexivity|]. split; [vm_compute; reflexivity|]. split; [|repeat split]. intros n g H. cbn in H. intuition discriminate.
Qed.
Print Assumptions C83_overlap_refuted.

Definition demo83 := [EStart; EJob 0; EJob 0; EFiles (bs "b") true; EJob 0; EJob 0; EJob 0; EJob 0]%nat.
Example C83_nonvacuous : exists s1 s, runs [EStart] (initial (Some [bs "a"; bs "b"]) [(bs "a", true); (bs "b", false)]) = Some s1 /\ job_at s1 0 JRead /\ alone 0 (tl demo83) /\ runs (tl demo83) s1 = Some s /\ job_at s 0 JDone /\
  serves s (bs "a") = Some 0 /\ serves s (bs "b") = Some 1 /\ one_at_a_time demo83 (initial (Some [bs "a"; bs "b"]) [(bs "a", true); (bs "b", false)]).
Proof.
  eexists. eexists. split; [vm_compute; reflexivity|]. split; [reflexivity|]. split; [intros k H; cbn in H; intuition congruence|]. split; [vm_compute; reflexivity|]. split; [reflexivity|]. split; [reflexivity|]. split; [reflexivity|].
  cbn [one_at_a_time demo83]. repeat (split; [first [discriminate|reflexivity]|]; intros ?s' E; vm_compute in E; injection E as <-). exact I.
Qed.
Example C83_failed_nonvacuous : exists s1 s, runs [EStart] (initial (Some [bs "a"; bs "b"]) [(bs "a", true); (bs "b", false)]) = Some s1 /\ job_at s1 0 JRead /\ runs [EJob 0; EJob 0; EJob 0; EJob 0] s1 = Some s /\ job_at s 0 JFailed /\ serves s (bs "a") = Some 0 /\ serves s (bs "b") = None.
Proof. eexists. eexists. split; [vm_compute; reflexivity|]. split; [reflexivity|]. split; [vm_compute; reflexivity|]. split; [reflexivity|]. split; reflexivity. Qed.
