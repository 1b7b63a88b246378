(** C86: signals and shutdown of the search server. *)
From Coq Require Import Lia.
From Verif Require Import Base ServerLife.

Definition alive (s : state) : Prop := s_exit s = None.
Definition reachable (s : state) : Prop := exists a, runs a start = Some s.
(** The process has asked for both kinds of signals. *)
Definition listening (s : state) : Prop := s_signals s = AtSelect \/ s_signals s = Reindexing.

Lemma runs_app a b s : runs (a ++ b) s = match runs a s with Some s' => runs b s' | None => None end.
Proof. revert s. induction a as [|e a IH]; intros s; [reflexivity|]. cbn [runs app]. destruct (exec e s); [apply IH|reflexivity]. Qed.

Definition early (m : main_at) : bool := match m with AtPid | AtConfigure | AtGo => true | _ => false end.
Definition started (g : signals_at) : bool := match g with NotStarted => false | _ => true end.
Definition watches (m : main_at) : bool := match m with AtListen | Serving => true | _ => false end.
Definition nil_exit (x : option exit) : bool := match x with Some ReturnedNil => true | _ => false end.
Record Inv (s : state) : Prop := {
  i_early : started (s_signals s) = negb (early (s_main s));
  i_watch : s_watching s = watches (s_main s);
  i_shut : implb (s_shutdown s) (s_cancelled s && s_watching s) = true;
  i_nil : implb (nil_exit (s_exit s)) (s_shutdown s) = true;
  i_cancel : implb (s_cancelled s || s_term s || s_hup s) (started (s_signals s)) = true;
  i_pid : s_pid s = negb (match s_main s with AtPid => true | _ => false end) }.
(* all the cases of a step *)
Ltac open s e E :=
  let m := fresh "m" in let g := fresh "g" in let h := fresh "h" in let t := fresh "t" in let c := fresh "c" in let w := fresh "w" in let sh := fresh "sh" in let fl := fresh "fl" in let an := fresh "an" in let pi := fresh "pi" in let ex := fresh "ex" in
  destruct s as [m g h t c w sh fl an pi ex]; cbn [s_main s_signals s_hup s_term s_cancelled s_watching s_shutdown s_inflight s_answered s_pid s_exit] in *;
  unfold exec in E; cbn [s_exit] in E; destruct ex; [discriminate E|];
  destruct e as [[|]|[|]| | | | |?r|?r]; destruct m; destruct g; try discriminate;
  cbn [deliver main_step set_main set_signals leave s_main s_signals s_hup s_term s_cancelled s_watching s_shutdown s_inflight s_answered s_pid s_exit] in E; try discriminate E;
  repeat match type of E with (if ?x then _ else _) = Some _ => destruct x eqn:?; try discriminate E end;
  injection E as <-; cbn [s_main s_signals s_hup s_term s_cancelled s_watching s_shutdown s_inflight s_answered s_pid s_exit set_main set_signals leave] in *.
Lemma inv_step e s s' : exec e s = Some s' -> Inv s -> Inv s'.
Proof.
  intros E [H1 H2 H3 H4 H5 H6].
  open s e E; constructor; cbn [s_main s_signals s_hup s_term s_cancelled s_watching s_shutdown s_inflight s_answered s_pid s_exit set_main set_signals leave];
    cbn [early started watches nil_exit negb andb] in *; try reflexivity; try assumption; try discriminate; subst;
    repeat match goal with b : bool |- _ => destruct b end; cbn in *; try reflexivity; try discriminate.
Qed.
Lemma inv_runs a s s' : runs a s = Some s' -> Inv s -> Inv s'.
Proof. revert s. induction a as [|e a IH]; intros s H HI; [injection H as <-; exact HI|]. cbn [runs] in H. destruct (exec e s) as [s1|] eqn:E; [|discriminate]. apply (IH s1 H). eapply inv_step; eassumption. Qed.
Lemma inv_reach s : reachable s -> Inv s.
Proof. intros (a & H). apply (inv_runs _ _ _ H). constructor; reflexivity. Qed.
Lemma hup_stays e s s' : exec e s = Some s' -> e <> TakeHup -> s_hup s = true -> s_hup s' = true.
Proof. intros E Hne H. open s e E; congruence. Qed.
Lemma term_stays e s s' : exec e s = Some s' -> s_cancelled s = true \/ s_term s = true -> s_cancelled s' = true \/ s_term s' = true.
Proof. intros E H. open s e E; tauto. Qed.
Lemma listening_started s : listening s -> started (s_signals s) = true.
Proof. intros [-> | ->]; reflexivity. Qed.

(** ** C86 *)
(** No SIGHUP is lost: after one that reaches a process which listens to signals, as long as the
    process lives, a reindex run has begun afterwards or is still due, and a run that is due can
    begin as soon as the one in progress, if there is one, has ended. *)
Theorem C86_sighup : forall a s s1 b s2, runs a start = Some s -> listening s -> exec (Sig Hup) s = Some s1 -> runs b s1 = Some s2 -> alive s2 ->
  (exists b1 b2, b = b1 ++ TakeHup :: b2) \/
  (s_hup s2 = true /\ ((s_signals s2 = AtSelect /\ exists s3, runs [TakeHup] s2 = Some s3) \/ (s_signals s2 = Reindexing /\ exists s3, runs [Listen; TakeHup] s2 = Some s3))).
Proof.
  intros a s s1 b s2 Ha Hl E Hb Hal.
  assert (listening s1 /\ s_hup s1 = true) as [Hl1 Hh].
  { unfold exec in E. destruct (s_exit s); [discriminate|]. unfold deliver in E. destruct Hl as [Hl|Hl]; rewrite Hl in E; injection E as <-; unfold listening; cbn; auto. }
  assert (Inv s1) as HI. { eapply inv_step; [exact E|]. apply inv_reach. exists a. exact Ha. }
  clear Ha E Hl s a. revert s1 Hb Hl1 Hh HI. induction b as [|e b IH]; intros s1 Hb Hl Hh HI.
  - injection Hb as <-. right. split; [exact Hh|]. unfold alive in Hal. destruct Hl as [Hl|Hl]; [left|right]; (split; [exact Hl|]); cbn [runs]; unfold exec; rewrite Hal, Hl.
    + rewrite Hh. eauto.
    + cbn [runs]. cbn [s_exit set_signals s_signals s_hup]. rewrite Hal, Hh. eauto.
  - cbn [runs] in Hb. destruct (exec e s1) as [s'|] eqn:E; [|discriminate].
    assert (e = TakeHup \/ e <> TakeHup) as [->|Hne] by (destruct e; (left; reflexivity) || (right; discriminate)); [left; exists [], b; reflexivity|].
    assert (listening s') as Hl'.
    { destruct HI as [HI1 _ _ _ _ _]. clear - E Hl HI1 Hne. unfold listening in *. open s1 e E; auto; destruct Hl; discriminate. }
    destruct (IH s' Hb Hl' (hup_stays _ _ _ E Hne Hh) (inv_step _ _ _ E HI)) as [(b1 & b2 & ->)|H]; [left; exists (e :: b1), b2; reflexivity|right; exact H].
Qed.
Print Assumptions C86_sighup.

(** No SIGTERM is lost either: the context is cancelled or the signal is waiting for the select. *)
Theorem C86_sigterm : forall s s1 b s2, reachable s -> listening s -> exec (Sig Term) s = Some s1 -> runs b s1 = Some s2 -> s_cancelled s2 = true \/ s_term s2 = true.
Proof.
  intros s s1 b s2 Ha Hl E Hb. assert (s_cancelled s1 = true \/ s_term s1 = true) as H.
  { right. unfold exec in E. destruct (s_exit s); [discriminate|]. unfold deliver in E. destruct Hl as [Hl|Hl]; rewrite Hl in E; injection E as <-; reflexivity. }
  clear E Hl Ha. revert s1 Hb H. induction b as [|e b IH]; intros s1 Hb H; [injection Hb as <-; exact H|]. cbn [runs] in Hb. destruct (exec e s1) as [s'|] eqn:E; [|discriminate]. apply (IH s' Hb). eapply term_stays; eassumption.
Qed.
Print Assumptions C86_sigterm.
(** Once it is cancelled nothing keeps the process from ending: at most three steps of its own
    goroutines, whatever requests are running. *)
Theorem C86_ends : forall s, reachable s -> alive s -> s_cancelled s = true -> exists b s', runs b s = Some s' /\ (length b <= 3)%nat /\ s_exit s' = Some ReturnedNil /\ (forall e, In e b -> e = Watch \/ e = Main true).
Proof.
  intros s Hr Hal Hc. pose proof (inv_reach s Hr) as HI.
  destruct HI as [H1 H2 H3 H4 H5 H6]. destruct s as [m g h t c w sh fl an pi ex]. unfold alive in Hal. cbn [s_main s_signals s_hup s_term s_cancelled s_watching s_shutdown s_inflight s_answered s_pid s_exit] in *. subst c ex.
  assert (Hm : m = AtServer \/ m = AtListen \/ m = Serving) by (cbn in H5; rewrite H5 in H1; destruct m; try discriminate; tauto).
  destruct sh.
  - destruct Hm as [->|[->| ->]].
    + exfalso. cbn in H2. subst w. discriminate.
    + exists [Main true]. eexists. split; [reflexivity|]. split; [cbn; lia|]. split; [reflexivity|]. intros e [<- |[]]; auto.
    + exists [Main true]. eexists. split; [reflexivity|]. split; [cbn; lia|]. split; [reflexivity|]. intros e [<- |[]]; auto.
  - destruct Hm as [->|[->| ->]].
    + exists [Main true; Watch; Main true]. eexists. split; [reflexivity|]. split; [cbn; lia|]. split; [reflexivity|]. intros e [<- |[<- |[<- |[]]]]; auto.
    + cbn in H2. subst w. exists [Watch; Main true]. eexists. split; [reflexivity|]. split; [cbn; lia|]. split; [reflexivity|]. intros e [<- |[<- |[]]]; auto.
    + cbn in H2. subst w. exists [Watch; Main true]. eexists. split; [reflexivity|]. split; [cbn; lia|]. split; [reflexivity|]. intros e [<- |[<- |[]]]; auto.
Qed.
Print Assumptions C86_ends.
(** The server accepts no request before its dictionaries are loaded, and none after shutdown began. *)
Theorem C86_accepts : forall s r s', reachable s -> exec (Accept r) s = Some s' -> s_main s = Serving /\ s_signals s <> NotStarted /\ s_shutdown s = false.
Proof.
  intros s r s' Hr E. pose proof (inv_reach s Hr) as HI. unfold exec in E. destruct (s_exit s); [discriminate|]. destruct (s_main s) eqn:Em; try discriminate. destruct (s_shutdown s) eqn:Es; [discriminate|]. split; [reflexivity|]. split; [|reflexivity]. pose proof (i_early s HI) as H. rewrite Em in H. destruct (s_signals s); discriminate.
Qed.
Print Assumptions C86_accepts.
(** Every request the server accepts is being worked on until it is answered, and answered once. *)
Definition accepted (r : nat) (a : list event) : nat := length (filter (fun e => match e with Accept x => Nat.eqb x r | _ => false end) a).
Definition occurs (r : nat) (l : list nat) : nat := length (filter (Nat.eqb r) l).
Lemma without_occurs r x l : existsb (Nat.eqb r) l = true -> (occurs x (without r l) + occurs x [r])%nat = occurs x l.
Proof.
  induction l as [|y l IH]; intros H; [discriminate|]. cbn [existsb without] in *. destruct (Nat.eqb_spec r y) as [->|Hne].
  - unfold occurs. cbn [filter]. destruct (Nat.eqb x y); cbn [length]; lia.
  - specialize (IH H). unfold occurs in *. cbn [filter] in *. destruct (Nat.eqb x y), (Nat.eqb x r); cbn [length] in *; lia.
Qed.
Theorem C86_requests : forall a s r, runs a start = Some s -> accepted r a = (occurs r (s_inflight s) + occurs r (s_answered s))%nat.
Proof.
  intros a. induction a as [|e a IH] using rev_ind; intros s r H; [injection H as <-; reflexivity|]. rewrite runs_app in H. destruct (runs a start) as [s0|] eqn:E0; [|discriminate]. cbn [runs] in H. destruct (exec e s0) as [s1|] eqn:E; [|discriminate]. injection H as <-. unfold accepted in *. rewrite filter_app, app_length, (IH s0 r eq_refl). clear IH E0.
  open s0 e E; cbn [filter length]; try lia.
  all: try (match goal with H : existsb _ _ = true |- _ => pose proof (without_occurs _ r _ H) as Hw end; unfold occurs in *; cbn [filter] in *; destruct (Nat.eqb r _); cbn [length] in *; lia).
  all: unfold occurs; cbn [filter]; rewrite (Nat.eqb_sym r); destruct (Nat.eqb _ r); cbn [length]; lia.
Qed.
Print Assumptions C86_requests.
(** It ends with success only if it was asked to, and only a signal that nobody listens to kills it. *)
Theorem C86_why_it_ends : forall a s, runs a start = Some s ->
  (s_exit s = Some ReturnedNil -> In (Sig Term) a) /\
  (s_exit s = Some Killed -> exists b s0 x, a = b ++ [Sig x] /\ runs b start = Some s0 /\ ~ listening s0) /\
  (s_exit s = Some ReturnedError -> In (Main false) a).
Proof.
  intros a s Ha. assert (forall a s, runs a start = Some s -> s_cancelled s = true \/ s_term s = true -> In (Sig Term) a) as Hc.
  { clear. intros a. induction a as [|e a IH] using rev_ind; intros s H Hc; [injection H as <-; cbn in Hc; destruct Hc; discriminate|]. rewrite runs_app in H. destruct (runs a start) as [s0|] eqn:E0; [|discriminate]. cbn [runs] in H. destruct (exec e s0) as [s1|] eqn:E; [|discriminate]. injection H as <-. apply in_app_iff.
    assert (e = Sig Term \/ s_cancelled s0 = true \/ s_term s0 = true) as [->|H]; [|right; left; reflexivity|left; eapply IH; [reflexivity|exact H]].
    clear - E Hc. open s0 e E; auto; destruct Hc; auto; discriminate. }
  split; [|split].
  - intros Hx. assert (Inv s) as HI by (apply inv_reach; exists a; exact Ha). eapply Hc; [exact Ha|]. left. pose proof (i_nil s HI) as H1. rewrite Hx in H1. cbn in H1. pose proof (i_shut s HI) as H2. rewrite H1 in H2. cbn in H2. apply andb_true_iff in H2. apply H2.
  - intros Hx. destruct a as [|e a _] using rev_ind; [injection Ha as <-; discriminate|]. rewrite runs_app in Ha. destruct (runs a start) as [s0|] eqn:E0; [|discriminate]. cbn [runs] in Ha. destruct (exec e s0) as [s1|] eqn:E; [|discriminate]. injection Ha as ->.
    exists a, s0. assert (exists x, e = Sig x /\ ~ listening s0) as (x & -> & Hl); [|exists x; split; [reflexivity|split; [exact E0|exact Hl]]].
    clear - E Hx. unfold listening. open s0 e E; try discriminate;
      eexists; (split; [reflexivity|]); intros [?|?]; discriminate.
  - intros Hx. destruct a as [|e a _] using rev_ind; [injection Ha as <-; discriminate|]. rewrite runs_app in Ha. destruct (runs a start) as [s0|] eqn:E0; [|discriminate]. cbn [runs] in Ha. destruct (exec e s0) as [s1|] eqn:E; [|discriminate]. injection Ha as ->. apply in_app_iff. right. left.
    clear - E Hx. open s0 e E; try discriminate; reflexivity.
Qed.
Print Assumptions C86_why_it_ends.

(** ** What does not hold *)
(** The shutdown is not graceful: the process ends with success while a request it accepted has
    had no answer. *)
Theorem C86_graceful_refuted : exists a s r, runs a start = Some s /\ s_exit s = Some ReturnedNil /\ In (Accept r) a /\ In r (s_inflight s) /\ ~ In r (s_answered s).
Proof.
  set (a := [Main true; Main true; Main true; Main true; Listen; Listen; Main true; Accept 7; Sig Term; TakeTerm; Watch; Main true]).
  destruct (runs a start) as [s|] eqn:E; [|vm_compute in E; discriminate].
  exists a, s, 7%nat. vm_compute in E. injection E as <-. split; [reflexivity|]. split; [reflexivity|].
  split; [unfold a; do 7 right; left; reflexivity|]. split; [left; reflexivity|intros []].
Qed.
Print Assumptions C86_graceful_refuted.
(** The PID file is there before the process listens: the indexer's SIGHUP kills a server that is
    still loading its dictionaries, or has just loaded them. *)
Theorem C86_early_sighup_refuted : forall s, reachable s -> alive s -> s_main s = AtConfigure \/ s_main s = AtGo -> s_pid s = true /\ exists s', exec (Sig Hup) s = Some s' /\ s_exit s' = Some Killed.
Proof.
  intros s Hr Hal Hm. pose proof (inv_reach s Hr) as HI. split.
  - rewrite (i_pid s HI). destruct Hm as [-> | ->]; reflexivity.
  - unfold exec. rewrite Hal. eexists. split; [reflexivity|]. unfold deliver. pose proof (i_early s HI) as H. destruct Hm as [Hm|Hm]; rewrite Hm in H; destruct (s_signals s); try discriminate; reflexivity.
Qed.
Print Assumptions C86_early_sighup_refuted.
(** A SIGTERM waits for the reindex run in progress, however long it takes. *)
Theorem C86_prompt_refuted : forall b s s', s_signals s = Reindexing -> s_cancelled s = false -> s_shutdown s = false -> ~ In Listen b -> reachable s -> runs b s = Some s' -> alive s' -> s_signals s' = Reindexing /\ s_cancelled s' = false /\ s_shutdown s' = false.
Proof.
  induction b as [|e b IH]; intros s s' Hs Hc Hsh Hn Hr H Hal; [injection H as <-; auto|]. cbn [runs] in H. destruct (exec e s) as [s1|] eqn:E; [|discriminate].
  assert (Inv s) as HI by (apply inv_reach, Hr). assert (reachable s1) as Hr1 by (destruct Hr as (a & Ha); exists (a ++ [e]); rewrite runs_app, Ha; cbn [runs]; rewrite E; reflexivity).
  assert (e <> Listen) as He by (intros ->; apply Hn; left; reflexivity).
  assert (s_signals s1 = Reindexing /\ s_cancelled s1 = false /\ s_shutdown s1 = false) as (H1 & H2 & H3); [|apply (IH s1 s'); try assumption; intros Hi; apply Hn; right; exact Hi].
  clear - E Hs Hc Hsh HI He. destruct HI as [I1 I2 I3 _ _ _]. open s e E; try congruence; auto.
  all: try (rewrite Hc, ?andb_false_r in *; discriminate).
  all: congruence.
Qed.
Print Assumptions C86_prompt_refuted.

Definition demo86 := [Main true; Main true; Main true; Main true; Listen; Listen; Main true; Accept 1; Sig Hup; TakeHup; Sig Hup; Sig Hup; Accept 2; Answer 1].
Definition after86 (s : state) (b : list event) : state := match runs b s with Some s' => s' | None => start end.
Example C86_nonvacuous : let s := after86 start demo86 in let s1 := after86 s [Sig Hup] in let s2 := after86 s1 [Answer 2; Listen; TakeHup; Listen; Sig Term; TakeTerm] in
  runs demo86 start = Some s /\ listening s /\ exec (Sig Hup) s = Some s1 /\ s_hup s1 = true /\
  runs [Answer 2; Listen; TakeHup; Listen; Sig Term; TakeTerm] s1 = Some s2 /\ alive s2 /\ s_cancelled s2 = true.
Proof.
  cbv zeta. split; [vm_compute; reflexivity|]. split; [right; vm_compute; reflexivity|]. split; [vm_compute; reflexivity|]. split; [vm_compute; reflexivity|].
  split; [vm_compute; reflexivity|]. split; vm_compute; reflexivity.
Qed.
