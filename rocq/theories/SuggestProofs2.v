(** Termination, mutual exclusion and absence of deadlock of a Suggest call. *)
From Coq Require Import ZifyBool Permutation Sorted.
From Verif Require Import Base BaseLemmas GoMap Store Postings PostingsSpec Merger MergerSpec MergerProofs Index IndexSpec IndexProofs P_IndexLemmas
  Float64 Metric Heap HeapProofs TopK TopKSpec TopKProofs Suggest SuggestSpec SuggestProofs.
Local Open Scope Z_scope.

(** the worker holds the lock *)
Definition holder (w : wst) : bool := match w with WMerge _ _ | WStore | WUnlock => true | _ => false end.
Definition lock_ok (s : st) : Prop := zlen (filter holder (s_ws s)) = if s_locked s then 1 else 0.
Lemma filter_set (w w' : wst) i ws : nth_error ws i = Some w ->
  zlen (filter holder (set_nth_opt i w' ws)) = zlen (filter holder ws) - (if holder w then 1 else 0) + (if holder w' then 1 else 0).
Proof.
  intros H. destruct (set_nth_split w' w i ws H) as (l1 & l2 & -> & ->). rewrite !filter_app. cbn [filter]. rewrite !zlen_app'. destruct (holder w), (holder w'); rewrite ?zlen_cons; lia.
Qed.

Section T.
Context (rb : roaring) (srt : list iter -> list iter).
Context (ix : list (option inverted)) (tokens : list term) (d : metric) (alpha : f64) (k : Z).
Notation A := (zlen tokens).
Notation bmin := (Suggest.bMin tokens d alpha).
Notation bmax := (Suggest.bMax ix tokens d alpha).
Notation cap := (chan_cap ix tokens d alpha).
Notation exec := (Suggest.exec rb srt ix tokens d alpha k).
Notation run := (Suggest.run rb srt ix tokens d alpha k).
Notation start := (Suggest.start ix tokens d alpha k).
Notation exec_worker := (Suggest.exec_worker rb srt ix tokens d k).

(** ** the lock *)
Lemma worker_lock s i w s' : lock_ok s -> nth_error (s_ws s) i = Some w -> exec_worker s i w = Some (Running s') -> lock_ok s'.
Proof.
  intros HL Hw He. unfold lock_ok in *.
  assert (holder w = true -> s_locked s = true) as Hh.
  { intros Hh. apply nth_error_In in Hw. destruct (s_locked s); [reflexivity|]. assert (In w (filter holder (s_ws s))) as Hi by (apply filter_In; auto).
    destruct (filter holder (s_ws s)); [destruct Hi|]. rewrite zlen_cons in HL. pose proof (zlen_nonneg l). lia. }
  destruct w as [|b|b T|b q|b q| | | |e]; cbn [Suggest.exec_worker] in He.
  - destruct (s_ch s); [destruct (s_prod s); try discriminate|]; injection He as <-; unfold set_w; cbn [s_ws s_locked]; rewrite (filter_set _ _ _ _ Hw); cbn [holder]; lia.
  - destruct (_ || _); [|destruct (IndicesGet ix b)]; injection He as <-; unfold set_w; cbn [s_ws s_locked]; rewrite (filter_set _ _ _ _ Hw); cbn [holder]; lia.
  - destruct (IndicesGet ix b); [|discriminate]. destruct (worker_search _ _ _ _ _ _ _ _); try discriminate; injection He as <-; unfold set_w; cbn [s_ws s_locked]; rewrite (filter_set _ _ _ _ Hw); cbn [holder]; lia.
  - destruct (s_locked s); [discriminate|]. injection He as <-. cbn [s_ws s_locked]. rewrite (filter_set _ _ _ _ Hw). cbn [holder]. lia.
  - destruct (Merge _ _); try discriminate. injection He as <-. cbn [s_ws s_locked]. rewrite (filter_set _ _ _ _ Hw). cbn [holder]. lia.
  - destruct (ManagerLowestScore _); try discriminate. injection He as <-. cbn [s_ws s_locked]. rewrite (filter_set _ _ _ _ Hw). cbn [holder]. lia.
  - injection He as <-. cbn [s_ws s_locked]. rewrite (filter_set _ _ _ _ Hw). cbn [holder]. rewrite (Hh eq_refl) in HL. lia.
  - discriminate.
  - discriminate.
Qed.
Lemma prod_ws s s' : exec_prod ix tokens d alpha s = Some (Running s') -> s_ws s' = s_ws s /\ s_locked s' = s_locked s.
Proof.
  unfold exec_prod, send, goto. destruct (s_prod s) as [i j|i j|i j|]; cbn zeta; repeat destruct (if _ then _ else _) eqn:?; intros E;
  repeat match goal with H : (if ?b then _ else _) = _ |- _ => destruct b end; try discriminate; injection E as <-; auto;
  repeat match goal with H : Some _ = Some _ |- _ => injection H as <- end; try discriminate; split; reflexivity.
Qed.
Lemma exec_lock c s s' : lock_ok s -> exec c (Running s) = Some (Running s') -> lock_ok s'.
Proof.
  intros HL He. destruct c as [|i]; cbn [Suggest.exec] in He.
  - apply prod_ws in He. destruct He as [E1 E2]. unfold lock_ok in *. rewrite E1, E2. exact HL.
  - destruct (nth_error (s_ws s) i) eqn:E; [|discriminate]. eapply worker_lock; eassumption.
Qed.
Definition Pred (P : st -> Prop) (p : proc) : Prop := match p with Running s => P s | _ => True end.
Lemma run_pred (P : st -> Prop) : (forall c s s', P s -> exec c (Running s) = Some (Running s') -> P s') ->
  forall sched p p', Pred P p -> run sched p = Some p' -> Pred P p'.
Proof.
  intros Hstep. induction sched as [|c t IH]; intros p p' HP Hr; cbn [Suggest.run] in Hr; [injection Hr as <-; exact HP|].
  destruct (exec c p) as [p1|] eqn:E; [|discriminate]. apply (IH p1 p'); [|exact Hr]. destruct p as [s|r|]; try discriminate. destruct p1 as [s1| |]; cbn [Pred]; auto.
  eapply Hstep; eassumption.
Qed.
Lemma start_lock : Pred lock_ok start.
Proof.
  unfold Suggest.start. destruct (A =? 0); [exact I|]. destruct (_ || _); [exact I|]. destruct (NewTopKQueue k); try exact I. cbn [Pred]. unfold lock_ok. cbn [s_ws s_locked].
  generalize (Z.to_nat (Z.min 5 cap)). intros n. replace (filter holder (repeat WRecv n)) with (@nil wst); [reflexivity|]. induction n; [reflexivity|exact IHn].
Qed.
Lemma run_lock sched s : run sched start = Some (Running s) -> lock_ok s.
Proof. intros H. exact (run_pred lock_ok exec_lock sched start (Running s) start_lock H). Qed.

(** ** termination *)
Context (HA : 0 <= A <= 2 ^ 60) (Hmin : - 2 ^ 60 <= bmin) (Hmax : bmax <= 2 ^ 60).
Definition rem (i j : Z) : Z := Z.max 0 (Z.max (i - bmin + 1) (bmax - j + 1)).
Definition mu_p (p : pst) : Z :=
  match p with PLoop i j => 20 * rem i j + 2 | PSendI i j => 20 * rem i j + 1 | PSendJ i j => 20 * rem i j - 9 | PWait => 1 end.
Definition mu_w (w : wst) : Z :=
  match w with WRecv => 1 | WSize _ => 8 | WSearch _ _ => 7 | WLock _ _ => 6 | WMerge _ _ => 5 | WStore => 4 | WUnlock => 3 | WExit | WFail _ => 0 end.
Definition sum_w (ws : list wst) : Z := fold_right (fun w n => mu_w w + n) 0 ws.
Definition mu (p : proc) : Z := match p with Running s => mu_p (s_prod s) + 8 * zlen (s_ch s) + sum_w (s_ws s) | _ => 0 end.
Definition pok (s : st) : Prop :=
  match s_prod s with
  | PLoop i j => i + j = 2 * A + 1 /\ A < j <= 2 ^ 62
  | PSendI i j | PSendJ i j => i + j = 2 * A + 1 /\ A < j < 2 ^ 62 /\ 1 <= rem i j
  | PWait => True
  end.
Lemma sum_app a b : sum_w (a ++ b) = sum_w a + sum_w b.
Proof. induction a as [|w a IH]; [reflexivity|]. cbn [app sum_w fold_right]. fold (sum_w (a ++ b)). fold (sum_w a). lia. Qed.
Lemma sum_nonneg ws : 0 <= sum_w ws.
Proof. induction ws as [|w ws IH]; [reflexivity|]. cbn [sum_w fold_right]. fold (sum_w ws). destruct w; cbn [mu_w]; lia. Qed.
Lemma sum_set (w w' : wst) i ws : nth_error ws i = Some w -> sum_w (set_nth_opt i w' ws) = sum_w ws - mu_w w + mu_w w'.
Proof. intros H. destruct (set_nth_split w' w i ws H) as (l1 & l2 & -> & ->). rewrite !sum_app. cbn [sum_w fold_right]. fold (sum_w l2). lia. Qed.
Lemma mu_nonneg p : Pred pok p -> 0 <= mu p.
Proof.
  destruct p as [s|r|]; cbn [mu Pred]; try lia. unfold pok. intros H. pose proof (sum_nonneg (s_ws s)). pose proof (zlen_nonneg (s_ch s)).
  destruct (s_prod s); cbn [mu_p]; unfold rem in *; lia.
Qed.
Lemma worker_mu s i w p : pok s -> nth_error (s_ws s) i = Some w -> exec_worker s i w = Some p -> mu p < mu (Running s) /\ Pred pok p.
Proof.
  intros HP Hw He. pose proof (mu_nonneg (Running s) HP) as H0.
  assert (mu_p (s_prod s) + sum_w (s_ws s) > 0) as Hpos.
  { pose proof (sum_nonneg (s_ws s)). unfold pok in HP. destruct (s_prod s); cbn [mu_p]; unfold rem in *; lia. }
  pose proof (zlen_nonneg (s_ch s)) as Hch.
  destruct w as [|b|b T|b q|b q| | | |e]; cbn [Suggest.exec_worker] in He.
  - destruct (s_ch s) as [|b ch] eqn:Ec.
    + destruct (s_prod s) eqn:Ep; try discriminate. injection He as <-. unfold set_w. cbn [mu Pred s_prod s_ch s_ws]. rewrite (sum_set _ _ _ _ Hw), Ec, ?Ep. cbn [mu_w]. split; [lia|]. unfold pok in *. cbn [s_prod]. rewrite ?Ep. exact I.
    + injection He as <-. cbn [mu Pred s_prod s_ch s_ws]. rewrite (sum_set _ _ _ _ Hw), Ec, zlen_cons. cbn [mu_w]. split; [lia|exact HP].
  - destruct (_ || _); [|destruct (IndicesGet ix b)]; injection He as <-; unfold set_w; cbn [mu Pred s_prod s_ch s_ws]; rewrite (sum_set _ _ _ _ Hw); cbn [mu_w]; (split; [lia|exact HP]).
  - destruct (IndicesGet ix b); [|injection He as <-; cbn [mu Pred]; split; [lia|exact I]].
    destruct (worker_search _ _ _ _ _ _ _ _); injection He as <-; unfold set_w; cbn [mu Pred s_prod s_ch s_ws]; rewrite ?(sum_set _ _ _ _ Hw); cbn [mu_w]; (split; [lia|first [exact HP|exact I]]).
  - destruct (s_locked s); [discriminate|]. injection He as <-. cbn [mu Pred s_prod s_ch s_ws]. rewrite (sum_set _ _ _ _ Hw). cbn [mu_w]. split; [lia|exact HP].
  - destruct (Merge _ _); injection He as <-; cbn [mu Pred s_prod s_ch s_ws]; rewrite ?(sum_set _ _ _ _ Hw); cbn [mu_w]; (split; [lia|first [exact HP|exact I]]).
  - destruct (ManagerLowestScore _); injection He as <-; cbn [mu Pred s_prod s_ch s_ws]; rewrite ?(sum_set _ _ _ _ Hw); cbn [mu_w]; (split; [lia|first [exact HP|exact I]]).
  - injection He as <-. cbn [mu Pred s_prod s_ch s_ws]. rewrite (sum_set _ _ _ _ Hw). cbn [mu_w]. split; [lia|exact HP].
  - discriminate.
  - discriminate.
Qed.
Lemma prod_mu s p : pok s -> exec_prod ix tokens d alpha s = Some p -> mu p < mu (Running s) /\ Pred pok p.
Proof.
  intros HP He. unfold exec_prod, send, goto in He. unfold pok in HP. pose proof (sum_nonneg (s_ws s)) as Hs. pose proof (zlen_nonneg (s_ch s)) as Hc.
  destruct (s_prod s) as [i j|i j|i j|] eqn:Ep; cbn zeta in He.
  - destruct ((bmin <=? i) || (j <=? bmax)) eqn:E; injection He as <-; cbn [mu Pred s_prod s_ch s_ws]; rewrite Ep; unfold pok; cbn [mu_p s_prod]; unfold rem; lia.
  - destruct (bmin <=? i) eqn:E; [destruct (zlen (s_ch s) <? cap); [|discriminate]|]; injection He as <-; cbn [mu Pred s_prod s_ch s_ws]; rewrite Ep, ?zlen_app'; change (zlen [i]) with 1; unfold pok; cbn [mu_p s_prod]; unfold rem in *; lia.
  - assert (wrapi64 (i - 1) = i - 1 /\ wrapi64 (j + 1) = j + 1) as [W1 W2] by (split; apply wrapi64_small; lia). rewrite W1, W2 in He.
    destruct (j <=? bmax) eqn:E; [destruct (zlen (s_ch s) <? cap); [|discriminate]|]; injection He as <-; cbn [mu Pred s_prod s_ch s_ws]; rewrite Ep, ?zlen_app'; change (zlen [j]) with 1; unfold pok; cbn [mu_p s_prod]; unfold rem in *; lia.
  - destruct (forallb gone (s_ws s)); [|discriminate]. injection He as <-. cbn [mu Pred]. rewrite Ep. cbn [mu_p]. split; [lia|exact I].
Qed.
Lemma exec_mu c p p' : Pred pok p -> exec c p = Some p' -> mu p' < mu p /\ Pred pok p'.
Proof.
  destruct p as [s|r|]; try discriminate. intros HP He. destruct c as [|i]; cbn [Suggest.exec] in He; [apply prod_mu; assumption|].
  destruct (nth_error (s_ws s) i) eqn:E; [|discriminate]. eapply worker_mu; eassumption.
Qed.
Lemma run_mu sched : forall p p', Pred pok p -> run sched p = Some p' -> zlen sched <= mu p /\ Pred pok p'.
Proof.
  induction sched as [|c t IH]; intros p p' HP Hr; cbn [Suggest.run] in Hr.
  - injection Hr as <-. split; [change (zlen (@nil choice)) with 0; apply mu_nonneg; exact HP|exact HP].
  - destruct (exec c p) as [p1|] eqn:E; [|discriminate]. destruct (exec_mu _ _ _ HP E) as [H1 H2]. destruct (IH p1 p' H2 Hr) as [H3 H4]. rewrite zlen_cons. split; [lia|exact H4].
Qed.
Lemma start_pok : Pred pok start.
Proof.
  unfold Suggest.start. destruct (A =? 0); [exact I|]. destruct (_ || _); [exact I|]. destruct (NewTopKQueue k); try exact I. cbn [Pred]. unfold pok. cbn [s_prod]. unfold sizeA. lia.
Qed.
Definition step_bound : Z := 20 * Z.max 0 (Z.max (A - bmin + 1) (bmax - A)) + 7.
Lemma start_mu : mu start <= step_bound.
Proof.
  unfold step_bound, Suggest.start. destruct (A =? 0); [cbn [mu]; lia|]. destruct (_ || _); [cbn [mu]; lia|]. destruct (NewTopKQueue k); cbn [mu]; try lia.
  cbn [s_prod s_ch s_ws mu_p]. unfold rem, sizeA. change (zlen (@nil Z)) with 0.
  assert (forall n, sum_w (repeat WRecv n) = Z.of_nat n) as E by (induction n; [reflexivity|]; cbn [repeat sum_w fold_right mu_w]; fold (sum_w (repeat WRecv n)); lia). rewrite E. lia.
Qed.
Lemma run_bounded sched p : run sched start = Some p -> zlen sched <= step_bound.
Proof. intros H. pose proof (run_mu sched start p start_pok H) as [H1 _]. pose proof start_mu. lia. Qed.
Lemma run_pok sched s : run sched start = Some (Running s) -> pok s.
Proof. intros H. pose proof (run_mu sched start _ start_pok H) as [_ H1]. exact H1. Qed.

(** ** no deadlock *)
Lemma busy_moves s : lock_ok s -> (exists w, In w (s_ws s) /\ gone w = false /\ w <> WRecv) -> exists c p, exec c (Running s) = Some p.
Proof.
  intros HL (w0 & Hin0 & Hg0 & Hr0).
  assert (forall w, In w (s_ws s) -> (forall i, exec_worker s i w <> None) -> exists c p, exec c (Running s) = Some p) as Hw.
  { intros w Hin Hen. destruct (In_nth_error _ _ Hin) as [i Ei]. specialize (Hen i). destruct (exec_worker s i w) as [p|] eqn:E; [|congruence]. exists (CWork i), p. cbn [Suggest.exec]. rewrite Ei. exact E. }
  assert (forall w, In w (s_ws s) -> (forall b q, w <> WLock b q) -> w <> WRecv -> gone w = false -> exists c p, exec c (Running s) = Some p) as Hbusy.
  { intros w Hin Hl Hr Hg. apply (Hw w Hin). intros i. destruct w as [|b|b T|b q|b q| | | |e]; cbn [Suggest.exec_worker]; try congruence; try discriminate.
    - destruct (_ || _); [|destruct (IndicesGet ix b)]; discriminate.
    - destruct (IndicesGet ix b); [destruct (worker_search _ _ _ _ _ _ _ _)|]; discriminate.
    - destruct (Merge _ _); discriminate.
    - destruct (ManagerLowestScore _); discriminate. }
  destruct w0 as [|b|b T|b q|b q| | | |e]; try (apply (Hbusy _ Hin0); congruence).
  destruct (s_locked s) eqn:El.
  - unfold lock_ok in HL. rewrite El in HL. destruct (filter holder (s_ws s)) as [|h t] eqn:Ef; [change (zlen (@nil wst)) with 0 in HL; lia|].
    assert (In h (filter holder (s_ws s))) as Hh by (rewrite Ef; left; reflexivity). apply filter_In in Hh. destruct Hh as [Hh1 Hh2].
    apply (Hbusy h Hh1); destruct h; try discriminate; try reflexivity.
  - apply (Hw _ Hin0). intros i. cbn [Suggest.exec_worker]. rewrite El. discriminate.
Qed.
Lemma progress s : lock_ok s -> 1 <= cap -> (s_prod s = PWait \/ zlen (s_ch s) < cap \/ In WRecv (s_ws s)) -> exists c p, exec c (Running s) = Some p.
Proof.
  intros HL Hcap Hch. pose proof (zlen_nonneg (s_ch s)) as Hz.
  assert (forall w, In w (s_ws s) -> (forall i, exec_worker s i w <> None) -> exists c p, exec c (Running s) = Some p) as Hw.
  { intros w Hin Hen. destruct (In_nth_error _ _ Hin) as [i Ei]. specialize (Hen i). destruct (exec_worker s i w) as [p|] eqn:E; [|congruence]. exists (CWork i), p. cbn [Suggest.exec]. rewrite Ei. exact E. }
  assert (forall w, In w (s_ws s) -> (forall b q, w <> WLock b q) -> w <> WRecv -> gone w = false -> exists c p, exec c (Running s) = Some p) as Hbusy.
  { intros w Hin Hl Hr Hg. apply (Hw w Hin). intros i. destruct w as [|b|b T|b q|b q| | | |e]; cbn [Suggest.exec_worker]; try congruence; try discriminate.
    - destruct (_ || _); [|destruct (IndicesGet ix b)]; discriminate.
    - destruct (IndicesGet ix b); [destruct (worker_search _ _ _ _ _ _ _ _)|]; discriminate.
    - destruct (Merge _ _); discriminate.
    - destruct (ManagerLowestScore _); discriminate. }
  destruct (existsb (fun w => match w with WLock _ _ => true | _ => false end) (s_ws s)) eqn:Elock.
  { apply existsb_exists in Elock. destruct Elock as (w & Hin & Ew). destruct w; try discriminate. destruct (s_locked s) eqn:El.
    - unfold lock_ok in HL. rewrite El in HL. destruct (filter holder (s_ws s)) as [|h t] eqn:Ef; [change (zlen (@nil wst)) with 0 in HL; lia|].
      assert (In h (filter holder (s_ws s))) as Hh by (rewrite Ef; left; reflexivity). apply filter_In in Hh. destruct Hh as [Hh1 Hh2].
      apply (Hbusy h Hh1); destruct h; try discriminate; try reflexivity.
    - apply (Hw _ Hin). intros i. cbn [Suggest.exec_worker]. rewrite El. discriminate. }
  destruct (existsb (fun w => negb (gone w) && match w with WRecv => false | _ => true end) (s_ws s)) eqn:Eb.
  { apply existsb_exists in Eb. destruct Eb as (w & Hin & Ew). apply (Hbusy w Hin); destruct w; try discriminate; try reflexivity.
    exfalso. assert (existsb (fun w => match w with WLock _ _ => true | _ => false end) (s_ws s) = true); [|congruence]. apply existsb_exists. eexists. split; [exact Hin|reflexivity]. }
  destruct (s_prod s) as [i j|i j|i j|] eqn:Ep.
  - exists CProd. cbn [Suggest.exec exec_prod]. unfold exec_prod, goto. rewrite Ep. destruct (_ || _); eexists; reflexivity.
  - destruct (Z.ltb_spec (zlen (s_ch s)) cap) as [Hlt|Hge].
    + exists CProd. cbn [Suggest.exec exec_prod]. unfold exec_prod, goto, send. rewrite Ep. destruct (zlen (s_ch s) <? cap) eqn:E; [|lia]. destruct (_ <=? _); eexists; reflexivity.
    + destruct Hch as [Hch|[Hch|Hch]]; [congruence|lia|]. apply (Hw _ Hch). intros n. cbn [Suggest.exec_worker]. destruct (s_ch s); [change (zlen (@nil Z)) with 0 in Hge; lia|discriminate].
  - destruct (Z.ltb_spec (zlen (s_ch s)) cap) as [Hlt|Hge].
    + exists CProd. cbn [Suggest.exec exec_prod]. unfold exec_prod, goto, send. rewrite Ep. cbn zeta. destruct (zlen (s_ch s) <? cap) eqn:E; [|lia]. destruct (_ <=? _); eexists; reflexivity.
    + destruct Hch as [Hch|[Hch|Hch]]; [congruence|lia|]. apply (Hw _ Hch). intros n. cbn [Suggest.exec_worker]. destruct (s_ch s); [change (zlen (@nil Z)) with 0 in Hge; lia|discriminate].
  - destruct (forallb gone (s_ws s)) eqn:Eg.
    + exists CProd. cbn [Suggest.exec exec_prod]. unfold exec_prod. rewrite Ep, Eg. eexists; reflexivity.
    + assert (exists w, In w (s_ws s) /\ gone w = false) as (w & Hin & Hg).
      { clear - Eg. induction (s_ws s) as [|w l IH]; [discriminate|]. cbn [forallb] in Eg. destruct (gone w) eqn:E; [|exists w; split; [left; reflexivity|exact E]].
        destruct (IH Eg) as (x & Hx & Hg). exists x. split; [right; exact Hx|exact Hg]. }
      assert (w = WRecv) as ->.
      { destruct w; try reflexivity; try discriminate; exfalso; match goal with H : In ?v _ |- _ => assert (existsb (fun w => negb (gone w) && match w with WRecv => false | _ => true end) (s_ws s) = true); [apply existsb_exists; exists v; split; [exact H|reflexivity]|congruence] end. }
      apply (Hw _ Hin). intros n. cbn [Suggest.exec_worker]. rewrite Ep. destruct (s_ch s); discriminate.
Qed.

(* the channel never needs more than its capacity when the query is not longer than the
   longest admissible entry: sends never block *)
Context (Hcap : cap = bmax - bmin + 1) (HAmax : bmin <= A <= bmax).
Definition sent_count (n : Z) : Z := Z.min n (A - bmin + 1) + Z.min n (bmax - A).
Definition room (s : st) : Prop :=
  pok s /\
  match s_prod s with
  | PLoop i j | PSendI i j => zlen (s_ch s) <= sent_count (A - i)
  | PSendJ i j => zlen (s_ch s) <= sent_count (A - i) + (if bmin <=? i then 1 else 0)
  | PWait => True
  end.
Lemma exec_room c s s' : room s -> exec c (Running s) = Some (Running s') -> room s'.
Proof.
  intros [HP HR] He. split; [exact (proj2 (exec_mu c (Running s) (Running s') HP He))|]. destruct c as [|i]; cbn [Suggest.exec] in He.
  - unfold exec_prod, send, goto in He. unfold pok in HP. pose proof (zlen_nonneg (s_ch s)) as Hc. unfold sent_count in *.
    destruct (s_prod s) as [i j|i j|i j|] eqn:Ep; cbn zeta in He.
    + destruct ((bmin <=? i) || (j <=? bmax)) eqn:E; injection He as <-; cbn [s_prod s_ch]; [lia|exact I].
    + destruct (bmin <=? i) eqn:E; [destruct (zlen (s_ch s) <? cap); [|discriminate]|]; injection He as <-; cbn [s_prod s_ch]; rewrite ?zlen_app', E; change (zlen [i]) with 1; lia.
    + assert (wrapi64 (i - 1) = i - 1 /\ wrapi64 (j + 1) = j + 1) as [W1 W2] by (split; apply wrapi64_small; lia). rewrite W1, W2 in He.
      destruct (j <=? bmax) eqn:E; [destruct (zlen (s_ch s) <? cap); [|discriminate]|]; injection He as <-; cbn [s_prod s_ch]; rewrite ?zlen_app'; change (zlen [j]) with 1; destruct (bmin <=? i) eqn:E'; lia.
    + destruct (forallb gone (s_ws s)); discriminate.
  - destruct (nth_error (s_ws s) i) as [w|] eqn:Ew; [|discriminate].
    assert (s_prod s' = s_prod s /\ zlen (s_ch s') <= zlen (s_ch s)) as [E1 E2].
    { destruct w as [|b|b T|b q|b q| | | |e]; cbn [Suggest.exec_worker] in He.
      - destruct (s_ch s) eqn:Ec; [destruct (s_prod s) eqn:Ep; try discriminate|]; injection He as <-; unfold set_w; cbn [s_prod s_ch]; rewrite ?zlen_cons, ?Ec, ?Ep; (split; [reflexivity|lia]).
      - destruct (_ || _); [|destruct (IndicesGet ix b)]; injection He as <-; unfold set_w; cbn [s_prod s_ch]; (split; [reflexivity|lia]).
      - destruct (IndicesGet ix b); [|discriminate]. destruct (worker_search _ _ _ _ _ _ _ _); try discriminate; injection He as <-; unfold set_w; cbn [s_prod s_ch]; (split; [reflexivity|lia]).
      - destruct (s_locked s); [discriminate|]. injection He as <-. cbn [s_prod s_ch]. split; [reflexivity|lia].
      - destruct (Merge _ _); try discriminate. injection He as <-. cbn [s_prod s_ch]. split; [reflexivity|lia].
      - destruct (ManagerLowestScore _); try discriminate. injection He as <-. cbn [s_prod s_ch]. split; [reflexivity|lia].
      - injection He as <-. cbn [s_prod s_ch]. split; [reflexivity|lia].
      - discriminate.
      - discriminate. }
    rewrite E1. destruct (s_prod s); lia.
Qed.
Lemma start_room : Pred room start.
Proof.
  pose proof start_pok as HP. unfold Suggest.start in *. destruct (A =? 0); [exact I|]. destruct (_ || _); [exact I|]. destruct (NewTopKQueue k); try exact I. cbn [Pred] in *. split; [exact HP|].
  cbn [s_prod s_ch]. unfold sent_count, sizeA. change (zlen (@nil Z)) with 0. lia.
Qed.
Lemma no_deadlock sched s : run sched start = Some (Running s) -> exists c p, exec c (Running s) = Some p.
Proof.
  intros H. pose proof (run_lock sched s H) as HL. pose proof (run_pred room exec_room sched start (Running s) start_room H) as [HP HR]. cbn [Pred] in *. unfold pok in HP.
  destruct (s_prod s) as [i j|i j|i j|] eqn:Ep.
  - exists CProd. cbn [Suggest.exec]. unfold exec_prod, goto. rewrite Ep. destruct (_ || _); eexists; reflexivity.
  - destruct (bmin <=? i) eqn:Ei.
    + apply progress; [exact HL|lia|]. right. left. rewrite Hcap. unfold sent_count in HR. lia.
    + exists CProd. cbn [Suggest.exec]. unfold exec_prod, goto. rewrite Ep, Ei. eexists; reflexivity.
  - destruct (j <=? bmax) eqn:Ej.
    + apply progress; [exact HL|lia|]. right. left. rewrite Hcap. unfold sent_count in HR. destruct (bmin <=? i) eqn:Ei; lia.
    + exists CProd. cbn [Suggest.exec]. unfold exec_prod, goto. rewrite Ep. cbn zeta. rewrite Ej. eexists; reflexivity.
  - apply progress; [exact HL|lia|]. left. exact Ep.
Qed.
End T.
