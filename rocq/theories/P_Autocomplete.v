(** Property C43 (pkg/suggest/autocomplete.go): one Autocomplete call with its goroutines,
    under every schedule. *)
From Coq Require Import String ZifyBool Permutation Sorted Lia.
From Verif Require Import Base BaseLemmas GoMap Store StoreSpec Postings PostingsSpec PostingsDrive P_PostingsLemmas Merger MergerSpec Index IndexSpec IndexProofs P_IndexLemmas
  Float64 TopK TopKSpec TopKProofs Suggest SuggestSpec SuggestProofs P_Suggest Autocomplete AutocompleteSpec AutocompleteProofs.
Local Open Scope Z_scope.

(** C43: whatever the schedule, when the call returns it returns the entries that have
    all the query's terms, restricted to the [limit] smallest ids, ascending.  No error. *)
Theorem C43_first_matches : forall rb srt ix docs terms limit sched r,
  docs_ok docs -> index_of rb ix docs -> sorter_ok srt -> NoDup terms -> 1 <= zlen terms < 2 ^ 32 -> 0 <= limit ->
  arun rb srt ix terms limit sched (astart terms limit) = Some (AFinished r) -> r = Ret (first_matches limit terms docs).
Proof.
  intros rb srt ix docs terms limit sched r Hd Hi Hs Hn Hl Hlim Hr.
  pose proof (run_agood rb srt ix docs terms limit Hd Hi Hs Hl Hn Hlim sched _ _ (start_agood ix docs terms limit Hlim) Hr) as HG. cbn [AGood] in HG. destruct r as [l| | |]; [|destruct HG..].
  unfold aresult in HG. rewrite HG. reflexivity.
Qed.
Print Assumptions C43_first_matches.
(** In particular the ids: ascending, at most [limit], each of an entry with all terms,
    and none omitted unless [limit] smaller ones are returned. *)
Theorem C43_ids : forall terms limit docs, docs_ok docs -> 0 <= limit -> let ids := map Key (first_matches limit terms docs) in
  zlen ids <= limit /\ StronglySorted Z.lt ids /\
  (forall x, In x ids -> exists ts, In (x, ts) docs /\ forall t, In t terms -> In t ts) /\
  (forall x ts, In (x, ts) docs -> (forall t, In t terms -> In t ts) -> In x ids \/ (zlen ids = limit /\ forall y, In y ids -> y < x)).
Proof.
  intros terms limit docs Hd Hlim ids. assert (ids = firstn (Z.to_nat limit) (map fst (filter (has_all terms) docs))) as Ei.
  { subst ids. unfold first_matches. rewrite map_map. cbn [answer_of Key]. rewrite firstn_map. reflexivity. }
  pose proof (sorted_sub docs Hd (has_all terms)) as Hs. set (m := map fst (filter (has_all terms) docs)) in *.
  assert (forall x, In x m <-> exists ts, In (x, ts) docs /\ forall t, In t terms -> In t ts) as Hm.
  { intros x. subst m. rewrite in_map_iff. split.
    - intros ([y ts] & E & Hin). cbn [fst] in E. subst y. apply filter_In in Hin. destruct Hin as [Hin E]. exists ts. split; [exact Hin|]. intros t Ht. unfold has_all in E. rewrite forallb_forall in E. apply (mem_In' t ts), E, Ht.
    - intros (ts & Hin & Ht). exists (x, ts). split; [reflexivity|]. apply filter_In. split; [exact Hin|]. unfold has_all. apply forallb_forall. intros t Hx. cbn [snd]. apply mem_In', Ht, Hx. }
  rewrite Ei. split; [|split; [|split]].
  - unfold zlen. rewrite firstn_length. lia.
  - clear - Hs. revert Hs. generalize (Z.to_nat limit). induction m as [|x m IH]; intros k Hs; [rewrite firstn_nil; constructor|]. destruct k; [constructor|]. cbn [firstn]. inversion_clear Hs. constructor; [apply IH; assumption|].
    apply Forall_forall. intros y Hy. rewrite Forall_forall in H0. apply H0. rewrite <- (firstn_skipn k m). apply in_app_iff. left. exact Hy.
  - intros x Hx. apply Hm. rewrite <- (firstn_skipn (Z.to_nat limit) m). apply in_app_iff. left. exact Hx.
  - intros x ts Hin Ht. assert (In x m) as Hxm by (apply Hm; eauto). rewrite <- (firstn_skipn (Z.to_nat limit) m) in Hxm. apply in_app_iff in Hxm. destruct Hxm as [Hx|Hx]; [left; exact Hx|right]. split.
    + unfold zlen. rewrite firstn_length. assert (length (skipn (Z.to_nat limit) m) <> O) as Hne by (destruct (skipn (Z.to_nat limit) m); [destruct Hx|discriminate]). rewrite skipn_length in Hne. lia.
    + intros y Hy. rewrite <- (firstn_skipn (Z.to_nat limit) m) in Hs. clear - Hs Hx Hy. induction (firstn (Z.to_nat limit) m) as [|z l IH]; [destruct Hy|]. cbn [app] in Hs. inversion_clear Hs. destruct Hy as [<-|Hy]; [|auto].
      rewrite Forall_forall in H0. apply H0. apply in_app_iff. right. exact Hx.
Qed.
Print Assumptions C43_ids.
(** The call returns: at most this many moves on every schedule, whatever the index, and
    as long as it has not returned (or panicked on a corrupt index) some goroutine can
    move; with a sound index it does not panic. *)
Theorem C43_terminates : forall rb srt ix terms limit sched p,
  arun rb srt ix terms limit sched (astart terms limit) = Some p -> zlen sched <= 5 * Z.max 0 (zlen ix - zlen terms) + 2.
Proof.
  intros rb srt ix terms limit sched p Hr. apply arun_bounded in Hr. pose proof (amu_nonneg ix p). unfold astart in Hr. destruct (NewTopKQueue limit); cbn [amu a_prod a_ws wsum fold_right] in Hr; lia.
Qed.
Print Assumptions C43_terminates.
Theorem C43_no_deadlock : forall rb srt ix terms limit sched s,
  arun rb srt ix terms limit sched (astart terms limit) = Some (ARunning s) -> exists c p, aexec rb srt ix terms limit c (ARunning s) = Some p.
Proof.
  intros rb srt ix terms limit sched s Hr. apply aprogress. apply (arun_lock rb srt ix terms limit sched _ _) in Hr; [exact Hr|]. unfold astart. destruct (NewTopKQueue limit); try exact I. reflexivity.
Qed.
Print Assumptions C43_no_deadlock.
Theorem C43_no_panic : forall rb srt ix docs terms limit sched,
  docs_ok docs -> index_of rb ix docs -> sorter_ok srt -> NoDup terms -> 1 <= zlen terms < 2 ^ 32 -> 0 <= limit ->
  arun rb srt ix terms limit sched (astart terms limit) <> Some ACrashed.
Proof.
  intros rb srt ix docs terms limit sched Hd Hi Hs Hn Hl Hlim Hr.
  exact (run_agood rb srt ix docs terms limit Hd Hi Hs Hl Hn Hlim sched _ _ (start_agood ix docs terms limit Hlim) Hr).
Qed.
Print Assumptions C43_no_panic.
(** The result is only touched under the lock. *)
Theorem C43_mutual_exclusion : forall rb srt ix terms limit sched s,
  arun rb srt ix terms limit sched (astart terms limit) = Some (ARunning s) -> zlen (filter aholder (a_ws s)) = if a_locked s then 1 else 0.
Proof.
  intros rb srt ix terms limit sched s Hr. apply (arun_lock rb srt ix terms limit sched _ _) in Hr; [exact Hr|]. unfold astart. destruct (NewTopKQueue limit); try exact I. reflexivity.
Qed.
Print Assumptions C43_mutual_exclusion.
(** A query without terms returns nothing, although every entry contains all of them,
    and whatever the index. *)
Theorem C43_empty_query : forall rb srt ix limit sched p, 0 <= limit ->
  arun rb srt ix [] limit sched (astart [] limit) = Some p -> p <> ACrashed /\ forall r, p = AFinished r -> r = Ret [].
Proof.
  intros rb srt ix limit sched p Hl Hr.
  set (wk := fun w => match w with ASearch b => IndicesGet ix b <> None | ALock _ i | ACollect _ i => i = [] | AFail _ _ => False | _ => True end).
  set (Pr := fun p => match p with ARunning s => Forall wk (a_ws s) /\ qh (a_q s) = [] | AFinished r => r = Ret [] | ACrashed => False end).
  assert (forall s i w w', Forall wk (a_ws s) -> nth_error (a_ws s) i = Some w -> wk w' -> Forall wk (set_nth_opt i w' (a_ws s))) as Hset.
  { intros s i w w' H1 H2 H3. destruct (set_nth_split w' w i _ H2) as (l1 & l2 & E1 & E2). rewrite E2. rewrite E1 in H1. apply Forall_app in H1. destruct H1 as [F1 F2]. apply Forall_app. split; [exact F1|]. constructor; [exact H3|exact (Forall_inv_tail F2)]. }
  assert (forall c p p', Pr p -> aexec rb srt ix [] limit c p = Some p' -> Pr p') as Hstep.
  { intros c q q' Hq He. destruct q as [s| |]; try discriminate. destruct Hq as [Hw Hh]. destruct c as [|i]; cbn [aexec] in He.
    - unfold aexec_prod in He. destruct (a_prod s) as [b|].
      + destruct (b <? zlen ix); injection He as <-; cbn [Pr a_ws a_q]; [|auto]. destruct (IndicesGet ix b) eqn:E; [|auto]. split; [|exact Hh]. apply Forall_app. split; [exact Hw|]. constructor; [cbn; congruence|constructor].
      + destruct (forallb agone (a_ws s)); [|discriminate]. injection He as <-. cbn [Pr]. assert (afirst_error (a_ws s) = None) as ->.
        { clear - Hw. induction Hw as [|w ws Hw0 _ IH]; [reflexivity|]. destruct w; cbn [afirst_error]; auto. destruct Hw0. }
        unfold GetCandidates. rewrite Hh. reflexivity.
    - destruct (nth_error (a_ws s) i) as [w|] eqn:Ew; [|discriminate]. assert (wk w) as Hok by (rewrite Forall_forall in Hw; apply Hw; eapply nth_error_In; eassumption).
      destruct w as [b|b items|b items|b|b|b e]; cbn [aexec_worker] in He.
      + destruct (IndicesGet ix b) as [iv|] eqn:Eb; [|cbn in Hok; congruence]. assert (asearch rb srt [] limit iv = Ret []) as Es by reflexivity. rewrite Es in He. injection He as <-. split; [|exact Hh]. eapply Hset; try eassumption. reflexivity.
      + destruct (a_locked s); [discriminate|]. injection He as <-. split; [|exact Hh]. eapply Hset; eassumption.
      + cbn in Hok. subst items. cbn [manager_collect] in He. injection He as <-. split; [|exact Hh]. eapply Hset; try eassumption; exact I.
      + injection He as <-. split; [|exact Hh]. eapply Hset; try eassumption; exact I.
      + discriminate.
      + discriminate. }
  assert (forall sched p p', Pr p -> arun rb srt ix [] limit sched p = Some p' -> Pr p') as Hrun.
  { induction sched0 as [|c t IH]; intros q q' Hq Hr'; cbn [arun] in Hr'; [injection Hr' as <-; exact Hq|]. destruct (aexec _ _ _ _ _ c q) eqn:E; [|discriminate]. eapply IH; [|exact Hr']. eapply Hstep; eassumption. }
  apply (Hrun sched _ _) in Hr.
  - split; [intros ->; exact Hr|]. intros r ->. exact Hr.
  - unfold astart, NewTopKQueue. replace (limit <? 0) with false by lia. split; [constructor|reflexivity].
Qed.
Print Assumptions C43_empty_query.
(** A negative limit panics. *)
Theorem C43_negative_limit_refuted : forall terms limit, limit < 0 -> astart terms limit = ACrashed.
Proof. intros terms limit H. unfold astart, NewTopKQueue. replace (limit <? 0) with true by lia. reflexivity. Qed.
Print Assumptions C43_negative_limit_refuted.
(** Distinct terms are needed: for the repeated term ["a"; "a"], which the tokenizers can
    produce (C29), an entry with the one token "a" is not found. *)
Theorem C43_repeated_terms_refuted : exists docs, docs_ok docs /\ index_of rb4 (build docs) docs /\ map Key (first_matches 5 [bs "a"; bs "a"] docs) = [3] /\
  arun rb4 (fun l => l) (build docs) [bs "a"; bs "a"] 5 [AProd; AProd] (astart [bs "a"; bs "a"] 5) = Some (AFinished (Ret [])).
Proof.
  exists [(3, [bs "a"])]. assert (docs_ok [(3, [bs "a"])]) as Hd by docs_tac. split; [exact Hd|]. split; [build_tac; exact Hd|]. split; vm_compute; reflexivity.
Qed.
Print Assumptions C43_repeated_terms_refuted.

(** the hypotheses are met: three entries of three sizes, two schedules *)
Definition demo43_docs : list (Z * list term) := [(0, [bs "b"; bs "a"]); (1, [bs "a"; bs "x"]); (2, [bs "a"; bs "b"; bs "c"; bs "d"]); (3, [bs "q"; bs "a"; bs "b"]); (9, [bs "b"; bs "a"; bs "z"])].
Definition demo43 (sched : list achoice) : option aproc := arun rb4 (fun l => l) (build demo43_docs) [bs "a"; bs "b"] 3 sched (astart [bs "a"; bs "b"] 3).
Example C43_nonvacuous :
  docs_ok demo43_docs /\ index_of rb4 (build demo43_docs) demo43_docs /\ sorter_ok (fun l => l) /\ NoDup [bs "a"; bs "b"] /\
  map Key (first_matches 3 [bs "a"; bs "b"] demo43_docs) = [0; 2; 3] /\
  let w i := repeat (AWork i) 4 in
  demo43 (repeat AProd 4 ++ w 0%nat ++ w 1%nat ++ w 2%nat ++ [AProd]) = Some (AFinished (Ret (first_matches 3 [bs "a"; bs "b"] demo43_docs))) /\
  demo43 (repeat AProd 4 ++ w 2%nat ++ w 1%nat ++ w 0%nat ++ [AProd]) = Some (AFinished (Ret (first_matches 3 [bs "a"; bs "b"] demo43_docs))).
Proof.
  assert (docs_ok demo43_docs) as Hd by docs_tac. split; [exact Hd|]. split; [build_tac; exact Hd|]. split; [exact sorter_id|]. split; [repeat apply NoDup_cons; try apply NoDup_nil; cbn; intuition discriminate|].
  split; [vm_compute; reflexivity|]. split; vm_compute; reflexivity.
Qed.
