(** Properties C38-C40 (pkg/suggest/topk.go).  [history q k l]: q was created for k
    answers and has been given the candidates l, with listings, merges and resets in
    between.  [best_k k l r]: r lists the k best of l, best first. *)
From Coq Require Import ZifyBool Permutation Sorted.
From Verif Require Import Base BaseLemmas Float64 Heap HeapProofs TopK TopKSpec TopKProofs.
Local Open Scope Z_scope.

(** C38: whatever its history, a queue lists the k best candidates it was given, best
    first; every operation on it succeeds; and its lowest score is that of the last one
    listed (minus infinity when empty). *)
Theorem C38_topk_keeps_best : forall q k l, history q k l -> best_k k l (fst (GetCandidates q)).
Proof. intros q k l H. apply (list_inv q k l). apply history_inv. exact H. Qed.
Print Assumptions C38_topk_keeps_best.
Theorem C38_operations_succeed : forall q k l, history q k l ->
  (forall key score, score <> S754_nan -> exists q', Add q key score = Ret q') /\
  (forall q2 k2 l2, history q2 k2 l2 -> exists q', Merge q q2 = Ret q').
Proof.
  intros q k l H. apply history_inv in H. split.
  - intros key score Hs. destruct (add_inv q k l (mkCand key score) H Hs) as (q' & E & _). eauto.
  - intros q2 k2 l2 H2. apply history_inv in H2. destruct (merge_inv q k l q2 k2 l2 H H2) as (q' & E & _). eauto.
Qed.
Print Assumptions C38_operations_succeed.
Theorem C38_lowest_score : forall q k l, history q k l -> (l = [] -> GetLowestScore q = Ret f_neg_inf) /\
  (l <> [] -> exists r c, fst (GetCandidates q) = r ++ [c] /\ GetLowestScore q = Ret (Sc c)).
Proof. intros q k l H. apply (lowest_ok q k l). apply history_inv. exact H. Qed.
Print Assumptions C38_lowest_score.
(** The k best are determined: by the set of candidates, not the order they came in, up
    to the sign of a zero score. *)
Theorem C38_best_is_unique : forall k l l' r r', numeric l -> Permutation l l' -> best_k k l r -> best_k k l' r' -> Forall2 same r r'.
Proof. exact best_unique. Qed.
Print Assumptions C38_best_is_unique.
Lemma same_eq a b : same a b -> Sc a <> S754_zero true -> Sc b <> S754_zero true -> a = b.
Proof.
  intros [H1 H2] Ha Hb. destruct a as [ka sa], b as [kb sb]. cbn [Key Sc] in *. subst kb. f_equal.
  assert (sa <> S754_nan) as Na by (intros ->; discriminate). assert (sb <> S754_nan) as Nb by (intros ->; destruct sa as [?|[]| |[] ? ?]; discriminate).
  rewrite feq_rank in H2 by assumption. destruct sa as [[]|[]| |[] ma ea], sb as [[]|[]| |[] mb eb]; cbn in H2; try congruence; try (exfalso; lia); f_equal; lia.
Qed.
Theorem C38_same_is_equal : forall r r', Forall2 same r r' -> Forall (fun c => Sc c <> S754_zero true) (r ++ r') -> r = r'.
Proof.
  intros r r' H. induction H as [|a b r r' Hab H IH]; intros Hz; [reflexivity|]. cbn [app] in Hz. apply Forall_cons_iff in Hz. destruct Hz as [Za Hz].
  apply Forall_app in Hz. destruct Hz as [Hr Hz]. apply Forall_cons_iff in Hz. destruct Hz as [Zb Hr']. f_equal; [apply same_eq; assumption|]. apply IH. apply Forall_app. auto.
Qed.
Print Assumptions C38_same_is_equal.
(** Not covered by the property (its k is positive and scores are numbers): a queue for
    0 answers panics on the first insertion, and a NaN score is never displaced. *)
Theorem C38_zero_panics : forall key score, (q <- NewTopKQueue 0 ;; Add q key score) = Panic.
Proof. reflexivity. Qed.
Print Assumptions C38_zero_panics.
Theorem C38_nan_refuted : exists q, (q0 <- NewTopKQueue 1 ;; q1 <- Add q0 1 S754_nan ;; Add q1 2 f_one) = Ret q /\
  fst (GetCandidates q) = [mkCand 1 S754_nan].
Proof. eexists. split; [vm_compute; reflexivity|]. vm_compute. reflexivity. Qed.
Print Assumptions C38_nan_refuted.
Definition fl (n d : Z) : f64 := fdiv (of_int n) (of_int d).
Definition sample : list cand := [mkCand 7 (fl 1 2); mkCand 3 (fl 1 4); mkCand 2 (fl 1 2); mkCand 9 f_one; mkCand 1 (fl 1 4)].
Lemma fill_history : forall cs q k l, history q k l -> Forall (fun c => Sc c <> S754_nan) cs -> exists q', add_all q cs = Ret q' /\ history q' k (l ++ cs).
Proof.
  induction cs as [|c cs IH]; intros q k l H Hn; [exists q; rewrite app_nil_r; auto|]. cbn [add_all]. pose proof (history_inv _ _ _ H) as HI.
  destruct (add_inv q k l c HI (Forall_inv Hn)) as (q1 & E & _). rewrite E. cbn [bind]. destruct (IH q1 k (l ++ [c])) as (q' & E' & H').
  - eapply H_add; [exact H|exact (Forall_inv Hn)|exact E].
  - exact (Forall_inv_tail Hn).
  - exists q'. rewrite <- app_assoc in H'. auto.
Qed.
Example C38_nonvacuous : exists q, history q 3 sample /\ fst (GetCandidates q) = [mkCand 9 f_one; mkCand 2 (fl 1 2); mkCand 7 (fl 1 2)].
Proof.
  destruct (fill_history sample (mkQueue 3 []) 3 []) as (q & E & H).
  - apply H_new; [lia|reflexivity].
  - repeat constructor; vm_compute; discriminate.
  - exists q. split; [exact H|]. vm_compute in E. injection E as <-. vm_compute. reflexivity.
Qed.

(** C39: candidates split over workers in any way, each worker filling its own queue of
    the same k, and the queues merged into one in any order: the listing is that of a
    single queue given all candidates. *)
Definition fill (k : Z) (cs : list cand) : res queue := q <- NewTopKQueue k ;; add_all q cs.
Fixpoint merge_all (q : queue) (ws : list queue) : res queue :=
  match ws with [] => Ret q | w :: t => q' <- Merge q w ;; merge_all q' t end.
Lemma fill_ok k cs : 1 <= k -> numeric cs -> exists q, fill k cs = Ret q /\ history q k cs.
Proof.
  intros Hk Hn. unfold fill. destruct (NewTopKQueue k) as [q| | |] eqn:E; try (unfold NewTopKQueue in E; destruct (k <? 0) eqn:E0; try discriminate; lia).
  cbn [bind]. destruct (fill_history cs q k []) as (q' & E' & H); [apply H_new; assumption|exact Hn|]. eauto.
Qed.
Lemma merge_all_ok k : forall parts g l, history g k l -> Forall numeric parts -> 1 <= k ->
  exists ws g', Forall2 (fun p w => fill k p = Ret w) parts ws /\ merge_all g ws = Ret g' /\ history g' k (l ++ concat parts).
Proof.
  induction parts as [|p parts IH]; intros g l H Hn Hk.
  - exists [], g. cbn [concat]. rewrite app_nil_r. repeat split; [constructor|exact H].
  - destruct (fill_ok k p Hk (Forall_inv Hn)) as (w & Ew & Hw). destruct (merge_inv g k l w k p (history_inv _ _ _ H) (history_inv _ _ _ Hw)) as (g1 & E1 & _).
    destruct (IH g1 (l ++ p)) as (ws & g' & F & E' & H'); [eapply H_merge; [exact H|exact Hw|lia|exact E1]|exact (Forall_inv_tail Hn)|exact Hk|].
    exists (w :: ws), g'. split; [constructor; assumption|]. cbn [merge_all]. rewrite E1. cbn [bind concat]. rewrite app_assoc. auto.
Qed.
Theorem C39_merge_order_irrelevant : forall k cs parts order, 1 <= k -> numeric cs -> Permutation cs (concat parts) -> Permutation parts order ->
  exists ws g q, Forall2 (fun p w => fill k p = Ret w) order ws /\ (g0 <- NewTopKQueue k ;; merge_all g0 ws) = Ret g /\ fill k cs = Ret q /\
  Forall2 same (fst (GetCandidates g)) (fst (GetCandidates q)).
Proof.
  intros k cs parts order Hk Hn Hp Ho. assert (Permutation cs (concat order)) as Hc.
  { rewrite Hp. clear - Ho. induction Ho as [|x l l' H IH|x y l|l l' l'' H1 IH1 H2 IH2]; cbn [concat]; [constructor|apply Permutation_app_head; exact IH| |rewrite IH1; exact IH2].
    rewrite !app_assoc. apply Permutation_app_tail, Permutation_app_comm. }
  assert (numeric (concat order)) as Hno by (apply (Permutation_Forall Hc); exact Hn).
  assert (Forall numeric order) as Hparts.
  { clear - Hno. induction order as [|p t IH]; [constructor|]. cbn [concat] in Hno. apply Forall_app in Hno. destruct Hno. constructor; auto. }
  destruct (NewTopKQueue k) as [g0| | |] eqn:E; try (unfold NewTopKQueue in E; destruct (k <? 0) eqn:E0; try discriminate; lia).
  destruct (merge_all_ok k order g0 [] (H_new k g0 Hk E) Hparts Hk) as (ws & g & F & Em & Hg). destruct (fill_ok k cs Hk Hn) as (q & Eq & Hq).
  exists ws, g, q. split; [exact F|]. split; [cbn [bind]; exact Em|]. split; [exact Eq|]. cbn [app] in Hg.
  apply (best_unique k (concat order) cs); [exact Hno|symmetry; exact Hc|apply C38_topk_keeps_best; exact Hg|apply C38_topk_keeps_best; exact Hq].
Qed.
Print Assumptions C39_merge_order_irrelevant.
Example C39_nonvacuous : exists ws g, Forall2 (fun p w => fill 2 p = Ret w) [skipn 2 sample; firstn 2 sample] ws /\
  (g0 <- NewTopKQueue 2 ;; merge_all g0 ws) = Ret g /\ fst (GetCandidates g) = [mkCand 9 f_one; mkCand 2 (fl 1 2)].
Proof.
  eexists [_; _], _. split; [|split].
  - constructor; [vm_compute; reflexivity|]. constructor; [vm_compute; reflexivity|constructor].
  - vm_compute. reflexivity.
  - vm_compute. reflexivity.
Qed.

(** C40: after a listing the queue still has the same history (so every later operation
    is covered by C38), and adding further candidates gives the same listing with and
    without it. *)
Theorem C40_listing_is_repeatable : forall q k l cs, history q k l -> numeric cs ->
  exists q1 q2, add_all q cs = Ret q1 /\ add_all (snd (GetCandidates q)) cs = Ret q2 /\ history q1 k (l ++ cs) /\ history q2 k (l ++ cs) /\
  Forall2 same (fst (GetCandidates q1)) (fst (GetCandidates q2)).
Proof.
  intros q k l cs H Hn. destruct (fill_history cs q k l H Hn) as (q1 & E1 & H1). destruct (fill_history cs _ k l (H_list _ _ _ H) Hn) as (q2 & E2 & H2).
  exists q1, q2. repeat (split; [assumption|]). apply (best_unique k (l ++ cs) (l ++ cs)); [|reflexivity|apply C38_topk_keeps_best; exact H1|apply C38_topk_keeps_best; exact H2].
  apply history_inv in H1. exact (proj1 (proj2 (proj2 H1))).
Qed.
Print Assumptions C40_listing_is_repeatable.
Theorem C40_listing_twice : forall q k l, history q k l -> Forall (fun c => Sc c <> S754_zero true) l ->
  fst (GetCandidates (snd (GetCandidates q))) = fst (GetCandidates q).
Proof.
  intros q k l H Hz. pose proof (C38_topk_keeps_best _ _ _ H) as B1. pose proof (C38_topk_keeps_best _ _ _ (H_list _ _ _ H)) as B2.
  pose proof (proj1 (proj2 (proj2 (history_inv _ _ _ H)))) as Hn. symmetry. apply C38_same_is_equal; [apply (best_unique k l l); auto|].
  destruct B1 as (_ & _ & rest1 & P1 & _), B2 as (_ & _ & rest2 & P2 & _). pose proof Hz as Hz'. apply (Permutation_Forall P1), Forall_app in Hz. apply (Permutation_Forall P2), Forall_app in Hz'.
  apply Forall_app. tauto.
Qed.
Print Assumptions C40_listing_twice.
Example C40_nonvacuous : exists q, fill 3 sample = Ret q /\ history q 3 sample /\ qh (snd (GetCandidates q)) <> qh q.
Proof.
  destruct (fill_ok 3 sample) as (q & E & H); [lia|repeat constructor; vm_compute; discriminate|]. exists q. split; [exact E|]. split; [exact H|].
  vm_compute in E. injection E as <-. vm_compute. discriminate.
Qed.
