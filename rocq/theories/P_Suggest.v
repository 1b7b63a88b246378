(** Properties C41-C42 (pkg/suggest/suggester.go): one Suggest call with its workers,
    under every schedule.  [run sched start = Some p]: the schedule [sched] (which
    goroutine moves, again and again) is possible and leads to [p]. *)
From Coq Require Import String ZifyBool Permutation Sorted Reals Lra Lia.
From Verif Require Import Base BaseLemmas GoMap Store StoreSpec Postings PostingsSpec PostingsDrive P_PostingsLemmas Merger MergerSpec P_MergerLemmas Index IndexSpec IndexProofs IndexProofs2 P_IndexLemmas P_Index
  Float64 Metric MetricSpec MetricProofs FloatProofs MetricFloat MetricFloat2 MetricScore P_Metric TopK TopKSpec TopKProofs Suggest SuggestSpec SuggestProofs SuggestProofs2 P_SuggestLemmas.
Local Open Scope Z_scope.

(** ** C41 *)
(** The full claim, for the entries and scores as computed: the result is the k best of
    the entries that pass the filters for the requested similarity. *)
Definition best_answers (d : metric) (alpha : f64) (k : Z) (tokens : list term) (docs : list (Z * list term)) (r : list cand) : Prop :=
  best_k k (answers d alpha (fun _ => alpha) tokens docs) r.
(** False: two schedules of one query return different entries.  Query of 6 tokens,
    entry 0 has 4 tokens and shares 2, entry 1 has one token, shared: both have score
    1/sqrt 6; with k = 1, when entry 1 is collected first the raised similarity
    prunes entry 0, although it has the same score and a smaller id. *)
Definition demo41_docs : list (Z * list term) := [(0, [bs "a"; bs "b"; bs "x"; bs "y"]); (1, [bs "c"])].
Definition demo41_query : list term := [bs "a"; bs "b"; bs "c"; bs "d"; bs "e"; bs "f"].
(* any documents indexed with the codecs of C24 give an index for them *)
Definition build (docs : list (Z * list term)) : list (option inverted) :=
  match (w <- Index.add_all [] docs ;; ops <- Commit rb4 gob1 (fun _ m => m) "d" "h" 0 w ;; IndexRead gob1 (fs_input (fs_run NewFSDirectory ops)) "d" "h") with
  | Ret ix => ix | _ => []
  end.
Definition demo41_index : list (option inverted) := build demo41_docs.
Definition quarter : f64 := fdiv f_one (of_int 4).
Definition P n := repeat CProd n.
Definition W i n := repeat (CWork i) n.
(* every size is processed before the next is sent *)
Definition sched_fifo : list choice := P 3 ++ W 0 2 ++ P 3 ++ W 0 2 ++ P 3 ++ W 0 7 ++ P 3 ++ W 0 2 ++ P 3 ++ W 0 2 ++ P 3 ++ W 0 2 ++ P 1 ++ [CWork 0; CWork 1; CWork 2; CWork 3] ++ P 1.
(* the worker that received size 4 is delayed *)
Definition sched_late : list choice := P 3 ++ W 0 2 ++ P 3 ++ W 0 2 ++ P 3 ++ W 1 1 ++ P 3 ++ W 0 2 ++ P 3 ++ W 0 2 ++ P 3 ++ W 0 7 ++ W 1 6 ++ P 1 ++ [CWork 0; CWork 1; CWork 2; CWork 3] ++ P 1.
Definition demo41 (sched : list choice) : option proc :=
  run rb4 (fun l => l) demo41_index demo41_query Cosine quarter 1 sched (start demo41_index demo41_query Cosine quarter 1).
Theorem C41_same_answers_refuted :
  demo41 sched_fifo = Some (Finished (Ret [mkCand 0 (Score Cosine 2 6 4)])) /\
  demo41 sched_late = Some (Finished (Ret [mkCand 1 (Score Cosine 1 6 1)])) /\
  Score Cosine 2 6 4 = Score Cosine 1 6 1.
Proof. vm_compute. repeat split. Qed.
Print Assumptions C41_same_answers_refuted.

(** What holds for every index, query and schedule (similarity from 2^-15 to 1, at most
    65535 distinct query tokens, entries below 2^26 tokens): the call returns no error;
    at most k entries, best first, each once, each an entry of the dictionary with its
    score and with at least the requested similarity less a relative 2^-46; and an
    entry whose similarity exceeds the requested one by a relative 2^-46 is returned,
    unless k entries are returned and none of them has a score clearly below its
    similarity. *)
Theorem C41_every_schedule_partial : forall rb srt ix docs tokens d alpha k sched r,
  query_ok ix tokens d alpha k -> searchable ix tokens d alpha -> docs_ok docs -> index_of rb ix docs -> sorter_ok srt ->
  run rb srt ix tokens d alpha k sched (start ix tokens d alpha k) = Some (Finished r) ->
  exists l, r = Ret l /\ zlen l <= k /\ StronglySorted (fun a b => ~ worse a b) l /\ NoDup (map Key l) /\
    (forall c, In c l -> exists doc, In doc docs /\ c = cand_of d tokens doc /\ (sim_of d tokens doc >= val alpha * (1 - / 2 ^ 46))%R) /\
    (forall doc, In doc docs -> 1 <= zlen (snd doc) -> (d = Overlap -> zlen (snd doc) <= 32767) -> (sim_of d tokens doc >= val alpha * (1 + / 2 ^ 46))%R ->
       In (cand_of d tokens doc) l \/
       (zlen l = k /\ forall c, In c l -> (sim_of d tokens doc <= val (Sc c) * (1 + / 2 ^ 46) + / 2 ^ 50)%R)).
Proof.
  intros rb srt ix docs tokens d alpha k sched r Hq Hs Hd Hi Hso Hr. destruct (q_returns_distinct rb srt ix docs tokens d alpha k Hq Hd Hi Hso sched r Hs Hr) as (l & -> & Hg).
  exists l. split; [reflexivity|]. replace (/ 2 ^ 46)%R with delta by (unfold delta; lra). replace (/ 2 ^ 50)%R with eps by (unfold eps; lra).
  pose proof Hg as (sims & _ & Hl & Hsort & _). split; [unfold zlen; lia|]. split; [exact Hsort|]. split; [eapply keys_distinct; eassumption|].
  split; [intros c Hc; eapply sound; eassumption|]. intros doc. eapply complete; eassumption.
Qed.
Print Assumptions C41_every_schedule_partial.
(** With fewer than k answers the result does not depend on the schedule: it is the full
    claim. *)
Theorem C41_fewer_than_k_partial : forall rb srt ix docs tokens d alpha k sched l,
  query_ok ix tokens d alpha k -> searchable ix tokens d alpha -> docs_ok docs -> index_of rb ix docs -> sorter_ok srt ->
  run rb srt ix tokens d alpha k sched (start ix tokens d alpha k) = Some (Finished (Ret l)) -> zlen l < k ->
  best_answers d alpha k tokens docs l.
Proof.
  intros rb srt ix docs tokens d alpha k sched l Hq Hs Hd Hi Hso Hr Hk. destruct (q_returns_distinct rb srt ix docs tokens d alpha k Hq Hd Hi Hso sched _ Hs Hr) as (l' & E & Hg).
  injection E as <-. eapply few; eassumption.
Qed.
Print Assumptions C41_fewer_than_k_partial.
(** The full claim holds for the exact-match metric ... *)
Theorem C41_exact_metric : forall rb srt ix docs tokens alpha k sched l,
  query_ok ix tokens Exact alpha k -> searchable ix tokens Exact alpha -> docs_ok docs -> index_of rb ix docs -> sorter_ok srt ->
  run rb srt ix tokens Exact alpha k sched (start ix tokens Exact alpha k) = Some (Finished (Ret l)) ->
  best_answers Exact alpha k tokens docs l.
Proof.
  intros rb srt ix docs tokens alpha k sched l Hq Hs Hd Hi Hso Hr. destruct (q_returns_distinct rb srt ix docs tokens Exact alpha k Hq Hd Hi Hso sched _ Hs Hr) as (l' & E & Hg).
  injection E as <-. destruct Hg as (sims & _ & Hb). exact Hb.
Qed.
Print Assumptions C41_exact_metric.
(** ... and for every metric when the thresholds are consistent with the scores, that is
    an entry with score >= s reaches the threshold for s, and thresholds grow with s
    (true of the formulas, C35; false of their rounded values in general, C36; for a
    given query and index a finite check). *)
Theorem C41_consistent_thresholds_partial : forall rb srt ix docs tokens d alpha k sched l,
  query_ok ix tokens d alpha k -> searchable ix tokens d alpha -> docs_ok docs -> index_of rb ix docs -> sorter_ok srt ->
  (forall s m B, flt alpha s = true -> score_like ix tokens d s -> 0 <= m <= zlen tokens -> m <= B -> 1 <= B < zlen ix ->
     fle s (Score d m (zlen tokens) B) = true -> Threshold d s (zlen tokens) B <= m) ->
  (forall s B, flt alpha s = true -> score_like ix tokens d s -> 1 <= B < zlen ix -> Threshold d alpha (zlen tokens) B <= Threshold d s (zlen tokens) B) ->
  run rb srt ix tokens d alpha k sched (start ix tokens d alpha k) = Some (Finished (Ret l)) ->
  best_answers d alpha k tokens docs l.
Proof.
  intros rb srt ix docs tokens d alpha k sched l Hq Hs Hd Hi Hso L1 L2 Hr. destruct (q_returns_distinct rb srt ix docs tokens d alpha k Hq Hd Hi Hso sched _ Hs Hr) as (l' & E & Hg).
  injection E as <-. eapply exact_laws; eassumption.
Qed.
Print Assumptions C41_consistent_thresholds_partial.
(** Two runs that both return the k best answers return the same ids with equal scores. *)
Theorem C41_best_is_unique : forall d alpha k tokens docs l l', numeric (answers d alpha (fun _ => alpha) tokens docs) ->
  best_answers d alpha k tokens docs l -> best_answers d alpha k tokens docs l' -> Forall2 same l l'.
Proof. intros d alpha k tokens docs l l' Hn H1 H2. exact (best_unique k _ _ l l' Hn (Permutation_refl _) H1 H2). Qed.
Print Assumptions C41_best_is_unique.
(** The result and the similarity are only touched under the lock. *)
Theorem C41_mutual_exclusion : forall rb srt ix tokens d alpha k sched s,
  run rb srt ix tokens d alpha k sched (start ix tokens d alpha k) = Some (Running s) ->
  zlen (filter holder (s_ws s)) = if s_locked s then 1 else 0.
Proof. intros rb srt ix tokens d alpha k sched s. apply run_lock. Qed.
Print Assumptions C41_mutual_exclusion.

(** Queries with repeated tokens (the tokenizer can produce them, C29).  A repeated token
    counts every time, so the score is not a similarity: it can exceed 1. *)
Theorem C41_score_above_one_refuted :
  run rb4 (fun l => l) (build [(0, [bs "a"])]) [bs "a"; bs "a"; bs "a"] Jaccard quarter 1 (P 3 ++ W 0 2 ++ P 3 ++ W 0 2 ++ P 3 ++ W 0 7 ++ P 1 ++ [CWork 0] ++ P 1)
    (start (build [(0, [bs "a"])]) [bs "a"; bs "a"; bs "a"] Jaccard quarter 1) = Some (Finished (Ret [mkCand 0 (Score Jaccard 3 3 1)])) /\
  flt f_two (Score Jaccard 3 3 1) = true.
Proof. vm_compute. split; reflexivity. Qed.
Print Assumptions C41_score_above_one_refuted.
(** Still, for any query and schedule: no error, at most k entries, best first, each once,
    each with its score and of an admissible size; and with fewer than k of them, all
    entries that pass the filters. *)
Theorem C41_repeated_tokens_partial : forall rb srt ix docs tokens d alpha k sched r,
  query_any ix tokens d alpha k -> searchable ix tokens d alpha -> docs_ok docs -> index_of rb ix docs -> sorter_ok srt ->
  run rb srt ix tokens d alpha k sched (start ix tokens d alpha k) = Some (Finished r) ->
  exists l, r = Ret l /\ zlen l <= k /\ StronglySorted (fun a b => ~ worse a b) l /\ NoDup (map Key l) /\
    (forall c, In c l -> exists doc, In doc docs /\ c = cand_of d tokens doc /\ 1 <= overlap_of tokens (snd doc) /\
       MinY d alpha (zlen tokens) <= zlen (snd doc) <= MaxY d alpha (zlen tokens)) /\
    (zlen l < k -> best_k k (answers_any d alpha (fun _ => alpha) tokens docs) l).
Proof.
  intros rb srt ix docs tokens d alpha k sched r Hq Hs Hd Hi Hso Hr. destruct (q_returns rb srt ix docs tokens d alpha k Hq Hd Hi Hso sched r Hs Hr) as (l & -> & Hg).
  exists l. split; [reflexivity|]. destruct Hg as (sims & Hsm & Hb). pose proof Hb as (Hl & Hsort & rest & Hp & _). split; [unfold zlen; lia|]. split; [exact Hsort|]. split; [|split].
  - apply (Permutation_map Key) in Hp. rewrite map_app in Hp.
    assert (NoDup (map Key (answers_any d alpha sims tokens docs))) as Hn; [|apply (Permutation_NoDup Hp) in Hn; clear - Hn; induction (map Key l) as [|x t IH]; [constructor|]; cbn [app] in Hn; inversion_clear Hn; constructor; [intros Hi; apply H; apply in_app_iff; left; exact Hi|apply IH; assumption]].
    unfold answers_any. rewrite map_map. cbn [cand_of Key]. destruct Hd as (Hs1 & _ & _). clear - Hs1.
    induction docs as [|x t IH]; [constructor|]. cbn [map filter] in *. inversion_clear Hs1. destruct (eligible_any d alpha sims tokens x); [|auto]. cbn [map]. constructor; [|auto].
    intros Hi. apply in_map_iff in Hi. destruct Hi as (y & E & Hy). apply filter_In in Hy. destruct Hy as [Hy _]. rewrite Forall_forall in H0. specialize (H0 (fst y) (in_map fst _ _ Hy)). lia.
  - intros c Hc. assert (In c (answers_any d alpha sims tokens docs)) as Hin by (apply (Permutation_in _ (Permutation_sym Hp)), in_app_iff; left; exact Hc).
    apply in_map_iff in Hin. destruct Hin as (doc & <- & Hin). apply filter_In in Hin. destruct Hin as [Hin E]. exists doc. split; [exact Hin|]. split; [reflexivity|].
    unfold eligible_any, eligible in E. cbn zeta in E. pose proof (q_min _ _ _ _ _ Hq).
    assert (zlen (snd doc) < zlen ix) by (eapply doc_size; [exact Hi|exact (q_score _ _ _ _ _ Hq)|exact (q_thr _ _ _ _ _ Hq)|exact Hin|lia]).
    assert (sim_like ix tokens d alpha (sims (zlen (snd doc)))) as Hsl by (destruct (Hsm (zlen (snd doc))) as [->|(H2 & H3 & _)]; [left; reflexivity|right; split; assumption]).
    pose proof (q_thr _ _ _ _ _ Hq _ (zlen (snd doc)) Hsl ltac:(lia)). lia.
  - intros Hlt. replace (answers_any d alpha (fun _ => alpha) tokens docs) with (answers_any d alpha sims tokens docs); [exact Hb|]. unfold answers_any. f_equal.
    apply filter_ext. intros doc. unfold eligible_any, eligible. cbn zeta. destruct (Hsm (zlen (snd doc))) as [->|(_ & _ & H & _)]; [reflexivity|lia].
Qed.
Print Assumptions C41_repeated_tokens_partial.

(** ** C42 *)
(** Every schedule ends: at most a fixed number of moves, whatever the index holds. *)
Theorem C42_terminates_partial : forall rb srt ix tokens d alpha k sched p, query_any ix tokens d alpha k ->
  run rb srt ix tokens d alpha k sched (start ix tokens d alpha k) = Some p ->
  zlen sched <= 20 * Z.max 0 (Z.max (zlen tokens - bMin tokens d alpha + 1) (bMax ix tokens d alpha - zlen tokens)) + 7.
Proof.
  intros rb srt ix tokens d alpha k sched p Hq Hr. pose proof (q_A _ _ _ _ _ Hq). pose proof (q_min _ _ _ _ _ Hq). pose proof (q_max60 _ _ _ _ _ Hq). pose proof (q_bmax _ _ _ _ _ Hq) as Hb.
  change (20 * Z.max 0 (Z.max (zlen tokens - bMin tokens d alpha + 1) (bMax ix tokens d alpha - zlen tokens)) + 7) with (step_bound ix tokens d alpha).
  eapply run_bounded; [| | |exact Hr]; [lia|unfold bMin, sizeA; lia|lia].
Qed.
Print Assumptions C42_terminates_partial.
(** With entries of at least the smallest admissible size, and a sound index: nothing
    panics, and as long as the call has not returned some goroutine can move.  So every
    maximal run returns a result. *)
Theorem C42_returns_partial : forall rb srt ix docs tokens d alpha k sched p,
  query_any ix tokens d alpha k -> searchable ix tokens d alpha -> docs_ok docs -> index_of rb ix docs -> sorter_ok srt ->
  run rb srt ix tokens d alpha k sched (start ix tokens d alpha k) = Some p ->
  (exists l, p = Finished (Ret l)) \/ (exists s c p', p = Running s /\ exec rb srt ix tokens d alpha k c p = Some p').
Proof.
  intros rb srt ix docs tokens d alpha k sched p Hq Hs Hd Hi Hso Hr. pose proof (q_run rb srt ix docs tokens d alpha k Hq Hd Hi Hso sched p Hs Hr) as HG. destruct p as [s|r|].
  - right. destruct (q_progress rb srt ix docs tokens d alpha k Hq Hd Hi Hso sched s Hs Hr) as (c & p' & E). exists s, c, p'. auto.
  - left. cbn [Good] in HG. destruct r as [l| | |]; [|destruct HG..]. exists l. reflexivity.
  - destruct HG.
Qed.
Print Assumptions C42_returns_partial.
(** No deadlock for any index, also a corrupt one whose searches fail, if the index has
    entries at least as long as the query. *)
Theorem C42_no_deadlock_any_index_partial : forall rb srt ix tokens d alpha k sched s,
  query_any ix tokens d alpha k -> zlen tokens < zlen ix ->
  run rb srt ix tokens d alpha k sched (start ix tokens d alpha k) = Some (Running s) ->
  exists c p, exec rb srt ix tokens d alpha k c (Running s) = Some p.
Proof.
  intros rb srt ix tokens d alpha k sched s Hq Hl Hr. pose proof (q_A _ _ _ _ _ Hq). pose proof (q_min _ _ _ _ _ Hq). pose proof (q_max60 _ _ _ _ _ Hq). pose proof (q_bmax _ _ _ _ _ Hq) as Hb.
  eapply no_deadlock; [| | | | |exact Hr]; try lia; try (unfold bMin, sizeA; lia); [exact (q_cap _ _ _ _ _ Hq)].
Qed.
Print Assumptions C42_no_deadlock_any_index_partial.
(** The claim is false.  When every entry is too short for the query by more than one
    token, the call panics (a channel of negative size) ... *)
Theorem C42_short_entries_panic_refuted : forall ix tokens d alpha k, query_any ix tokens d alpha k ->
  zlen ix < MinY d alpha (zlen tokens) -> start ix tokens d alpha k = Crashed.
Proof.
  intros ix tokens d alpha k Hq Hl. pose proof (q_A _ _ _ _ _ Hq). pose proof (q_cap _ _ _ _ _ Hq) as Hc. pose proof (q_bmax _ _ _ _ _ Hq) as Hb. pose proof (q_max60 _ _ _ _ _ Hq). pose proof (q_min _ _ _ _ _ Hq).
  unfold start. replace (zlen tokens =? 0) with false by lia. rewrite Hc, Hb. unfold bMin, sizeA. replace (_ || _) with true; [reflexivity|]. lia.
Qed.
Print Assumptions C42_short_entries_panic_refuted.
(** ... and when they are too short by exactly one token it hangs: no worker exists and
    the first send blocks, on every schedule. *)
Theorem C42_short_entries_hang_refuted : forall rb srt ix tokens d alpha k, query_any ix tokens d alpha k ->
  zlen ix = MinY d alpha (zlen tokens) ->
  (forall sched p, run rb srt ix tokens d alpha k sched (start ix tokens d alpha k) = Some p -> zlen sched <= 1 /\ exists s, p = Running s) /\
  exists s, run rb srt ix tokens d alpha k [CProd] (start ix tokens d alpha k) = Some (Running s) /\ forall c, exec rb srt ix tokens d alpha k c (Running s) = None.
Proof.
  intros rb srt ix tokens d alpha k Hq Hl. pose proof (q_A _ _ _ _ _ Hq). pose proof (q_cap _ _ _ _ _ Hq) as Hc. pose proof (q_bmax _ _ _ _ _ Hq) as Hb. pose proof (q_max60 _ _ _ _ _ Hq). pose proof (q_min _ _ _ _ _ Hq). pose proof (q_k _ _ _ _ _ Hq).
  assert (chan_cap ix tokens d alpha = 0) as C0 by (rewrite Hc, Hb; unfold bMin, sizeA; lia).
  set (s0 := mkSt [] (PLoop (zlen tokens) (zlen tokens + 1)) [] (mkQueue k []) alpha false). set (s1 := mkSt [] (PSendI (zlen tokens) (zlen tokens + 1)) [] (mkQueue k []) alpha false).
  assert (start ix tokens d alpha k = Running s0) as E0.
  { unfold start. replace (zlen tokens =? 0) with false by lia. rewrite C0. unfold NewTopKQueue. replace (k <? 0) with false by lia. reflexivity. }
  assert (forall n, nth_error (@nil wst) n = None) as Nn by (intros [|n]; reflexivity).
  assert (forall c, exec rb srt ix tokens d alpha k c (Running s0) = match c with CProd => Some (Running s1) | _ => None end) as E1.
  { intros [|n]; cbn [exec s_ws s0]; [|rewrite Nn; reflexivity]. unfold exec_prod. cbn [s_prod s0]. unfold bMin, sizeA. replace (_ || _) with true by lia. reflexivity. }
  assert (forall c, exec rb srt ix tokens d alpha k c (Running s1) = None) as E2.
  { intros [|n]; cbn [exec s_ws s1]; [|rewrite Nn; reflexivity]. unfold exec_prod. cbn [s_prod s1]. unfold bMin, sizeA. replace (MinY d alpha (zlen tokens) <=? zlen tokens) with true by lia.
    unfold send. rewrite C0. reflexivity. }
  rewrite E0. split.
  - intros [|c [|c' t]] p; cbn [run]; rewrite ?E1.
    + intros E. injection E as <-. split; [cbn; lia|eauto].
    + destruct c; [|discriminate]. intros E. injection E as <-. split; [cbn; lia|eauto].
    + destruct c; [|discriminate]. rewrite E2. discriminate.
  - exists s1. cbn [run]. rewrite E1. split; [reflexivity|exact E2].
Qed.
Print Assumptions C42_short_entries_hang_refuted.
(** NaN is an accepted similarity (C45).  Then the call never returns: the loop over the
    sizes does not end. *)
Theorem C42_nan_never_returns_refuted : forall rb srt ix tokens d k sched p, d = Cosine \/ d = Dice \/ d = Jaccard -> 1 <= zlen tokens < 2 ^ 62 ->
  run rb srt ix tokens d S754_nan k sched (start ix tokens d S754_nan k) = Some p -> forall r, p <> Finished r.
Proof.
  intros rb srt ix tokens d k sched p Hd HA Hr.
  assert (bMin tokens d S754_nan = MinInt64) as B1 by (destruct Hd as [->|[->| ->]]; unfold bMin, MinY; destruct (of_int (sizeA tokens)); reflexivity).
  set (loops := fun s => match s_prod s with PLoop i j | PSendI i j | PSendJ i j => MinInt64 <= i | PWait => False end).
  set (Pr := fun p => match p with Running s => loops s | Finished _ => False | Crashed => True end).
  assert (forall x, MinInt64 <= wrapi64 x) as Hw by (intros x; unfold wrapi64, MinInt64; pose proof (Z.mod_pos_bound (x + 2 ^ 63) (2 ^ 64)); lia).
  assert (forall c p p', Pr p -> exec rb srt ix tokens d S754_nan k c p = Some p' -> Pr p') as Hstep.
  { intros c q q' Hq He. destruct q as [s| |]; try discriminate. cbn [Pr] in Hq. destruct c as [|i]; cbn [exec] in He.
    - unfold exec_prod, send, goto in He. rewrite B1 in He. unfold loops in Hq. destruct (s_prod s) as [i j|i j|i j|] eqn:Ep; cbn zeta in He; [| | |destruct Hq].
      + replace (MinInt64 <=? i) with true in He by lia. cbn [orb] in He. injection He as <-. exact Hq.
      + replace (MinInt64 <=? i) with true in He by lia. destruct (zlen (s_ch s) <? _); [|discriminate]. injection He as <-. exact Hq.
      + destruct (j <=? _); [destruct (zlen (s_ch s) <? _); [|discriminate]|]; injection He as <-; apply Hw.
    - destruct (nth_error (s_ws s) i) as [w|]; [|discriminate]. unfold loops in Hq.
      destruct w as [|b|b T|b q|b q| | | |e]; cbn [exec_worker] in He.
      + destruct (s_ch s); [destruct (s_prod s) eqn:Ep; try discriminate; destruct Hq|]. injection He as <-. exact Hq.
      + destruct (_ || _); [|destruct (IndicesGet ix b)]; injection He as <-; exact Hq.
      + destruct (IndicesGet ix b); [|injection He as <-; exact I]. destruct (worker_search _ _ _ _ _ _ _ _); injection He as <-; first [exact Hq|exact I].
      + destruct (s_locked s); [discriminate|]. injection He as <-. exact Hq.
      + destruct (Merge _ _); injection He as <-; first [exact Hq|exact I].
      + destruct (ManagerLowestScore _); injection He as <-; first [exact Hq|exact I].
      + injection He as <-. exact Hq.
      + discriminate.
      + discriminate. }
  assert (forall sched p p', Pr p -> run rb srt ix tokens d S754_nan k sched p = Some p' -> Pr p') as Hrun.
  { induction sched0 as [|c t IH]; intros q q' Hq Hr'; cbn [run] in Hr'; [injection Hr' as <-; exact Hq|]. destruct (exec _ _ _ _ _ _ _ c q) eqn:E; [|discriminate]. eapply IH; [|exact Hr']. eapply Hstep; eassumption. }
  intros r ->. apply (Hrun sched _ _) in Hr; [destruct Hr|]. unfold start. replace (zlen tokens =? 0) with false by lia. destruct (_ || _); [exact I|]. destruct (NewTopKQueue k); try exact I.
  cbn [Pr]. unfold loops. cbn [s_prod]. unfold sizeA, MinInt64. lia.
Qed.
Print Assumptions C42_nan_never_returns_refuted.
(** A tiny similarity makes the upper size bound overflow: a one-token query panics,
    whatever the index. *)
Theorem C42_tiny_similarity_panics_refuted : forall ix t k, start ix [t] Cosine tiny_alpha k = Crashed.
Proof.
  intros ix t k. unfold start, chan_cap, bMax, bMin, sizeA. change (zlen [t]) with 1. replace (MaxY Cosine tiny_alpha 1) with MinInt64 by (vm_compute; reflexivity).
  replace (MinY Cosine tiny_alpha 1) with 1 by (vm_compute; reflexivity). pose proof (zlen_nonneg ix). replace (zlen ix <=? MinInt64) with false by (unfold MinInt64; lia). reflexivity.
Qed.
Print Assumptions C42_tiny_similarity_panics_refuted.

(** ** The hypotheses are met *)
Definition doclist_fits (docs : list (Z * list term)) : bool :=
  match (w <- Index.add_all [] docs ;; Commit rb4 gob1 (fun _ m => m) "d" "h" 0 w) with
  | Ret ops => match fs_open (fs_run NewFSDirectory ops) "d" with Some b => zlen b <? 2 ^ 32 | None => true end
  | _ => true
  end.
Lemma build_ok docs : docs_ok docs -> starts_ok docs -> Forall (fun d => zlen (snd d) + 1 < 2 ^ 32) docs -> zlen docs < 2 ^ 32 ->
  doclist_fits docs = true ->
  index_of rb4 (build docs) docs.
Proof.
  intros H1 H2 H3 H4 H5. destruct (C24_index_roundtrip_fs rb4 gob1 (fun _ m => m) "d"%string "h"%string [] docs rb4_ok rb4_written gob1_ok (fun _ m => Permutation_refl m) H1 H2 H3 H4 ltac:(discriminate)) as (w & ops & Ew & Eo & H).
  cbn [count_creates] in Eo. destruct (H ops) as (ix & Er & Hix).
  - unfold Commit in Eo. destruct (commit_indices rb4 (fun _ m => m) 0 w 0) as [[[ws ds] n]| | |]; try discriminate. cbn [bind] in Eo. injection Eo as <-. split; [|intros; apply Nat.le_0_l].
    cbn [filter is_flush negb]. f_equal. rewrite filter_app. cbn [filter is_flush negb]. f_equal. clear. induction ws as [|x ws IH]; [reflexivity|]. cbn [map filter is_flush negb]. f_equal. exact IH.
  - intros b. cbn [app]. unfold doclist_fits in H5. rewrite Ew in H5. cbn [bind] in H5. rewrite Eo in H5. intros Eb. rewrite Eb in H5. lia.
  - unfold build. rewrite Ew. cbn [bind]. rewrite Eo. cbn [bind]. cbn [app] in Er. rewrite Er. exact Hix.
Qed.
Lemma sorter_id : sorter_ok (fun l => l).
Proof. intros l. apply Permutation_refl. Qed.
Ltac docs_tac := split; [repeat apply SSorted_cons; try apply SSorted_nil; repeat apply Forall_cons; try apply Forall_nil; reflexivity
  |split; [repeat apply Forall_cons; try apply Forall_nil; unfold is_u32; cbn [fst]; lia
  |repeat apply Forall_cons; try apply Forall_nil; cbn [snd]; repeat apply NoDup_cons; try apply NoDup_nil; cbn; intuition discriminate]].
Ltac build_tac := apply build_ok; [|discriminate|repeat (apply Forall_cons; [reflexivity|]); apply Forall_nil|reflexivity
  |vm_compute; reflexivity].
Lemma alpha_quarter : alpha_ok quarter.
Proof.
  assert (quarter = S754_finite false 4503599627370496 (-54)) as -> by (vm_compute; reflexivity). split; [split; vm_compute; reflexivity|]. rewrite val_finite. cbn [sgn].
  change (Flocq.Core.Raux.bpow Flocq.Core.Zaux.radix2 (-54)) with (/ IZR (Z.pow_pos 2 54))%R. change (Z.pow_pos 2 54) with 18014398509481984. lra.
Qed.
Example C41_nonvacuous : query_ok demo41_index demo41_query Cosine quarter 1 /\ searchable demo41_index demo41_query Cosine quarter /\ docs_ok demo41_docs /\
  index_of rb4 demo41_index demo41_docs /\ sorter_ok (fun l => l) /\ exists l, demo41 sched_fifo = Some (Finished (Ret l)) /\ zlen l = 1.
Proof.
  assert (docs_ok demo41_docs) as Hd by docs_tac. assert (zlen demo41_index = 5) as Hn by (vm_compute; reflexivity). unfold query_ok, searchable. rewrite Hn. split; [|split; [vm_compute; reflexivity|split; [exact Hd|split; [|split; [exact sorter_id|eexists; split; [exact (proj1 C41_same_answers_refuted)|reflexivity]]]]]].
  - split; [exact alpha_quarter|]. split; [repeat apply NoDup_cons; try apply NoDup_nil; cbn; intuition discriminate|]. repeat split; try discriminate.
  - unfold demo41_index. build_tac. exact Hd.
Qed.


(* the laws of C41_consistent_thresholds_partial, as a check of finitely many cases *)
Definition range (lo hi : Z) : list Z := map (fun i => lo + Z.of_nat i) (seq 0 (Z.to_nat (hi - lo + 1))).
Lemma in_range lo hi x : lo <= x <= hi -> In x (range lo hi).
Proof. intros H. apply in_map_iff. exists (Z.to_nat (x - lo)). split; [lia|]. apply in_seq. lia. Qed.
Definition consistent (d : metric) (alpha : f64) (A n : Z) : bool :=
  forallb (fun B' => forallb (fun m' => let s := Score d m' A B' in
    negb (flt alpha s) || forallb (fun B => (Threshold d alpha A B <=? Threshold d s A B) && forallb (fun m => negb (fle s (Score d m A B)) || (Threshold d s A B <=? m)) (range 0 (Z.min A B))) (range 1 (n - 1)))
    (range 0 (Z.min A B'))) (range 1 (n - 1)).
Definition demo41b_docs : list (Z * list term) := [(0, [bs "a"; bs "b"; bs "x"]); (1, [bs "a"; bs "b"]); (2, [bs "a"; bs "b"; bs "c"; bs "d"]); (7, [bs "c"; bs "d"; bs "b"])].
Definition demo41b_query : list term := [bs "a"; bs "b"; bs "c"].
Example C41_consistent_nonvacuous : let ix := build demo41b_docs in let tokens := demo41b_query in let d := Dice in let alpha := quarter in
  query_ok ix tokens d alpha 2 /\ searchable ix tokens d alpha /\ docs_ok demo41b_docs /\ index_of rb4 ix demo41b_docs /\
  (forall s m B, flt alpha s = true -> score_like ix tokens d s -> 0 <= m <= zlen tokens -> m <= B -> 1 <= B < zlen ix ->
     fle s (Score d m (zlen tokens) B) = true -> Threshold d s (zlen tokens) B <= m) /\
  (forall s B, flt alpha s = true -> score_like ix tokens d s -> 1 <= B < zlen ix -> Threshold d alpha (zlen tokens) B <= Threshold d s (zlen tokens) B) /\
  map Key (answers d alpha (fun _ => alpha) tokens demo41b_docs) = [0; 1; 2; 7].
Proof.
  cbn zeta. assert (docs_ok demo41b_docs) as Hd by docs_tac. assert (zlen (build demo41b_docs) = 5) as Hn by (vm_compute; reflexivity).
  assert (consistent Dice quarter 3 5 = true) as Hc by (vm_compute; reflexivity). change (zlen demo41b_query) with 3.
  assert (forall s B, flt quarter s = true -> score_like (build demo41b_docs) demo41b_query Dice s -> 1 <= B < 5 -> Threshold Dice quarter 3 B <= Threshold Dice s 3 B /\
    forall m, 0 <= m <= 3 -> m <= B -> fle s (Score Dice m 3 B) = true -> Threshold Dice s 3 B <= m) as H.
  { intros s B Hs (m' & B' & Hm' & HmB' & HB' & ->) HB. assert (m' <= B') by (apply HmB'; repeat apply NoDup_cons; try apply NoDup_nil; cbn; intuition discriminate). rewrite Hn in HB'. change (zlen demo41b_query) with 3 in *. unfold consistent in Hc. rewrite forallb_forall in Hc. specialize (Hc B' (in_range 1 (5 - 1) B' ltac:(lia))).
    rewrite forallb_forall in Hc. specialize (Hc m' (in_range 0 (Z.min 3 B') m' ltac:(lia))). cbn zeta in Hc. rewrite Hs in Hc. cbn [negb orb] in Hc.
    rewrite forallb_forall in Hc. specialize (Hc B (in_range 1 (5 - 1) B ltac:(lia))). apply andb_prop in Hc. destruct Hc as [H1 H2]. split; [lia|]. intros m Hm HmB Hf.
    rewrite forallb_forall in H2. specialize (H2 m (in_range 0 (Z.min 3 B) m ltac:(lia))). rewrite Hf in H2. cbn [negb orb] in H2. lia. }
  split; [|split; [vm_compute; reflexivity|split; [exact Hd|split; [build_tac; exact Hd|split; [|split]]]]].
  - split; [exact alpha_quarter|]. split; [repeat apply NoDup_cons; try apply NoDup_nil; cbn; intuition discriminate|]. rewrite Hn. repeat split; try discriminate.
  - intros s m B H1 H2 H3 H4 H5 H6. rewrite Hn in H5. destruct (H s B H1 H2 H5) as [_ H7]. exact (H7 m H3 H4 H6).
  - intros s B H1 H2 H3. rewrite Hn in H3. exact (proj1 (H s B H1 H2 H3)).
  - vm_compute. reflexivity.
Qed.
(* similarity 1, one entry of one token: two tokens hang, three panic *)
Example C42_short_entries_nonvacuous : let ix := build [(0, [bs "a"])] in
  query_ok ix [bs "a"; bs "b"] Cosine f_one 5 /\ zlen ix = MinY Cosine f_one (zlen [bs "a"; bs "b"]) /\
  query_ok ix [bs "a"; bs "b"; bs "c"] Cosine f_one 5 /\ zlen ix < MinY Cosine f_one (zlen [bs "a"; bs "b"; bs "c"]).
Proof.
  assert (alpha_ok f_one) as Ha by (split; [exact (proj1 val_one)|rewrite (proj2 val_one); lra]). cbn zeta.
  assert (zlen (build [(0, [bs "a"])]) = 2) as Hn by (vm_compute; reflexivity). unfold query_ok. rewrite Hn.
  assert (NoDup [bs "a"; bs "b"] /\ NoDup [bs "a"; bs "b"; bs "c"]) as [N1 N2] by (split; repeat apply NoDup_cons; try apply NoDup_nil; cbn; intuition discriminate).
  change (zlen [bs "a"; bs "b"]) with 2. change (zlen [bs "a"; bs "b"; bs "c"]) with 3.
  split; [split; [exact Ha|split; [exact N1|repeat split; first [lia|discriminate]]]|]. split; [vm_compute; reflexivity|]. split; [split; [exact Ha|split; [exact N2|repeat split; first [lia|discriminate]]]|]. vm_compute. reflexivity.
Qed.
(* NaN: the call does start *)
Example C42_nan_nonvacuous : exists s, start (build [(0, [bs "a"])]) [bs "a"] Jaccard S754_nan 1 = Running s /\ s_prod s = PLoop 1 2 /\ zlen (s_ws s) = 1.
Proof. eexists. vm_compute. auto. Qed.
(* a query with a repeated token: three tokens, two answers *)
Example C41_repeated_nonvacuous : let docs := [(0, [bs "b"; bs "c"]); (1, [bs "a"])] in let ix := build docs in let tokens := [bs "a"; bs "a"; bs "b"] in
  query_any ix tokens Jaccard quarter 2 /\ ~ query_ok ix tokens Jaccard quarter 2 /\ searchable ix tokens Jaccard quarter /\ docs_ok docs /\ index_of rb4 ix docs /\
  answers_any Jaccard quarter (fun _ => quarter) tokens docs = [mkCand 0 (Score Jaccard 1 3 2); mkCand 1 (Score Jaccard 2 3 1)] .
Proof.
  cbn zeta. assert (docs_ok [(0, [bs "b"; bs "c"]); (1, [bs "a"])]) as Hd by docs_tac. assert (zlen (build [(0, [bs "b"; bs "c"]); (1, [bs "a"])]) = 3) as Hn by (vm_compute; reflexivity).
  split; [split; [exact alpha_quarter|]; rewrite Hn; repeat split; try discriminate|].
  split; [intros (_ & H & _); inversion H as [|? ? Hx]; apply Hx; left; reflexivity|]. split; [vm_compute; reflexivity|]. split; [exact Hd|]. split; [build_tac; exact Hd|]. vm_compute. reflexivity.
Qed.
