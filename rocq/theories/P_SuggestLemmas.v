(** The hypotheses of SuggestProofs for the metrics as computed, and consequences. *)
From Coq Require Import ZifyBool Permutation Sorted Reals Lra Lia.
From Flocq Require Import Core.Raux Core.Zaux Core.Defs IEEE754.BinarySingleNaN.
From Verif Require Import Base BaseLemmas GoMap Store Postings PostingsSpec Merger MergerSpec MergerProofs Index IndexSpec IndexProofs P_IndexLemmas
  Float64 Metric MetricSpec MetricProofs FloatProofs MetricFloat MetricFloat2 MetricScore MetricWide Heap HeapProofs TopK TopKSpec TopKProofs Suggest SuggestSpec SuggestProofs SuggestProofs2.
Local Open Scope Z_scope.

Lemma cmp_val x y : fin x -> fin y -> SFcompare x y = Some (Rcompare (val x) (val y)).
Proof.
  intros Hx Hy. destruct (fin_B x Hx) as (bx & -> & Fx & Vx), (fin_B y Hy) as (b_y & -> & Fy & Vy). rewrite !val_B. exact (Bcompare_correct 53 1024 bx b_y Fx Fy).
Qed.
Lemma flt_val x y : fin x -> fin y -> flt x y = true <-> (val x < val y)%R.
Proof.
  intros Hx Hy. unfold flt, SFltb. rewrite cmp_val by assumption. destruct (Rcompare_spec (val x) (val y)); split; intros; try reflexivity; try discriminate; lra.
Qed.
Lemma fle_val x y : fin x -> fin y -> fle x y = true <-> (val x <= val y)%R.
Proof.
  intros Hx Hy. unfold fle, SFleb. rewrite cmp_val by assumption. destruct (Rcompare_spec (val x) (val y)); split; intros; try reflexivity; try discriminate; lra.
Qed.
Lemma fin_num x : fin x -> x <> S754_nan.
Proof. intros H ->. destruct H; discriminate. Qed.
Lemma metric_eq_dec (d d' : metric) : {d = d'} + {d <> d'}.
Proof. decide equality. Qed.

Section M.
Context (ix : list (option inverted)) (tokens : list term) (d : metric) (alpha : f64).
Notation A := (zlen tokens).
Context (Ha : alpha_ok alpha) (HA : size_ok A) (Hix : zlen ix <= 2 ^ 26) (Hov : d = Overlap -> A <= 32767).
Lemma score_fin m B : 0 <= m <= A -> m <= B -> 1 <= B < zlen ix -> fin (Score d m A B) /\ (0 <= val (Score d m A B) <= 1)%R.
Proof.
  intros Hm HmB HB. destruct (metric_eq_dec d Exact) as [->|Hd].
  - replace (Score Exact m A B) with f_one by (vm_compute; reflexivity). destruct val_one as [F V]. split; [exact F|]. rewrite V. lra.
  - destruct (score_accurate d m A B Hd HA) as (F & V & _); [unfold size_ok; lia|lia|lia|lia|]. split; assumption.
Qed.
Lemma sim_alpha_ok s : NoDup tokens -> sim_like ix tokens d alpha s -> alpha_ok s.
Proof.
  intros Hnd [->|(Hf & m & B & Hm & HmB & HB & ->)]; [exact Ha|]. specialize (HmB Hnd). destruct (score_fin m B Hm HmB HB) as [F V]. split; [exact F|].
  apply (flt_val _ _ (proj1 Ha) F) in Hf. destruct Ha as [_ Hr]. lra.
Qed.
Lemma min_ge1 : 1 <= MinY d alpha A <= A.
Proof.
  pose proof (identical_passes d alpha A Ha HA Hov) as [H1 _]. split; [|lia]. destruct (metric_eq_dec d Exact) as [->|Hd]; [cbn [MinY]; destruct HA; lia|].
  destruct (min_rel alpha A A Ha HA HA d Hd) as (v & -> & Hr & _). assert (0 < v)%R as Hv by (eapply rel_pos; [exact Hr|pose proof u_pos; lra]).
  assert (0 < Zceil v); [|lia]. apply lt_IZR. eapply Rlt_le_trans; [exact Hv|apply Zceil_ub].
Qed.
Lemma max_small : A <= MaxY d alpha A < 2 ^ 60.
Proof.
  pose proof (identical_passes d alpha A Ha HA Hov) as [H1 _]. split; [lia|]. destruct (metric_eq_dec d Exact) as [->|Hd]; [cbn [MaxY]; destruct HA; lia|].
  destruct (max_rel alpha A A Ha HA HA d Hd) as (v & -> & Hr & _). pose proof (size_R A HA) as HR. pose proof Ha as [_ Hal].
  assert (ideal_max d (val alpha) A <= 2 ^ 58)%R as Hi.
  { assert (1 / val alpha <= 32768)%R as H32.
    { apply Rmult_le_reg_r with (val alpha); [lra|]. unfold Rdiv. rewrite Rmult_1_l, Rinv_l by lra. lra. }
    assert (0 <= 1 / val alpha)%R as H0 by (apply Rlt_le, Rdiv_lt_0_compat; lra).
    destruct d; cbn [ideal_max]; try congruence.
    - replace (IZR A / (val alpha * val alpha))%R with (IZR A * ((1 / val alpha) * (1 / val alpha)))%R by (field; lra).
      assert ((1 / val alpha) * (1 / val alpha) <= 32768 * 32768)%R by (apply Rmult_le_compat; lra).
      assert (0 <= (1 / val alpha) * (1 / val alpha))%R by (apply Rmult_le_pos; lra).
      apply Rle_trans with (67108864 * (32768 * 32768))%R; [apply Rmult_le_compat; lra|lra].
    - replace ((2 - val alpha) / val alpha * IZR A)%R with (IZR A * ((2 - val alpha) * (1 / val alpha)))%R by (field; lra).
      assert ((2 - val alpha) * (1 / val alpha) <= 2 * 32768)%R by (apply Rmult_le_compat; lra).
      assert (0 <= (2 - val alpha) * (1 / val alpha))%R by (apply Rmult_le_pos; lra).
      apply Rle_trans with (67108864 * (2 * 32768))%R; [apply Rmult_le_compat; lra|lra].
    - replace (IZR A / val alpha)%R with (IZR A * (1 / val alpha))%R by (field; lra).
      apply Rle_trans with (67108864 * 32768)%R; [apply Rmult_le_compat; lra|lra].
    - lra. }
  assert (v <= 2 ^ 59)%R as Hv. { unfold rel in Hr. pose proof u_pos. destruct Hr as (_ & _ & Hr). apply Rle_trans with (2 ^ 58 * (1 + 8 * u))%R; [|lra].
    eapply Rle_trans; [exact Hr|]. apply Rmult_le_compat_r; lra. }
  assert (Zfloor v <= 2 ^ 59); [|lia]. apply le_IZR. eapply Rle_trans; [apply Zfloor_lb|]. replace (IZR (2 ^ 59)) with (2 ^ 59)%R; [exact Hv|]. change (2 ^ 59) with 576460752303423488. lra.
Qed.
End M.
Section M2.
Context (ix : list (option inverted)) (tokens : list term) (d : metric) (alpha : f64).
Notation A := (zlen tokens).
Context (Ha : alpha_ok alpha) (HA : size_ok A) (Hix : zlen ix <= 2 ^ 26) (HA2 : A <= 65535).
Lemma score_num s : score_like ix tokens d s -> s <> S754_nan.
Proof. intros (m & B & Hm & HmB & HB & ->). apply fin_num. apply score_wide; [exact HA|unfold size_ok; lia|exact Hm|exact HA2]. Qed.
(* for repeated tokens the scores can exceed 1 *)
Lemma sim_wide s : sim_like ix tokens d alpha s -> wide_ok s.
Proof.
  destruct Ha as [Fa Hr]. intros [->|(Hf & m & B & Hm & HmB & HB & ->)]; [split; [exact Fa|lra]|].
  destruct (score_wide d m A B HA) as [F V]; [unfold size_ok; lia|exact Hm|exact HA2|]. split; [exact F|]. apply (flt_val _ _ Fa F) in Hf. lra.
Qed.
Lemma thr_ge1 s B : sim_like ix tokens d alpha s -> 1 <= B < zlen ix -> 1 <= Threshold d s A B.
Proof. intros Hs HB. apply thr_wide; [apply sim_wide; exact Hs|exact HA|unfold size_ok; lia]. Qed.
End M2.

(** the hypotheses on a query: what [NewSearchConfig] accepts and the ranges in which the
    arithmetic of the metrics was analysed *)
Definition query_ok (ix : list (option inverted)) (tokens : list term) (d : metric) (alpha : f64) (k : Z) : Prop :=
  alpha_ok alpha /\ NoDup tokens /\ 1 <= zlen tokens <= 65535 /\ zlen ix <= 2 ^ 26 /\ (d = Overlap -> zlen tokens <= 32767) /\ 1 <= k.
(** the same without the condition that the query's tokens are distinct *)
Definition query_any (ix : list (option inverted)) (tokens : list term) (d : metric) (alpha : f64) (k : Z) : Prop :=
  alpha_ok alpha /\ 1 <= zlen tokens <= 65535 /\ zlen ix <= 2 ^ 26 /\ (d = Overlap -> zlen tokens <= 32767) /\ 1 <= k.
Lemma query_ok_any ix tokens d alpha k : query_ok ix tokens d alpha k -> query_any ix tokens d alpha k.
Proof. intros (H1 & _ & H2). split; assumption. Qed.
Coercion query_ok_any : query_ok >-> query_any.
(** the index has entries of at least the smallest admissible size *)
Definition searchable (ix : list (option inverted)) (tokens : list term) (d : metric) (alpha : f64) : Prop := MinY d alpha (zlen tokens) < zlen ix.

Section C.
Context (rb : roaring) (srt : list iter -> list iter).
Context (ix : list (option inverted)) (docs : list (Z * list term)) (tokens : list term) (d : metric) (alpha : f64) (k : Z).
Notation A := (zlen tokens).
Notation run := (Suggest.run rb srt ix tokens d alpha k).
Notation start := (Suggest.start ix tokens d alpha k).
Context (Hq : query_any ix tokens d alpha k).
Lemma q_alpha : alpha_ok alpha. Proof. apply Hq. Qed.
Lemma q_A : 1 <= A <= 65535. Proof. apply Hq. Qed.
Lemma q_size : size_ok A. Proof. pose proof q_A. unfold size_ok. lia. Qed.
Lemma q_ix : zlen ix <= 2 ^ 26. Proof. apply Hq. Qed.
Lemma q_ov : d = Overlap -> A <= 32767. Proof. apply Hq. Qed.
Lemma q_k : 1 <= k. Proof. apply Hq. Qed.
Lemma q_min : 1 <= MinY d alpha A <= A. Proof. exact (min_ge1 tokens d alpha q_alpha q_size q_ov). Qed.
Lemma q_max60 : A <= MaxY d alpha A < 2 ^ 60. Proof. exact (max_small tokens d alpha q_alpha q_size q_ov). Qed.
Lemma q_max : A <= MaxY d alpha A < 2 ^ 62. Proof. pose proof q_max60. lia. Qed.
Lemma q_ix62 : zlen ix < 2 ^ 62. Proof. pose proof q_ix. lia. Qed.
Lemma q_score s : score_like ix tokens d s -> s <> S754_nan. Proof. exact (score_num ix tokens d q_size q_ix (proj2 q_A) s). Qed.
Lemma q_thr s B : sim_like ix tokens d alpha s -> 1 <= B < zlen ix -> 1 <= Threshold d s A B.
Proof. exact (thr_ge1 ix tokens d alpha q_alpha q_size q_ix (proj2 q_A) s B). Qed.
Ltac dis := first [exact q_A|exact q_k|exact q_min|exact q_max|exact q_ix62|exact q_score|exact q_thr|exact q_size].
Lemma q_cap : chan_cap ix tokens d alpha = bMax ix tokens d alpha - bMin tokens d alpha + 1.
Proof. apply cap_eq; dis. Qed.
Lemma q_bmax : bMax ix tokens d alpha = Z.min (MaxY d alpha A) (zlen ix - 1).
Proof. apply bmax_eq; dis. Qed.

Lemma chan_fits : chan_cap ix tokens d alpha <= max_chan.
Proof. rewrite q_cap, q_bmax. pose proof q_min. pose proof q_ix. unfold bMin, sizeA. change max_chan with 35184372088820. lia. Qed.

Context (Hdocs : docs_ok docs) (Hix : index_of rb ix docs) (Hsrt : sorter_ok srt).
Lemma q_start : searchable ix tokens d alpha -> Good ix docs tokens d alpha k start.
Proof.
  intros Hs. unfold searchable in Hs. pose proof q_min. pose proof q_max60. pose proof q_ix. apply start_good; try dis.
  - rewrite q_bmax. unfold bMin, sizeA. lia.
  - rewrite q_bmax. unfold bMin, sizeA. change max_chan with 35184372088820. lia.
Qed.
Lemma q_run sched p : searchable ix tokens d alpha -> run sched start = Some p -> Good ix docs tokens d alpha k p.
Proof.
  intros Hs Hr. eapply run_good; try exact Hr; try exact (q_start Hs); try assumption; dis.
Qed.
Lemma q_returns sched r : searchable ix tokens d alpha -> run sched start = Some (Finished r) -> exists l, r = Ret l /\ good_any ix docs tokens d alpha k l.
Proof. intros Hs Hr. pose proof (q_run _ _ Hs Hr) as HG. clear Hr. rename HG into Hr. cbn [Good] in Hr. destruct r as [l| | |]; [|destruct Hr..]. exists l. split; [reflexivity|exact Hr]. Qed.
(* with a sound index no worker fails: some goroutine can always move *)
Lemma q_progress sched s : searchable ix tokens d alpha -> run sched start = Some (Running s) -> exists c p, Suggest.exec rb srt ix tokens d alpha k c (Running s) = Some p.
Proof.
  intros Hs Hr. pose proof (run_lock _ _ _ _ _ _ _ _ _ Hr) as HL. pose proof (q_run _ _ Hs Hr) as HG. clear Hr. rename HG into Hr. cbn [Good] in Hr. pose proof q_min. pose proof q_max60. pose proof q_ix.
  destruct (existsb (fun w => match w with WRecv => true | _ => false end) (s_ws s)) eqn:Er.
  - apply progress; [exact HL|rewrite q_cap, q_bmax; unfold searchable, bMin, sizeA in *; lia|]. right. right. apply existsb_exists in Er. destruct Er as (w & Hin & E). destruct w; try discriminate. exact Hin.
  - destruct Hr as (sent & fin & _ & _ & _ & _ & _ & Hws & Hex & Hne). destruct (existsb gone (s_ws s)) eqn:Eg.
    + apply progress; [exact HL|rewrite q_cap, q_bmax; unfold searchable, bMin, sizeA in *; lia|]. left. apply existsb_exists in Eg. destruct Eg as (w & Hin & E). rewrite Forall_forall in Hws. specialize (Hws w Hin).
      destruct w; try discriminate; [apply (Hex Hin)|destruct Hws].
    + (* every worker is busy *)
      assert (exists w, In w (s_ws s)) as (w & Hw) by (destruct (s_ws s) as [|w l]; [congruence|]; exists w; left; reflexivity).
      destruct (busy_moves rb srt ix tokens d alpha k s HL) as (c & p & E); [|exists c, p; exact E].
      exists w. split; [exact Hw|]. split.
      * destruct (gone w) eqn:E; [|reflexivity]. assert (existsb gone (s_ws s) = true) by (apply existsb_exists; eauto). congruence.
      * intros ->. assert (existsb (fun w => match w with WRecv => true | _ => false end) (s_ws s) = true) by (apply existsb_exists; exists WRecv; auto). congruence.
Qed.
End C.

(** ** consequences *)
Definition good (ix : list (option inverted)) (docs : list (Z * list term)) (tokens : list term) (d : metric) (alpha : f64) (k : Z) (r : list cand) : Prop :=
  exists sims, (forall B, sims B = alpha \/ (flt alpha (sims B) = true /\ score_like ix tokens d (sims B) /\ zlen r = k /\ Forall (fun c => fle (sims B) (Sc c) = true) r)) /\
    best_k k (answers d alpha sims tokens docs) r.
Lemma good_distinct ix docs tokens d alpha k r : NoDup tokens -> good_any ix docs tokens d alpha k r -> good ix docs tokens d alpha k r.
Proof.
  intros Hnd (sims & Hs & Hb). exists sims. split; [exact Hs|]. replace (answers d alpha sims tokens docs) with (answers_any d alpha sims tokens docs); [exact Hb|].
  unfold answers, answers_any. f_equal. apply filter_ext. intros doc. unfold eligible_any. pose proof (overlap_le_size tokens (snd doc) Hnd). unfold eligible. cbn zeta.
  destruct (Threshold d (sims (zlen (snd doc))) (zlen tokens) (zlen (snd doc)) <=? overlap_of tokens (snd doc)) eqn:E; [|rewrite andb_false_r; reflexivity]. rewrite andb_true_r.
  replace (Threshold _ _ _ _ <=? zlen (snd doc)) with true by lia. apply andb_true_r.
Qed.
Lemma q_nodup ix tokens d alpha k : query_ok ix tokens d alpha k -> NoDup tokens. Proof. intros H. apply H. Qed.
Lemma q_returns_distinct rb srt ix docs tokens d alpha k : query_ok ix tokens d alpha k -> docs_ok docs -> index_of rb ix docs -> sorter_ok srt -> forall sched r,
  searchable ix tokens d alpha -> Suggest.run rb srt ix tokens d alpha k sched (Suggest.start ix tokens d alpha k) = Some (Finished r) -> exists l, r = Ret l /\ good ix docs tokens d alpha k l.
Proof.
  intros Hq Hd Hi Hso sched r Hs Hr. destruct (q_returns rb srt ix docs tokens d alpha k Hq Hd Hi Hso sched r Hs Hr) as (l & -> & Hg). exists l. split; [reflexivity|].
  apply good_distinct; [apply Hq|exact Hg].
Qed.
(* the set-theoretic similarity of an entry and the query *)
Definition sim_of (d : metric) (tokens : list term) (doc : Z * list term) : R :=
  similarity d (overlap_of tokens (snd doc)) (zlen tokens) (zlen (snd doc)).
Lemma gain_thr d s m A B : d <> Exact -> alpha_ok s -> size_ok A -> size_ok B -> sizes_ok m A B -> Threshold d s A B <= m -> (similarity d m A B >= val s * (1 - delta))%R.
Proof.
  intros Hd Hs HA HB Hz Ht. pose proof u_pos. assert (0 < delta < / 1000)%R as Hdl by (rewrite delta_u; lra). pose proof Hs as [_ Hr].
  apply (threshold_iff d (val s * (1 - delta)) m A B Hd); [nra|exact Hz|]. destruct (thr_rel s A B Hs HA HB d Hd) as (v & Ev & (Hx & Hv1 & Hv2)). rewrite Ev, Zceil_le_iff in Ht. pose proof (thr_down s A B Hs HA HB d Hd). lra.
Qed.
Section D.
Context (rb : roaring) (srt : list iter -> list iter).
Context (ix : list (option inverted)) (docs : list (Z * list term)) (tokens : list term) (d : metric) (alpha : f64) (k : Z).
Notation A := (zlen tokens).
Notation run := (Suggest.run rb srt ix tokens d alpha k).
Notation start := (Suggest.start ix tokens d alpha k).
Context (Hq : query_ok ix tokens d alpha k).
Context (Hdocs : docs_ok docs) (Hix : index_of rb ix docs) (Hsrt : sorter_ok srt).
Ltac dis2 := first [eassumption|exact (q_A _ _ _ _ _ Hq)|exact (q_k _ _ _ _ _ Hq)|exact (q_min _ _ _ _ _ Hq)|exact (q_max _ _ _ _ _ Hq)|exact (q_ix62 _ _ _ _ _ Hq)
  |exact (q_score _ _ _ _ _ Hq)|exact (q_thr _ _ _ _ _ Hq)|exact (q_nodup _ _ _ _ _ Hq)|exact (q_size _ _ _ _ _ Hq)].
Lemma d_sizes doc : In doc docs -> 1 <= zlen (snd doc) -> sizes_ok (overlap_of tokens (snd doc)) A (zlen (snd doc)) /\ size_ok (zlen (snd doc)) /\ zlen (snd doc) < zlen ix.
Proof.
  intros Hin H1. assert (zlen (snd doc) < zlen ix) as H2 by (eapply doc_size; dis2). assert (overlap_of tokens (snd doc) <= A) by (eapply overlap_le_A; dis2). assert (overlap_of tokens (snd doc) <= zlen (snd doc)) by (eapply overlap_le_size; dis2).
  pose proof (overlap_nonneg tokens (snd doc)). pose proof (q_A _ _ _ _ _ Hq). pose proof (q_ix _ _ _ _ _ Hq). unfold sizes_ok, size_ok. lia.
Qed.
Lemma d_numeric (f : Z * list term -> bool) : (forall doc, In doc docs -> f doc = true -> 1 <= zlen (snd doc)) -> numeric (map (cand_of d tokens) (filter f docs)).
Proof.
  intros Hf. apply Forall_forall. intros c Hc. apply in_map_iff in Hc. destruct Hc as (doc & <- & Hin). apply filter_In in Hin. destruct Hin as [Hin E].
  apply (q_score _ _ _ _ _ Hq). specialize (Hf doc Hin E). eapply score_doc; dis2.
Qed.
Lemma elig_size sims doc : eligible d alpha sims tokens doc = true -> 1 <= zlen (snd doc).
Proof. unfold eligible. cbn zeta. pose proof (q_min _ _ _ _ _ Hq). intros E. lia. Qed.
(* fewer than k answers: all entries that pass the filters *)
Lemma few r : good ix docs tokens d alpha k r -> zlen r < k -> best_k k (answers d alpha (fun _ => alpha) tokens docs) r.
Proof.
  intros (sims & Hs & Hb) Hlt. replace (answers d alpha (fun _ => alpha) tokens docs) with (answers d alpha sims tokens docs); [exact Hb|]. unfold answers. f_equal.
  apply filter_ext. intros doc. unfold eligible. cbn zeta. destruct (Hs (zlen (snd doc))) as [->|(_ & _ & H & _)]; [reflexivity|lia].
Qed.
Lemma sound r c : good ix docs tokens d alpha k r -> In c r -> exists doc, In doc docs /\ c = cand_of d tokens doc /\ (sim_of d tokens doc >= val alpha * (1 - delta))%R.
Proof.
  intros (sims & Hs & _ & _ & rest & Hp & _) Hc. assert (In c (answers d alpha sims tokens docs)) as Hin by (apply (Permutation_in _ (Permutation_sym Hp)), in_app_iff; left; exact Hc).
  apply in_map_iff in Hin. destruct Hin as (doc & <- & Hin). apply filter_In in Hin. destruct Hin as [Hin E]. exists doc. split; [exact Hin|]. split; [reflexivity|].
  pose proof (elig_size _ _ E) as H1. destruct (d_sizes doc Hin H1) as (Hz & HB & Hlt). unfold sim_of. unfold eligible in E. cbn zeta in E. pose proof u_pos.
  assert (0 < delta < / 1000)%R as Hdl by (rewrite delta_u; lra). pose proof (q_alpha _ _ _ _ _ Hq) as Ha. pose proof (q_size _ _ _ _ _ Hq) as HA.
  destruct (metric_eq_dec d Exact) as [->|Hd].
  - apply no_gain; try assumption; [lia|]. cbn [Threshold] in *. lia.
  - set (B := zlen (snd doc)) in *. assert (alpha_ok (sims B)) as Hsb.
    { apply (sim_alpha_ok ix tokens d alpha Ha HA (q_ix _ _ _ _ _ Hq) (q_ov _ _ _ _ _ Hq) _ (q_nodup _ _ _ _ _ Hq)). destruct (Hs B) as [->|(H2 & H3 & _)]; [left; reflexivity|right; split; assumption]. }
    pose proof (gain_thr d (sims B) _ A B Hd Hsb HA HB Hz ltac:(lia)) as Hg.
    assert (val alpha <= val (sims B))%R as Hle.
    { destruct (Hs B) as [->|(H2 & H3 & _)]; [lra|]. apply (flt_val _ _ (proj1 Ha) (proj1 Hsb)) in H2. lra. }
    apply Rge_trans with (val (sims B) * (1 - delta))%R; [exact Hg|]. apply Rle_ge, Rmult_le_compat_r; lra.
Qed.
Lemma complete r doc : good ix docs tokens d alpha k r -> In doc docs -> 1 <= zlen (snd doc) -> (d = Overlap -> zlen (snd doc) <= 32767) -> (sim_of d tokens doc >= val alpha * (1 + delta))%R ->
  In (cand_of d tokens doc) r \/ (zlen r = k /\ forall c, In c r -> (sim_of d tokens doc <= val (Sc c) * (1 + delta) + eps)%R).
Proof.
  intros (sims & Hs & Hlen & _ & rest & Hp & Hr) Hin H1 Ho Hsim. destruct (d_sizes doc Hin H1) as (Hz & HB & Hlt). pose proof u_pos.
  assert (0 < delta < / 1000)%R as Hdl by (rewrite delta_u; lra). assert (0 < eps < / 1000)%R as Hep by (rewrite eps_u; lra).
  pose proof (q_alpha _ _ _ _ _ Hq) as Ha. pose proof (q_size _ _ _ _ _ Hq) as HA.
  set (B := zlen (snd doc)) in *. set (m := overlap_of tokens (snd doc)) in *.
  assert (sim_like ix tokens d alpha (sims B)) as Hsl by (destruct (Hs B) as [->|(H2 & H3 & _)]; [left; reflexivity|right; split; assumption]).
  assert (alpha_ok (sims B)) as Hsb by (apply (sim_alpha_ok ix tokens d alpha Ha HA (q_ix _ _ _ _ _ Hq) (q_ov _ _ _ _ _ Hq) _ (q_nodup _ _ _ _ _ Hq)); exact Hsl).
  assert (MinY d alpha A <= B <= MaxY d alpha A) as Hbounds by (apply (no_loss alpha A B Ha HA HB d m Ho Hz Hsim)).
  assert (forall c, In c r -> fin (Sc c) /\ (0 <= val (Sc c) <= 1)%R) as Hfr.
  { intros c Hc. assert (In c (answers d alpha sims tokens docs)) as Hi by (apply (Permutation_in _ (Permutation_sym Hp)), in_app_iff; left; exact Hc).
    apply in_map_iff in Hi. destruct Hi as (doc' & <- & Hi). apply filter_In in Hi. destruct Hi as [Hi E]. destruct (d_sizes doc' Hi (elig_size _ _ E)) as (Hz' & HB' & Hlt'). cbn [cand_of Sc].
    destruct Hz' as (Z1 & Z2 & Z3). apply (score_fin ix tokens d HA (q_ix _ _ _ _ _ Hq) (q_ov _ _ _ _ _ Hq)); lia. }
  destruct (eligible d alpha sims tokens doc) eqn:E.
  - assert (In (cand_of d tokens doc) (r ++ rest)) as Hi.
    { apply (Permutation_in _ Hp). unfold answers. apply in_map. apply filter_In. split; assumption. }
    apply in_app_iff in Hi. destruct Hi as [Hi|Hi]; [left; exact Hi|right].
    assert (zlen r = k) as Hrk.
    { pose proof (Permutation_length Hp) as Hl. rewrite app_length in Hl. destruct rest as [|z rest]; [destruct Hi|]. cbn [length] in Hl. unfold zlen. lia. }
    split; [exact Hrk|]. intros c Hc. destruct (Hfr c Hc) as [Fc Vc]. specialize (Hr c _ Hc Hi). destruct Hz as (Z1 & Z2 & Z3).
    destruct (metric_eq_dec d Exact) as [Ed|Hd].
    + assert (Sc c = f_one) as ->.
      { assert (In c (answers d alpha sims tokens docs)) as Hi' by (apply (Permutation_in _ (Permutation_sym Hp)), in_app_iff; left; exact Hc).
        apply in_map_iff in Hi'. destruct Hi' as (doc' & <- & _). cbn [cand_of Sc]. rewrite Ed. vm_compute. reflexivity. }
      rewrite (proj2 val_one). unfold sim_of. rewrite Ed. cbn [similarity]. destruct (_ && _); lra.
    + destruct (score_accurate d m A B Hd HA HB) as (Fs & Vs & Es); [lia|lia|lia|]. assert (val (Score d m A B) <= val (Sc c))%R as Hle.
      { destruct (Rle_or_lt (val (Score d m A B)) (val (Sc c))) as [H0|H0]; [exact H0|exfalso]. apply Hr. left. cbn [cand_of Sc]. apply flt_val; [exact Fc|exact Fs|exact H0]. }
      unfold sim_of. fold m. fold B. apply Rabs_le_inv in Es. assert (0 <= val (Sc c) * delta)%R by (apply Rmult_le_pos; lra). lra.
  - right. destruct (Hs B) as [Eb|(H2 & H3 & Hrk & Hall)].
    + exfalso. destruct (no_loss alpha A B Ha HA HB d m Ho Hz Hsim) as [_ Ht]. unfold eligible in E. cbn zeta in E. fold B in E. rewrite Eb in E. fold m in E. lia.
    + split; [exact Hrk|]. intros c Hc. rewrite Forall_forall in Hall. specialize (Hall c Hc). destruct (Hfr c Hc) as [Fc Vc]. apply (fle_val _ _ (proj1 Hsb) Fc) in Hall.
      destruct (Rle_or_lt (val (sims B) * (1 + delta)) (sim_of d tokens doc)) as [Hge|Hl].
      * exfalso. destruct (no_loss (sims B) A B Hsb HA HB d m Ho Hz (Rle_ge _ _ Hge)) as [_ Ht]. unfold eligible in E. cbn zeta in E. fold B in E. fold m in E. lia.
      * apply Rle_trans with (val (sims B) * (1 + delta))%R; [lra|]. apply Rle_trans with (val (Sc c) * (1 + delta))%R; [apply Rmult_le_compat_r; lra|lra].
Qed.
(* ids are distinct *)
Lemma keys_distinct r : good ix docs tokens d alpha k r -> NoDup (map Key r).
Proof.
  intros (sims & _ & _ & _ & rest & Hp & _). apply (Permutation_map Key) in Hp. rewrite map_app in Hp.
  assert (NoDup (map Key (answers d alpha sims tokens docs))) as Hn; [|apply (Permutation_NoDup Hp) in Hn; clear - Hn; induction (map Key r) as [|x l IH]; [constructor|]; cbn [app] in Hn; inversion_clear Hn; constructor; [intros Hi; apply H; apply in_app_iff; left; exact Hi|apply IH; assumption]].
  unfold answers. rewrite map_map. cbn [cand_of Key]. destruct Hdocs as (Hs1 & _ & _). clear - Hs1.
  induction docs as [|x l IH]; [constructor|]. cbn [map filter] in *. inversion_clear Hs1. destruct (eligible d alpha sims tokens x); [|auto]. cbn [map]. constructor; [|auto].
  intros Hi. apply in_map_iff in Hi. destruct Hi as (y & E & Hy). apply filter_In in Hy. destruct Hy as [Hy _]. rewrite Forall_forall in H0. specialize (H0 (fst y) (in_map fst _ _ Hy)). lia.
Qed.
(* laws under which raising the similarity never changes the result *)
Lemma exact_laws r :
  (forall s m B, flt alpha s = true -> score_like ix tokens d s -> 0 <= m <= A -> m <= B -> 1 <= B < zlen ix -> fle s (Score d m A B) = true -> Threshold d s A B <= m) ->
  (forall s B, flt alpha s = true -> score_like ix tokens d s -> 1 <= B < zlen ix -> Threshold d alpha A B <= Threshold d s A B) ->
  good ix docs tokens d alpha k r -> best_k k (answers d alpha (fun _ => alpha) tokens docs) r.
Proof.
  intros L1 L2 (sims & Hs & Hlen & Hsort & rest & Hp & Hr).
  destruct (Z.lt_ge_cases (zlen r) k) as [Hlt|Hge]; [apply few; [exists sims; split; [exact Hs|]; split; [exact Hlen|]; split; [exact Hsort|]; exists rest; auto|exact Hlt]|].
  set (e0 := eligible d alpha (fun _ => alpha) tokens). set (e1 := eligible d alpha sims tokens). set (e2 := fun doc => e0 doc && negb (e1 doc)).
  assert (forall doc, In doc docs -> e1 doc = true -> e0 doc = true) as H10.
  { intros doc Hin E. pose proof (elig_size _ _ E) as H1. destruct (d_sizes doc Hin H1) as (Hz & HB & Hlt). unfold e0, e1, eligible in *. cbn zeta in *.
    destruct (Hs (zlen (snd doc))) as [Eb|(H2 & H3 & _)]; [rewrite Eb in E; exact E|]. specialize (L2 _ (zlen (snd doc)) H2 H3 ltac:(lia)). lia. }
  assert (Permutation (answers d alpha (fun _ => alpha) tokens docs) (r ++ rest ++ map (cand_of d tokens) (filter e2 docs))) as Hp0.
  { rewrite app_assoc, <- Hp. unfold answers. rewrite <- map_app. apply Permutation_map. fold e0 e1. rewrite <- filter_split.
    - erewrite filter_ext_in'; [reflexivity|]. intros doc Hin. unfold e2. specialize (H10 doc Hin). destruct (e1 doc), (e0 doc); try reflexivity. discriminate (H10 eq_refl).
    - intros doc Hin E. unfold e2. rewrite E, andb_false_r. reflexivity. }
  split; [|split; [exact Hsort|]].
  - pose proof (Permutation_length Hp0) as Hl. rewrite !app_length in Hl. pose proof (Permutation_length Hp) as Hl1. rewrite app_length in Hl1. unfold zlen in *. lia.
  - exists (rest ++ map (cand_of d tokens) (filter e2 docs)). split; [exact Hp0|]. intros a b Hain Hb. apply in_app_iff in Hb. destruct Hb as [Hb|Hb]; [apply Hr; assumption|].
    apply in_map_iff in Hb. destruct Hb as (doc & <- & Hin). apply filter_In in Hin. destruct Hin as [Hin E]. unfold e2 in E. apply andb_prop in E. destruct E as [E0 E1].
    pose proof (elig_size _ _ E0) as H1. destruct (d_sizes doc Hin H1) as ((Z1 & Z2 & Z3) & HB & Hlt2). pose proof (q_size _ _ _ _ _ Hq) as HA.
    set (B := zlen (snd doc)) in *. set (m := overlap_of tokens (snd doc)) in *.
    destruct (Hs B) as [Eb|(H2 & H3 & _ & Hall)]; [exfalso; unfold e0, e1, eligible in *; cbn zeta in *; fold B in E1, E0; rewrite Eb in E1; rewrite E0 in E1; discriminate|].
    rewrite Forall_forall in Hall. specialize (Hall a Hain).
    destruct (fle (sims B) (Score d m A B)) eqn:Ef; [exfalso; specialize (L1 _ m B H2 H3 ltac:(lia) ltac:(lia) ltac:(lia) Ef); unfold e0, e1, eligible in *; cbn zeta in *; fold B m in E1, E0; lia|].
    assert (sims B <> S754_nan) as N1 by (apply (q_score _ _ _ _ _ Hq); exact H3).
    assert (Score d m A B <> S754_nan) as N2 by (apply (q_score _ _ _ _ _ Hq); exists m, B; repeat split; lia).
    assert (Sc a <> S754_nan) as N3 by (intros E; rewrite E in Hall; destruct (sims B) as [|[]| |[]]; discriminate).
    unfold worse. cbn [cand_of Key Sc]. fold B m. rewrite flt_rank, feq_rank by assumption. rewrite fle_rank in Ef, Hall by assumption.
    destruct (rank (sims B)) as [[? ?] ?], (rank (Score d m A B)) as [[? ?] ?], (rank (Sc a)) as [[? ?] ?]. cbn in *. lia.
Qed.
End D.
