(** Properties C15-C23 (mergers). *)
From Coq Require Import Reals.
From Verif Require Import Base Postings PostingsSpec PostingsDrive Merger MergerSpec P_MergerLemmas
  MergerProofs MergerProofs2 MergerProofs4.
Local Open Scope Z_scope.

(** C15: for every collector, every sorting function and every iterators standing for
    posting lists, ScanCount hands the collector the answer of the T-occurrence
    problem.  (More than 65535 lists are outside the documented limit.) *)
Theorem C15_scancount_correct : forall {St} (collect : St -> Z -> option err * St) srt rid ls T s,
  sorter_ok srt -> lists rid ls -> nonempty ls -> zlen ls <= 65535 -> 0 <= T ->
  exists cs, is_answer ls T cs /\ ScanCount collect srt rid T s = feed collect cs s.
Proof. intros. apply c15; assumption. Qed.
Print Assumptions C15_scancount_correct.

(** C16: the same for CPMerge, whose only difference is that it wraps the collector's
    error. *)
Theorem C16_cpmerge_correct : forall {St} (collect : St -> Z -> option err * St) srt rid ls T s,
  sorter_ok srt -> lists rid ls -> nonempty ls -> zlen ls <= 65535 -> 1 <= T ->
  exists cs, is_answer ls T cs /\
    CPMerge collect srt rid T s = (if T <? zlen ls then wrapped (feed collect cs s) else feed collect cs s).
Proof. intros. apply c16; assumption. Qed.
Print Assumptions C16_cpmerge_correct.

(** C17: the same for MergeSkip (termination included: the model's fuel suffices). *)
Theorem C17_mergeskip_correct : forall {St} (collect : St -> Z -> option err * St) srt rid ls T s,
  sorter_ok srt -> lists rid ls -> nonempty ls -> zlen ls < 2 ^ 32 -> 0 <= T ->
  exists cs, is_answer ls T cs /\ MergeSkip collect srt rid T s = feed collect cs s.
Proof. intros. apply c17; assumption. Qed.
Print Assumptions C17_mergeskip_correct.

(** C18: DivideSkip is right whenever its parameter L is at least 0 and below T (or 0). *)
Theorem C18_divideskip_correct_partial : forall {St} (collect : St -> Z -> option err * St) srt srtr lparam rid ls T s,
  sorter_ok srt -> sorter_ok srtr -> lists rid ls -> nonempty ls -> zlen ls <= 65535 -> 0 <= T ->
  (forall it0 r0, srtr rid = it0 :: r0 ->
     0 <= lparam T (it_len it0) /\ (lparam T (it_len it0) < T \/ lparam T (it_len it0) = 0)) ->
  exists cs, is_answer ls T cs /\ DivideSkip collect srt srtr lparam rid T s = feed collect cs s.
Proof. intros. apply c18; assumption. Qed.
Print Assumptions C18_divideskip_correct_partial.

(** With L computed in exact arithmetic, that is the case for every mu > 0 as soon as
    the longest list has two elements. *)
Theorem C18_divideskip_correct_real_partial :
  forall {St} (collect : St -> Z -> option err * St) srt srtr (mu : R) rid ls T s,
  sorter_ok srt -> longest_first srtr -> lists rid ls -> nonempty ls -> zlen ls <= 65535 -> 0 <= T ->
  (0 < mu)%R -> (exists l, In l ls /\ 2 <= zlen l) ->
  exists cs, is_answer ls T cs /\ DivideSkip collect srt srtr (lparam_real mu) rid T s = feed collect cs s.
Proof. intros. apply c18_real; assumption. Qed.
Print Assumptions C18_divideskip_correct_real_partial.

(** When all lists are singletons (log 1 = 0, so L = T for every mu) it loses answers:
    of [1] [1] [2] with T = 2 the value 1 is not reported. *)
Theorem C18_divideskip_singletons_refuted : forall mu : R,
  exists ls cs, is_answer ls 2 cs /\ cs <> [] /\ lists (slices ls) ls /\ nonempty ls /\
    DivideSkip simple_collect sort_asc sort_desc (lparam_real mu) (slices ls) 2 [] = (Ret tt, []).
Proof.
  intros mu. exists [[1]; [1]; [2]], [(1, 2)]. split; [|split; [discriminate|split; [|split]]].
  - split; [repeat constructor|]. intros x c. cbn [In]. split.
    + intros [E|[]]. injection E as <- <-. vm_compute. intuition discriminate.
    + intros (-> & H1 & H2). left. unfold count in *. cbn [filter existsb] in *. rewrite !Bool.orb_false_r in *.
      destruct (Z.eqb_spec x 1) as [Ex|Ex]; [rewrite Ex; reflexivity|]. exfalso.
      destruct (x =? 2); vm_compute in H2; congruence.
  - apply slices_ok. repeat apply Forall_cons; try apply Forall_nil; (split; [repeat constructor|]);
      repeat apply Forall_cons; try apply Forall_nil; unfold is_u32; lia.
  - repeat constructor; discriminate.
  - unfold DivideSkip, optimized, divideSkip.
    assert (sort_desc (slices [[1]; [1]; [2]]) = slices [[1]; [1]; [2]]) as -> by reflexivity.
    cbn [slices map]. change (it_len (ISlice {| sl_slice := [1]; sl_index := 0 |})) with 1. rewrite lparam_real_one.
    vm_compute. reflexivity.
Qed.
Print Assumptions C18_divideskip_singletons_refuted.

(** C19: the intersector. *)
Theorem C19_intersect_correct : forall {St} (collect : St -> Z -> option err * St) srt rid ls s,
  sorter_ok srt -> lists rid ls -> nonempty ls -> 1 <= zlen ls < 2 ^ 32 ->
  exists cs, StronglySorted (fun a b => fst a < fst b) cs /\
    (forall x c, In (x, c) cs <-> c = zlen ls /\ forall l, In l ls -> In x l) /\
    intersect collect srt rid s = feed collect cs s.
Proof.
  intros St collect srt rid ls s H1 H2 H3 H4.
  destruct (intersect_ok collect srt rid ls s H1 H2 H3 H4) as (cs & [Hs Hc] & E).
  exists cs. split; [exact Hs|]. split; [|exact E]. intros x c. rewrite Hc.
  pose proof (count_all x ls) as Ha. rewrite Forall_forall in Ha. pose proof (count_le x ls). split.
  - intros (-> & Hp & Hz). split; [lia|]. apply Ha. lia.
  - intros (-> & Hx). apply Ha in Hx. lia.
Qed.
Print Assumptions C19_intersect_correct.

(** C20: all mergers hand the collector one and the same sequence, the answer, which
    is unique. *)
Theorem C20_mergers_agree : forall {St} (collect : St -> Z -> option err * St) srt srtr lparam rid ls T s,
  sorter_ok srt -> sorter_ok srtr -> lists rid ls -> nonempty ls -> zlen ls <= 65535 -> 1 <= T ->
  (forall it0 r0, srtr rid = it0 :: r0 -> 0 <= lparam T (it_len it0) < T) ->
  exists cs, (forall cs', is_answer ls T cs' <-> cs' = cs) /\
    ScanCount collect srt rid T s = feed collect cs s /\
    MergeSkip collect srt rid T s = feed collect cs s /\
    DivideSkip collect srt srtr lparam rid T s = feed collect cs s /\
    CPMerge collect srt rid T s = (if T <? zlen ls then wrapped (feed collect cs s) else feed collect cs s) /\
    (zlen ls = T -> intersect collect srt rid s = feed collect cs s).
Proof.
  intros St collect srt srtr lparam rid ls T s H1 H2 H3 H4 H5 H6 H7.
  destruct (c15 collect srt H1 rid ls T s) as (cs & Hc & E1); auto; try lia.
  destruct (c17 collect srt H1 rid ls T s) as (cs2 & Hc2 & E2); auto; try lia.
  destruct (c18 collect srt H1 srtr lparam rid ls T s H2 H3 H4 H5 ltac:(lia)) as (cs3 & Hc3 & E3).
  { intros it0 r0 E. specialize (H7 it0 r0 E). lia. }
  destruct (c16 collect srt H1 rid ls T s) as (cs4 & Hc4 & E4); auto; try lia.
  exists cs. split.
  { intros cs'. split; [intros Hc'; eapply is_answer_unique; eauto|intros ->; exact Hc]. }
  rewrite (is_answer_unique _ _ _ _ Hc Hc2), (is_answer_unique _ _ _ _ Hc2 Hc3), (is_answer_unique _ _ _ _ Hc3 Hc4) in *.
  repeat (split; [assumption|]). intros Hn.
  destruct (intersect_ok collect srt rid ls s) as (cs5 & Hc5 & E5); auto; try lia.
  rewrite Hn in Hc5. rewrite (is_answer_unique _ _ _ _ Hc4 Hc5). exact E5.
Qed.
Print Assumptions C20_mergers_agree.

(** C21: a collector deciding from everything it has received receives a prefix of
    the answer, ending where it first returns an error; termination is success and
    any other error is the result (wrapped by CPMerge). *)
Theorem C21_early_termination : forall policy srt srtr lparam rid ls T,
  sorter_ok srt -> sorter_ok srtr -> lists rid ls -> nonempty ls -> zlen ls <= 65535 -> 1 <= T ->
  (forall it0 r0, srtr rid = it0 :: r0 -> 0 <= lparam T (it_len it0) < T) ->
  exists cs k, is_answer ls T cs /\ stops policy cs k /\
    let out := (outcome policy cs k, received cs k) in
    ScanCount (logging policy) srt rid T [] = out /\
    MergeSkip (logging policy) srt rid T [] = out /\
    DivideSkip (logging policy) srt srtr lparam rid T [] = out /\
    CPMerge (logging policy) srt rid T [] = (if T <? zlen ls then wrapped out else out).
Proof.
  intros policy srt srtr lparam rid ls T H1 H2 H3 H4 H5 H6 H7.
  destruct (C20_mergers_agree (logging policy) srt srtr lparam rid ls T [] H1 H2 H3 H4 H5 H6 H7) as (cs & Hu & E1 & E2 & E3 & E4 & _).
  destruct (feed_stops policy cs) as (k & Hk & E). rewrite E in *. exists cs, k. split; [apply Hu; reflexivity|]. auto.
Qed.
Print Assumptions C21_early_termination.

(** the k smallest answers, by every merger *)
Theorem C21_limit_gets_smallest : forall srt srtr lparam rid ls T (k : nat),
  sorter_ok srt -> sorter_ok srtr -> lists rid ls -> nonempty ls -> zlen ls <= 65535 -> 1 <= T -> (1 <= k)%nat ->
  (forall it0 r0, srtr rid = it0 :: r0 -> 0 <= lparam T (it_len it0) < T) ->
  let limit := logging (fun log => if (k <=? length log)%nat then Some ErrCollectionTerminated else None) in
  exists cs, is_answer ls T cs /\
    let out := (Ret tt, map (fun xc => NewMergeCandidate (fst xc) (snd xc)) (firstn k cs)) in
    ScanCount limit srt rid T [] = out /\ CPMerge limit srt rid T [] = out /\
    MergeSkip limit srt rid T [] = out /\ DivideSkip limit srt srtr lparam rid T [] = out.
Proof.
  intros srt srtr lparam rid ls T k H1 H2 H3 H4 H5 H6 Hk H7 limit.
  destruct (C20_mergers_agree limit srt srtr lparam rid ls T [] H1 H2 H3 H4 H5 H6 H7) as (cs & Hu & E1 & E2 & E3 & E4 & _).
  exists cs. split; [apply Hu; reflexivity|].
  assert (feed limit cs [] = (Ret tt, map (fun xc => NewMergeCandidate (fst xc) (snd xc)) (firstn k cs))) as E.
  { destruct (feed_logging (fun log => if (k <=? length log)%nat then Some ErrCollectionTerminated else None) cs []) as (j & Hj & F1 & F2 & F3 & F4).
    fold limit in F1, F3. cbn [app] in *.
    assert (firstn j cs = firstn k cs) as Ejk.
    { assert (length (firstn j cs) = j) as Hlj by (rewrite firstn_length; lia).
      destruct (Nat.lt_trichotomy j k) as [Hlt|[->|Hgt]]; [|reflexivity|].
      - rewrite (firstn_all2 cs (n := k)), (firstn_all2 cs (n := j)); [reflexivity| |].
        + destruct (Nat.lt_ge_cases j (length cs)) as [Hl|Hl]; [|lia]. destruct (F4 Hl) as [_ F5].
          rewrite map_length, Hlj in F5. replace (k <=? j)%nat with false in F5 by (symmetry; apply Nat.leb_gt; lia). congruence.
        + destruct (Nat.lt_ge_cases j (length cs)) as [Hl|Hl]; [|lia]. destruct (F4 Hl) as [_ F5].
          rewrite map_length, Hlj in F5. replace (k <=? j)%nat with false in F5 by (symmetry; apply Nat.leb_gt; lia). congruence.
      - specialize (F2 k ltac:(lia)). rewrite map_length, firstn_length in F2.
        replace (k <=? Nat.min k (length cs))%nat with true in F2 by (symmetry; apply Nat.leb_le; lia). discriminate. }
    rewrite (surjective_pairing (feed limit cs [])), F1, F3. rewrite Ejk. f_equal.
    destruct (Nat.eqb j 0); [reflexivity|]. cbv beta. clear F2 F3 F4. destruct (k <=? length (map pk (firstn k cs)))%nat; reflexivity. }
  cbv zeta. rewrite E1, E2, E3, E4, E. destruct (T <? zlen ls); auto.
Qed.
Print Assumptions C21_limit_gets_smallest.

(** "unchanged" is false of CPMerge: it wraps the collector's error. *)
Theorem C21_error_unchanged_refuted :
  exists ls (collect : unit -> Z -> option err * unit) e,
    collect = (fun s _ => (Some e, s)) /\
    ScanCount collect sort_asc (slices ls) 1 tt = (Fail e, tt) /\
    CPMerge collect sort_asc (slices ls) 1 tt <> (Fail e, tt).
Proof.
  exists [[1]; [2]], (fun s _ => (Some (ErrOther 7), s)), (ErrOther 7).
  split; [reflexivity|]. split; [vm_compute; reflexivity|]. vm_compute. discriminate.
Qed.
Print Assumptions C21_error_unchanged_refuted.

(** C22 *)
Theorem C22_candidate_packing : forall p o, is_u32 p -> 0 <= o <= 65535 ->
  Position (NewMergeCandidate p o) = p /\ Overlap (NewMergeCandidate p o) = o /\
  (o < 65535 -> increment (NewMergeCandidate p o) = Ret (NewMergeCandidate p (o + 1))) /\
  (o = 65535 -> increment (NewMergeCandidate p o) = Panic).
Proof.
  intros p o Hp Ho. split; [apply position_pack; [exact Hp|unfold is_u32; lia]|].
  split; [apply overlap_pack; [exact Hp|unfold is_u32; lia]|]. split.
  - intros Hl. apply increment_pack; [exact Hp|lia].
  - intros ->. unfold increment. fold (Overlap (NewMergeCandidate p 65535)).
    rewrite overlap_pack by (exact Hp || (unfold is_u32; lia)). reflexivity.
Qed.
Print Assumptions C22_candidate_packing.

(** C23: with empty lists ScanCount and CPMerge stay right below the full threshold... *)
Theorem C23_empty_lists_partial : forall {St} (collect : St -> Z -> option err * St) srt rid ls T s,
  sorter_ok srt -> lists rid ls -> zlen ls <= 65535 -> 1 <= T < zlen ls ->
  exists cs, is_answer ls T cs /\
    ScanCount collect srt rid T s = feed collect cs s /\ CPMerge collect srt rid T s = wrapped (feed collect cs s).
Proof.
  intros St collect srt rid ls T s H1 H2 H3 H4.
  destruct (scanCount_ok collect rid ls T s H2 H3) as (cs & Hc & E).
  destruct (cpMerge_ok collect srt rid ls T s H1 H2 H3 ltac:(lia)) as (cs2 & Hc2 & E2).
  rewrite (is_answer_unique _ _ _ _ Hc2 Hc) in E2. exists cs. split; [exact Hc|].
  unfold ScanCount, CPMerge, optimized. rewrite (lists_length _ _ H2).
  assert ((zlen ls <? T) || (zlen ls =? 0) || (T <? 0) = false) as -> by (rewrite !Bool.orb_false_iff; lia).
  assert (zlen ls =? T = false) as -> by lia. auto.
Qed.
Print Assumptions C23_empty_lists_partial.

(** ...but MergeSkip reports the value 0 for empty lists, and at the full threshold
    every merger fails with an error. *)
Theorem C23_mergeskip_empty_refuted :
  lists (slices [[]; []; [5]]) [[]; []; [5]] /\
  MergeSkip simple_collect sort_asc (slices [[]; []; [5]]) 2 [] = (Ret tt, [NewMergeCandidate 0 2]) /\
  is_answer [[]; []; [5]] 2 [].
Proof.
  split; [|split; [vm_compute; reflexivity|]].
  - apply slices_ok. repeat apply Forall_cons; try apply Forall_nil; (split; [repeat constructor|]);
      repeat apply Forall_cons; try apply Forall_nil; unfold is_u32; lia.
  - split; [constructor|]. intros x c. split; [intros []|]. intros (-> & H1 & H2). unfold count in *. cbn [filter existsb] in *.
    rewrite Bool.orb_false_r in *. destruct (x =? 5); vm_compute in H2; congruence.
Qed.
Print Assumptions C23_mergeskip_empty_refuted.
Theorem C23_intersect_empty_refuted :
  lists (slices [[]; [5]]) [[]; [5]] /\
  ScanCount simple_collect sort_asc (slices [[]; [5]]) 2 [] = (Fail ErrIteratorIsNotDereferencable, []) /\
  CPMerge simple_collect sort_asc (slices [[]; [5]]) 2 [] = (Fail ErrIteratorIsNotDereferencable, []) /\
  MergeSkip simple_collect sort_asc (slices [[]; [5]]) 2 [] = (Fail ErrIteratorIsNotDereferencable, []).
Proof.
  split; [|repeat split; vm_compute; reflexivity].
  apply slices_ok. repeat apply Forall_cons; try apply Forall_nil; (split; [repeat constructor|]);
      repeat apply Forall_cons; try apply Forall_nil; unfold is_u32; lia.
Qed.
Print Assumptions C23_intersect_empty_refuted.

(** Non-vacuity: the hypotheses hold of concrete lists, and the mergers compute. *)
Definition demo_ls : list (list Z) := [[1; 4; 9; 12]; [4; 9]; [2; 4; 7; 12; 13]; [9; 12]].
Example C15_C20_nonvacuous : sorter_ok sort_asc /\ longest_first sort_desc /\ lists (slices demo_ls) demo_ls /\ nonempty demo_ls.
Proof.
  split; [exact sort_asc_ok|]. split; [exact sort_desc_ok|]. split.
  - apply slices_ok. repeat apply Forall_cons; try apply Forall_nil;
      (split; [repeat apply SSorted_cons; try apply SSorted_nil; repeat apply Forall_cons; try apply Forall_nil; reflexivity
              |repeat apply Forall_cons; try apply Forall_nil; unfold is_u32; lia]).
  - repeat constructor; discriminate.
Qed.
Example C15_C20_example :
  let out := (Ret tt, [NewMergeCandidate 4 3; NewMergeCandidate 9 3; NewMergeCandidate 12 3]) in
  ScanCount simple_collect sort_asc (slices demo_ls) 3 [] = out /\
  CPMerge simple_collect sort_asc (slices demo_ls) 3 [] = out /\
  MergeSkip simple_collect sort_asc (slices demo_ls) 3 [] = out /\
  DivideSkip simple_collect sort_asc sort_desc (fun _ _ => 2) (slices demo_ls) 3 [] = out.
Proof. vm_compute. auto. Qed.
Example C21_example :
  MergeSkip (logging (fun log => if (2 <=? length log)%nat then Some ErrCollectionTerminated else None)) sort_asc (slices demo_ls) 3 []
  = (Ret tt, [NewMergeCandidate 4 3; NewMergeCandidate 9 3]).
Proof. vm_compute. reflexivity. Qed.
