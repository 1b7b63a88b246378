(** C99, continued: what a full answer (topK items) of Suggest omits, also for queries that
    repeat n-grams after the characters outside the alphabet are replaced. *)
From Coq Require Import String ZifyBool Permutation Sorted Reals Lra Lia.
From Flocq Require Import Core.Raux.
From Verif Require Import Base BaseLemmas GoMap Store StoreSpec Postings PostingsSpec PostingsDrive P_PostingsLemmas Merger MergerSpec MergerAnySpec MergerAny P_MergerLemmas
  Text TextProofs TextProofs2 Analysis AnalysisSpec AnalysisProofs AnalysisProofs2 P_AnalysisLemmas P_Analysis
  Index IndexSpec IndexProofs IndexProofs2 P_IndexLemmas P_Index SearchAny
  Float64 Metric MetricSpec MetricProofs FloatProofs MetricFloat MetricFloat2 MetricScore MetricWide P_Metric TopK TopKSpec TopKProofs Suggest SuggestSpec SuggestProofs SuggestProofs2 P_SuggestLemmas P_Suggest SuggestAnySpec SuggestAny P_Repeated
  Autocomplete AutocompleteSpec AutocompleteProofs AutocompleteAnySpec AutocompleteAny P_Autocomplete Mph P_Mph NGramIndex NGramIndexSpec NGramIndexProofs NGramIndexProofs2 P_NGramIndex NGramIndexAnySpec NGramIndexAny P_RepeatedDict P_AnyQuery.
Local Open Scope Z_scope.
Local Notation length := List.length.

Section Full.
Context (rb : roaring) (ix : list (option inverted)) (docs : list (Z * list term)) (tokens : list term) (d : metric) (alpha : f64) (k : Z).
Context (Hq : query_any ix tokens d alpha k) (Hix : index_any rb ix docs).
Notation A := (zlen tokens).

Lemma full_sizes doc m : In doc docs -> 1 <= zlen (snd doc) -> 0 <= m <= overlap_of tokens (snd doc) -> 0 <= m <= A /\ size_ok (zlen (snd doc)) /\ zlen (snd doc) < zlen ix.
Proof.
  intros Hin H1 Hm. pose proof (size_any rb ix docs Hix doc Hin H1). pose proof (overlap_A tokens (snd doc)).
  pose proof (q_A _ _ _ _ _ Hq). pose proof (q_ix _ _ _ _ _ Hq). unfold size_ok. lia.
Qed.
Lemma similarity_most m B : size_ok A -> size_ok B -> MetricSpec.sizes_ok m A B -> (similarity d m A B <= 1 + eps)%R.
Proof.
  intros HA HB (Z1 & Z2 & Z3). pose proof u_pos. assert (0 < eps < / 1000)%R as Hep by (rewrite eps_u; lra). destruct (metric_eq_dec d Exact) as [->|Hd].
  - cbn [similarity]. destruct (_ && _); lra.
  - destruct (score_accurate d m A B Hd HA HB) as (_ & V & E); [lia|lia|lia|]. apply Rabs_le_inv in E. lra.
Qed.

Lemma full_complete r doc : good_copies ix docs tokens d alpha k r -> In doc docs -> 1 <= zlen (snd doc) -> (d = Overlap -> zlen (snd doc) <= 32767) ->
  overlap_of tokens (snd doc) <= zlen (snd doc) -> (sim_of d tokens doc >= val alpha * (1 + delta))%R ->
  In (cand_of d tokens doc) r \/ (zlen r = k /\ forall c, In c r -> (sim_of d tokens doc <= val (Sc c) * (1 + delta) + eps)%R).
Proof.
  intros (sims & L & Hs & (G1 & G2 & _) & Hlen & _ & rest & Hp & Hr) Hin H1 Ho Hmsz Hsim. pose proof (overlap_0 tokens (snd doc)) as Hov0. pose proof (overlap_A tokens (snd doc)) as HovA.
  destruct (full_sizes doc (overlap_of tokens (snd doc)) Hin H1 ltac:(lia)) as (HmA & HB & Hlt). pose proof u_pos.
  assert (0 < delta < / 1000)%R as Hdl by (rewrite delta_u; lra). assert (0 < eps < / 1000)%R as Hep by (rewrite eps_u; lra).
  pose proof (q_alpha _ _ _ _ _ Hq) as Ha. pose proof (q_size _ _ _ _ _ Hq) as HA. pose proof (q_A _ _ _ _ _ Hq) as HA2. pose proof (q_min _ _ _ _ _ Hq) as Hmin.
  set (B := zlen (snd doc)) in *. set (m := overlap_of tokens (snd doc)) in *.
  assert (MetricSpec.sizes_ok m A B) as Hz by (unfold MetricSpec.sizes_ok; lia).
  pose proof (similarity_most m B HA HB Hz) as Hone. fold m B in Hone.
  assert (MinY d alpha A <= B <= MaxY d alpha A) as Hbounds by (apply (no_loss alpha A B Ha HA HB d m Ho Hz Hsim)).
  assert (forall c, In c r -> exists (doc' : Z * list term) m', c = mkCand (fst doc') (Score d m' A (zlen (snd doc'))) /\ 0 <= m' <= A /\ size_ok (zlen (snd doc'))) as Hform.
  { intros c Hc. assert (In c L) as Hi by (apply (Permutation_in _ (Permutation_sym Hp)), in_app_iff; left; exact Hc). destruct (G2 c Hi) as (doc' & m' & Hd' & Ec & Hb' & Hm' & _).
    exists doc', m'. split; [exact Ec|]. assert (1 <= zlen (snd doc')) as Hs1 by lia. destruct (full_sizes doc' m' Hd' Hs1 ltac:(lia)) as (X1 & X2 & X3). auto. }
  assert (forall c, In c r -> fin (Sc c)) as Hfr.
  { intros c Hc. destruct (Hform c Hc) as (doc' & m' & -> & Z' & HB'). cbn [Sc]. apply score_wide; try assumption; lia. }
  destruct (eligible_any d alpha sims tokens doc) eqn:E.
  - assert (In (cand_of d tokens doc) (r ++ rest)) as Hi by (apply (Permutation_in _ Hp); apply G1; assumption).
    apply in_app_iff in Hi. destruct Hi as [Hi|Hi]; [left; exact Hi|right].
    assert (zlen r = k) as Hrk.
    { pose proof (Permutation_length Hp) as Hl. rewrite app_length in Hl. destruct rest as [|z rest]; [destruct Hi|]. cbn [length] in Hl. unfold zlen. lia. }
    split; [exact Hrk|]. intros c Hc. pose proof (Hfr c Hc) as Fc. specialize (Hr c _ Hc Hi). destruct Hz as (Z1 & Z2 & Z3).
    destruct (metric_eq_dec d Exact) as [Ed|Hd].
    + assert (Sc c = f_one) as ->.
      { destruct (Hform c Hc) as (doc' & m' & -> & _). cbn [Sc]. rewrite Ed. vm_compute. reflexivity. }
      rewrite (proj2 val_one). unfold sim_of. rewrite Ed. cbn [similarity]. destruct (_ && _); lra.
    + destruct (score_accurate d m A B Hd HA HB) as (Fs & Vs & Es); [lia|lia|lia|]. assert (val (Score d m A B) <= val (Sc c))%R as Hle.
      { destruct (Rle_or_lt (val (Score d m A B)) (val (Sc c))) as [H0|H0]; [exact H0|exfalso]. apply Hr. left. cbn [cand_of Sc]. apply flt_val; [exact Fc|exact Fs|exact H0]. }
      unfold sim_of. fold m. fold B. apply Rabs_le_inv in Es. assert (0 <= val (Sc c) * delta)%R by (apply Rmult_le_pos; lra). lra.
  - right. unfold eligible_any, eligible in E. cbn zeta in E. fold B in E. fold m in E.
    assert (m < Threshold d (sims B) A B) as Hpr by lia. clear E.
    destruct (Hs B) as [Eb|(H2 & H3 & Hrk & Hall)].
    + exfalso. destruct (no_loss alpha A B Ha HA HB d m Ho Hz Hsim) as [_ Ht]. rewrite Eb in Hpr. lia.
    + split; [exact Hrk|]. intros c Hc. rewrite Forall_forall in Hall. specialize (Hall c Hc). pose proof (Hfr c Hc) as Fc.
      assert (fin (sims B)) as Fs.
      { destruct H3 as (m' & B' & M1 & _ & M2 & ->). apply score_wide; [exact HA| |exact M1|lia]. pose proof (q_ix _ _ _ _ _ Hq). unfold size_ok. lia. }
      apply (flt_val _ _ (proj1 Ha) Fs) in H2. apply (fle_val _ _ Fs Fc) in Hall. destruct Ha as [Fa Va].
      assert (0 <= val (Sc c) * delta)%R as Hpos by (apply Rmult_le_pos; lra).
      destruct (Rle_or_lt (val (sims B)) 1) as [Hs1|Hs1].
      * assert (alpha_ok (sims B)) as Hsb by (split; [exact Fs|lra]).
        destruct (Rle_or_lt (val (sims B) * (1 + delta)) (sim_of d tokens doc)) as [Hge|Hl].
        -- exfalso. destruct (no_loss (sims B) A B Hsb HA HB d m Ho Hz (Rle_ge _ _ Hge)) as [_ Ht]. lia.
        -- apply Rle_trans with (val (sims B) * (1 + delta))%R; [lra|]. apply Rle_trans with (val (Sc c) * (1 + delta))%R; [apply Rmult_le_compat_r; lra|lra].
      * unfold sim_of. fold m B. lra.
Qed.
End Full.

(** ** Suggest *)
(** [C99_suggest_partial] with the answers there are topK of: an entry that is similar enough,
    and has no more n-grams in common with the query than it has n-grams, is left out only
    when topK answers are there, each with a score no smaller than the entry's similarity
    (up to rounding). *)
Theorem C99_suggest : forall rb srt g ord name lowr d words ix query m alpha topK,
  roaring_ok rb -> roaring_written rb -> gob_ok g -> order_ok ord -> sorter_ok srt ->
  dictionary_any lowr d words -> index_built rb g ord name lowr d words ix ->
  let q := entry_grams lowr d query in
  1 <= zlen q <= 65535 -> (m = Overlap -> zlen q <= 32767) -> alpha_ok alpha -> 1 <= topK ->
  (exists w, In w words /\ MinY m alpha (zlen q) <= zlen (entry_grams lowr d w)) ->
  forall sched r, ServiceSuggest rb srt ix words (ToLower lowr) d query alpha m topK sched = Some r ->
  let of := fun i => entry_grams lowr d (entry_at words i) in
  let score := fun a : Z * Z => Score m (snd a) (zlen q) (zlen (of (fst a))) in
  let sim := fun i => gram_similarity lowr d m q (entry_at words i) in
  exists ans, r = Ret (map (fun a => (score a, entry_at words (fst a))) ans) /\
    zlen ans <= topK /\
    StronglySorted (fun a b => flt (score a) (score b) = false /\ (feq (score a) (score b) = true -> fst a <= fst b)) ans /\
    (forall i n, In (i, n) ans -> 0 <= i < zlen words /\ 1 <= n <= common q (of i) /\ (NoDup (of i) -> score (i, n) = score (i, common q (of i)))) /\
    (forall i, 0 <= i < zlen words -> (copies i ans <= repeats (of i))%nat) /\
    (zlen ans < topK ->
       (forall i n, In (i, n) ans -> common q (of i) <= zlen (of i) -> (sim i >= val alpha * (1 - / 2 ^ 46))%R) /\
       (forall i, 0 <= i < zlen words -> 1 <= zlen (of i) -> (m = Overlap -> zlen (of i) <= 32767) -> common q (of i) <= zlen (of i) -> (sim i >= val alpha * (1 + / 2 ^ 46))%R ->
          exists n, In (i, n) ans /\ score (i, n) = score (i, common q (of i)))) /\
    (forall i, 0 <= i < zlen words -> 1 <= zlen (of i) -> (m = Overlap -> zlen (of i) <= 32767) -> common q (of i) <= zlen (of i) -> (sim i >= val alpha * (1 + / 2 ^ 46))%R ->
       (exists n, In (i, n) ans /\ score (i, n) = score (i, common q (of i))) \/
       zlen ans = topK /\ forall a, In a ans -> (sim i <= val (score a) * (1 + / 2 ^ 46) + / 2 ^ 50)%R).
Proof.
  intros rb srt g ord name lowr d words ix query m alpha topK Hrb Hrw Hg Ho Hsrt Hdict Hb q Hq1 Hq2 Ha Hk Hlong sched r Hr of score sim.
  pose proof (dict_index_any rb g ord name lowr d words Hrb Hrw Hg Ho Hdict ix Hb) as Hok. pose proof (any_len rb lowr d words ix Hdict Hok) as Hlen.
  assert (query_any ix q m alpha topK) as Hq by (split; [exact Ha|]; split; [exact Hq1|]; split; [exact Hlen|]; split; assumption).
  pose proof (any_searchable rb lowr d words ix Hok q m alpha Hlong) as Hse. destruct (docs_good_any lowr d words Hdict) as (Hd & _). pose proof (proj1 Hok) as Hi.
  assert (forall i, 0 <= i < zlen words -> In (i, of i) (docs_of lowr d words)) as Hdoc by (intros i Hi0; apply (doc_entry lowr d words); split; [exact Hi0|reflexivity]).
  unfold ServiceSuggest in Hr. rewrite suggest_grams in Hr by (apply Hdict). fold q in Hr.
  destruct (run rb srt ix q m alpha topK sched (start ix q m alpha topK)) as [[s|r0|]|] eqn:Er; try discriminate.
  2:{ exfalso. destruct (C94_suggest_returns rb srt ix _ q m alpha topK sched _ Hq Hse Hd Hi Hsrt Er) as [(l & E)|(s & c & p' & E & _)]; discriminate. }
  injection Hr as <-. destruct (any_returns rb srt ix _ q m alpha topK Hq Hd Hi Hsrt sched r0 Hse Er) as (l & -> & Hg'). pose proof Hg' as (sims & L & Hsm & HL & Hbt). pose proof Hbt as (Hl & Hsort & rest & Hp & Hrest). cbn [bind].
  assert (forall c, In c l -> In c L) as Hsub by (intros c Hc; apply (Permutation_in _ (Permutation_sym Hp)), in_app_iff; left; exact Hc).
  assert (forall l', (forall c, In c l' -> In c l) -> exists ans, l' = map (fun a => mkCand (fst a) (score a)) ans /\ (forall i n, In (i, n) ans -> 0 <= i < zlen words /\ 1 <= n <= common q (of i) /\ MinY m alpha (zlen q) <= zlen (of i) <= MaxY m alpha (zlen q) /\ Threshold m (sims (zlen (of i))) (zlen q) (zlen (of i)) <= n)) as Hans.
  { induction l' as [|c l' IH]; intros Hin; [exists []; split; [reflexivity|intros i n []]|]. destruct (IH (fun c' Hc' => Hin c' (or_intror Hc'))) as (ans & E & H).
    destruct (proj1 (proj2 HL) c (Hsub c (Hin c (or_introl eq_refl)))) as ([x ts] & n & H1 & H2 & H3 & H4 & H5 & _). apply (doc_entry lowr d words) in H1. destruct H1 as [Hx ->]. cbn [fst snd] in *. exists ((x, n) :: ans). split.
    - cbn [map fst]. rewrite E, H2. reflexivity.
    - intros i k [E'|Hk']; [|apply H; exact Hk']. injection E' as <- <-. split; [exact Hx|]. split; [exact H4|]. split; [exact H3|exact H5]. }
  destruct (Hans l (fun c Hc => Hc)) as (ans & E & Hall). clear Hans. exists ans. split; [|split; [|split; [|split; [|split; [|split]]]]].
  - f_equal. rewrite E, map_map. apply map_ext_in. intros [i n] Hin. cbn [Sc Key fst]. rewrite get_entry by (apply (Hall i n Hin)). reflexivity.
  - assert (length l = length ans) as El by (rewrite E, map_length; reflexivity). unfold zlen. lia.
  - rewrite E in Hsort. clear - Hsort. induction ans as [|a ans IH]; [constructor|]. cbn [map] in Hsort. inversion_clear Hsort. constructor; [apply IH; assumption|]. apply Forall_forall. intros b Hb. rewrite Forall_forall in H0. specialize (H0 _ (in_map _ _ _ Hb)).
    unfold worse in H0. cbn [Sc Key] in H0. split; [destruct (flt (score a) (score b)) eqn:E; [exfalso; apply H0; left; reflexivity|reflexivity]|]. intros E. destruct (Z.le_gt_cases (fst a) (fst b)); [assumption|exfalso; apply H0; right; split; [exact E|lia]].
  - intros i n Hin. destruct (Hall i n Hin) as (H1 & H2 & _). split; [exact H1|]. split; [exact H2|]. intros Hn.
    assert (In (mkCand i (score (i, n))) l) as Hc by (rewrite E; apply in_map_iff; exists (i, n); split; [reflexivity|exact Hin]).
    assert (mkCand i (score (i, n)) = cand_of m q (i, of i)) as Ec by (eapply distinct_exact; try eassumption; [apply Hdoc; exact H1|apply Hsub; exact Hc|reflexivity]).
    injection Ec as Ec. exact Ec.
  - intros i Hi0. assert (key_times i l <= repeats (of i))%nat as Hcop by (change i with (fst (i, of i)) at 1; eapply copies_in_result; [..|exact HL|exact Hbt|apply Hdoc; exact Hi0|intros t; apply repeats_bound]).
    enough (copies i ans = key_times i l) by lia. rewrite E. unfold copies, key_times. clear. induction ans as [|a ans IH]; [reflexivity|]. cbn [map filter Key]. destruct (fst a =? i); cbn [length]; rewrite IH; reflexivity.
  - intros Hfew. assert (length l = length ans) as El by (rewrite E, map_length; reflexivity).
    assert (forall B, sims B = alpha) as Hsa.
    { intros B. destruct (Hsm B) as [Hs|(_ & _ & Hs & _)]; [exact Hs|]. pose proof (Permutation_length Hp) as Hpl. rewrite app_length in Hpl. destruct rest as [|x t]; [|unfold zlen in Hfew; cbn [length] in Hpl; lia]. unfold zlen in *. cbn [length] in Hpl. lia. }
    assert (forall w, In w words -> zlen (entry_grams lowr d w) + 1 < 2 ^ 26) as Hsz by (apply Hdict). assert (1 <= zlen q <= 65535 -> size_ok (zlen q)) as Hszq by (unfold size_ok; lia).
    assert (forall g h : list bytes, 0 <= common g h <= zlen g) as Hov1 by (intros g0 h0; unfold common; split; [apply zlen_nonneg|unfold zlen; apply inj_le; clear; induction g0 as [|x g0 IH]; cbn [filter]; [lia|destruct (existsb (beqb x) h0); cbn [length]; lia]]).
    split.
    + intros i n Hin Hov. destruct (Hall i n Hin) as (H1 & H2 & H3 & H4). rewrite Hsa in H4. replace (/ 2 ^ 46)%R with delta by (unfold delta; lra).
      pose proof (Hov1 q (of i)) as Ho1. pose proof (q_min ix q m alpha topK Hq) as Hmin. assert (In (entry_at words i) words) as Hiw by (apply nth_In; unfold zlen in H1; lia). assert (zlen (of i) + 1 < 2 ^ 26) as Hsi by exact (Hsz _ Hiw).
      apply (no_gain alpha (zlen q) (zlen (of i)) Ha (Hszq Hq1) ltac:(unfold size_ok; lia) m (common q (of i))); [unfold MetricSpec.sizes_ok; lia|exact H3|lia].
    + intros i Hi0 H1 Hov Hcm Hs. replace (/ 2 ^ 46)%R with delta in Hs by (unfold delta; lra).
      assert (In (cand_of m q (i, of i)) l) as Hc.
      { eapply (C94_fewer_than_k rb srt ix _ q m alpha topK sched l (i, of i)); try eassumption; [unfold zlen in *; lia|apply Hdoc; exact Hi0|].
        pose proof (Hov1 q (of i)) as Ho1. assert (In (entry_at words i) words) as Hiw by (apply nth_In; unfold zlen in Hi0; lia). assert (zlen (of i) + 1 < 2 ^ 26) as Hsi by exact (Hsz _ Hiw).
        destruct (no_loss alpha (zlen q) (zlen (of i)) Ha (Hszq Hq1) ltac:(unfold size_ok; lia) m (common q (of i)) Hov ltac:(unfold MetricSpec.sizes_ok; lia) Hs) as [G1 G2].
        unfold eligible_any, eligible. cbn zeta. cbn [snd]. change (overlap_of q (of i)) with (common q (of i)). lia. }
      rewrite E in Hc. apply in_map_iff in Hc. destruct Hc as ([j n] & Ec & Hc). cbn [fst] in Ec. pose proof (f_equal Key Ec) as E1. pose proof (f_equal Sc Ec) as E2. cbn [Key cand_of fst] in E1. subst j. exists n. split; [exact Hc|exact E2].
  - intros i Hi0 H1 Hov Hcm Hs. replace (/ 2 ^ 46)%R with delta in * by (unfold delta; lra). replace (/ 2 ^ 50)%R with eps by (rewrite eps_u; unfold u; lra).
    destruct (full_complete rb ix _ q m alpha topK Hq Hi l (i, of i) Hg' (Hdoc i Hi0) H1 Hov Hcm Hs) as [Hc|[Hk1 Hk2]].
    + left. rewrite E in Hc. apply in_map_iff in Hc. destruct Hc as ([j n] & Ec & Hc). cbn [fst] in Ec. pose proof (f_equal Key Ec) as E1. pose proof (f_equal Sc Ec) as E2. cbn [Key cand_of fst] in E1. subst j. exists n. split; [exact Hc|exact E2].
    + right. assert (length l = length ans) as El by (rewrite E, map_length; reflexivity). split; [unfold zlen in *; lia|]. intros a Hin. apply (Hk2 (mkCand (fst a) (score a))). rewrite E. apply in_map_iff. exists a. split; [reflexivity|exact Hin].
Qed.
Print Assumptions C99_suggest.
(** the hypotheses are met, by a query that repeats an n-gram, and the answer is full *)
Definition full99_query : list bytes := entry_grams demo71_low demo71_conf (bs "-+").
Definition full99_sched : list choice := sauto99 300 full99_query Jaccard quarter 1 (Suggest.start demo99_index full99_query Jaccard quarter 1).
Example C99_full_nonvacuous : dictionary_any demo71_low demo71_conf demo99_words /\
  index_built rb4 gob1 (fun _ m => rev m) "x" demo71_low demo71_conf demo99_words demo99_index /\
  ~ NoDup full99_query /\ 1 <= zlen full99_query <= 65535 /\
  (exists w, In w demo99_words /\ MinY Jaccard quarter (zlen full99_query) <= zlen (entry_grams demo71_low demo71_conf w)) /\
  ServiceSuggest rb4 (fun l => l) demo99_index demo99_words (ToLower demo71_low) demo71_conf (bs "-+") quarter Jaccard 1 full99_sched =
    Some (Ret [(of_int 1, bs "-+")]) /\
  (let e := entry_grams demo71_low demo71_conf (entry_at demo99_words 1) in 1 <= zlen e /\ common full99_query e <= zlen e /\ common full99_query e = zlen full99_query /\ zlen e = zlen full99_query).
Proof.
  split; [exact demo99_ok|]. split; [exact demo99_built|]. split; [|split; [|split; [|split]]].
  - intros Hn. match type of Hn with NoDup ?t => let v := eval vm_compute in t in change t with v in Hn end.
    repeat match goal with H : NoDup (_ :: _) |- _ => inversion_clear H end. cbn in *. intuition discriminate.
  - vm_compute. split; intros H; discriminate H.
  - exists (bs "-+"). split; [right; left; reflexivity|vm_compute; discriminate].
  - vm_compute. reflexivity.
  - cbn zeta. vm_compute. repeat split; intros H; discriminate H.
Qed.
