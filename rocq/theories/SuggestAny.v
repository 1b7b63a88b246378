(** A Suggest call over documents whose tokens may repeat. *)
From Coq Require Import ZifyBool Permutation Sorted Reals Lra Lia.
From Verif Require Import Base BaseLemmas GoMap Store Postings PostingsSpec PostingsDrive Merger MergerSpec MergerAnySpec MergerProofs Index IndexSpec IndexProofs P_IndexLemmas SearchAny
  Float64 Metric MetricSpec MetricProofs FloatProofs MetricFloat MetricFloat2 MetricScore P_Metric Heap HeapProofs TopK TopKSpec TopKProofs
  Suggest SuggestSpec SuggestProofs SuggestProofs2 P_SuggestLemmas SuggestGen SuggestAnySpec.
From Flocq Require Import Core.Raux.
Local Open Scope Z_scope.

Lemma overlap_A (tokens ts : list term) : overlap_of tokens ts <= zlen tokens.
Proof. unfold overlap_of, zlen. pose proof (filter_length_le' (fun t => existsb (beqb t) ts) tokens). lia. Qed.
Lemma overlap_0 (tokens ts : list term) : 0 <= overlap_of tokens ts. Proof. apply zlen_nonneg. Qed.
Lemma key_times_app x a b : key_times x (a ++ b) = (key_times x a + key_times x b)%nat.
Proof. unfold key_times. rewrite filter_app, app_length. reflexivity. Qed.
Lemma key_times_none x l : (forall c, In c l -> Key c <> x) -> key_times x l = 0%nat.
Proof.
  intros H. unfold key_times. induction l as [|c l IH]; [reflexivity|]. cbn [filter]. replace (Key c =? x) with false by (specialize (H c (or_introl eq_refl)); lia).
  apply IH. intros y Hy. apply H. right. exact Hy.
Qed.

Section C.
Context (rb : roaring) (srt : list iter -> list iter).
Context (ix : list (option inverted)) (docs : list (Z * list term)) (tokens : list term) (d : metric) (alpha : f64) (k : Z).
Notation A := (zlen tokens).
Notation run := (Suggest.run rb srt ix tokens d alpha k).
Notation start := (Suggest.start ix tokens d alpha k).
Context (Hq : query_any ix tokens d alpha k) (Hdocs : docs_any docs) (Hix : index_any rb ix docs) (Hsrt : sorter_ok srt).
Notation size doc := (zlen (@snd Z (list term) doc)).

Definition CC (b : Z) (s : f64) (l : list cand) : Prop :=
  (forall doc, In doc docs -> size doc = b -> Threshold d s A b <= overlap_of tokens (snd doc) -> Threshold d s A b <= b -> In (cand_of d tokens doc) l) /\
  (forall c, In c l -> exists doc m, In doc docs /\ size doc = b /\ c = mkCand (fst doc) (Score d m A b) /\ 1 <= m <= overlap_of tokens (snd doc) /\
     Threshold d s A b <= m /\ Threshold d s A b <= b) /\
  (forall doc n, In doc docs -> (forall t, token_times t (snd doc) <= n)%nat -> (key_times (fst doc) l <= n)%nat).

Lemma size_any doc : In doc docs -> 1 <= size doc -> size doc < zlen ix.
Proof.
  intros Hin Hs. destruct doc as [x ts]. cbn [snd] in *. destruct ts as [|t ts]; [cbn in Hs; lia|].
  pose proof (Hix (zlen (t :: ts)) t) as Hh. unfold index_holds_any in Hh. destruct (IndicesGet ix (zlen (t :: ts))) eqn:E.
  - unfold IndicesGet in E. destruct ((_ >=? 0) && _) eqn:E'; [lia|discriminate].
  - assert (In x (occurrences docs (zlen (t :: ts)) t)) as Hp; [|rewrite Hh in Hp; destruct Hp].
    apply occurrences_In. exists (t :: ts). split; [exact Hin|]. split; [reflexivity|]. apply mem_In'. left. reflexivity.
Qed.
Lemma missing b doc : In doc docs -> size doc = b -> 1 <= b -> IndicesGet ix b <> None.
Proof.
  intros Hin Hs Hb E. destruct doc as [x ts]. cbn [snd] in *. destruct ts as [|t ts]; [change (zlen (@nil term)) with 0 in Hs; lia|].
  pose proof (Hix b t) as Hh. unfold index_holds_any in Hh. rewrite E in Hh.
  assert (In x (occurrences docs b t)) as Hp; [|rewrite Hh in Hp; destruct Hp].
  apply occurrences_In. exists (t :: ts). split; [exact Hin|]. split; [exact Hs|]. apply mem_In'. left. reflexivity.
Qed.
Lemma like_any b m doc : 1 <= b -> In doc docs -> size doc = b -> 1 <= m <= overlap_of tokens (snd doc) -> score_like ix tokens d (Score d m A b).
Proof.
  intros Hb Hin Hs Hm. exists m, b. pose proof (overlap_A tokens (snd doc)). pose proof (overlap_le_size tokens (snd doc)). pose proof (size_any doc Hin ltac:(lia)).
  split; [lia|]. split; [intros Hn; specialize (H0 Hn); lia|]. split; [lia|reflexivity].
Qed.
Lemma CC_search b s iv : 1 <= b < zlen ix -> Threshold d s A b <= b -> sim_like ix tokens d alpha s -> IndicesGet ix b = Some iv ->
  exists q l, Suggest.worker_search rb srt tokens d k b (Threshold d s A b) iv = Ret q /\ CC b s l /\ Inv q k l.
Proof.
  intros Hb HTb Hs Hiv. unfold Suggest.worker_search. pose proof (q_A _ _ _ _ _ Hq) as HA. pose proof (q_k _ _ _ _ _ Hq) as Hk.
  pose proof (q_thr _ _ _ _ _ Hq s b Hs Hb) as HT.
  destruct (search_docs_any (fuzzy_collect d (sizeA tokens) b) srt rb ix b iv docs tokens (Threshold d s A b) (NewTopKQueue k) Hsrt Hdocs Hiv) as (cs & (C1 & C2 & C3) & e & He & Es).
  { intros t. apply Hix. } { lia. } { exact HT. }
  change (forall x ts, In (x, ts) docs -> zlen ts = b -> Threshold d s A b <= overlap_of tokens ts -> In (x, overlap_of tokens ts) cs) in C1.
  change (forall x m, In (x, m) cs -> Threshold d s A b <= m /\ exists ts, In (x, ts) docs /\ zlen ts = b /\ m <= overlap_of tokens ts) in C2.
  rewrite Es. unfold NewTopKQueue in *. replace (k <? 0) with false in * by lia.
  assert (Inv (mkQueue k []) k []) as H0 by (apply new_inv; [exact Hk|unfold NewTopKQueue; replace (k <? 0) with false by lia; reflexivity]).
  destruct (feed_fuzzy d (sizeA tokens) b k cs _ _ H0) as (q & Eq & HqI).
  { apply Forall_forall. intros [x m] Hin. apply C2 in Hin. destruct Hin as (Hn & ts & Hin & Hts & En). cbn [fst snd]. pose proof (overlap_A tokens ts).
    split; [|split].
    - destruct Hdocs as (_ & Hu & _). rewrite Forall_forall in Hu. apply Hu. apply (in_map fst) in Hin. exact Hin.
    - unfold is_u32. lia.
    - apply (q_score _ _ _ _ _ Hq). apply (like_any b m (x, ts)); cbn [snd]; [lia|exact Hin|exact Hts|lia]. }
  assert (wrapped e = (Ret tt, Ret q)) as -> by (destruct He as [->| ->]; rewrite Eq; reflexivity).
  exists q. eexists. split; [reflexivity|]. cbn [app] in HqI. split; [|exact HqI]. split; [|split].
  - intros [x ts] Hin Hsz HTo _. cbn [snd] in *. apply in_map_iff. exists (x, overlap_of tokens ts). split; [|apply C1; assumption].
    unfold cand_of, sizeA. cbn [fst snd]. rewrite Hsz. reflexivity.
  - intros c Hc. apply in_map_iff in Hc. destruct Hc as ([x m] & <- & Hin). apply C2 in Hin. destruct Hin as (Hm & ts & Hin & Hts & Hov).
    exists (x, ts), m. cbn [fst snd]. split; [exact Hin|]. split; [exact Hts|]. split; [reflexivity|]. lia.
  - intros [x ts] n Hin Hn. cbn [fst snd] in *. specialize (C3 x ts n Hin Hn). unfold key_times, copies in *.
    etransitivity; [|exact C3]. apply Nat.eq_le_incl. clear. induction cs as [|[y m] cs IH]; [reflexivity|]. cbn [map filter fst Key].
    destruct (y =? x); cbn [length]; rewrite IH; reflexivity.
Qed.
Lemma CC_none b s : 1 <= b -> sim_like ix tokens d alpha s ->
  IndicesGet ix b = None \/ Threshold d s A b = 0 \/ b < Threshold d s A b \/ A < Threshold d s A b -> CC b s [].
Proof.
  intros Hb Hs H. split; [|split].
  - intros doc Hin Hsz HTo HTb. exfalso. pose proof (overlap_A tokens (snd doc)). pose proof (size_any doc Hin ltac:(lia)).
    pose proof (q_thr _ _ _ _ _ Hq s b Hs ltac:(lia)). destruct H as [H|H]; [exact (missing b doc Hin Hsz Hb H)|lia].
  - intros c [].
  - intros; cbn; lia.
Qed.
Lemma CC_score b s l : 1 <= b -> CC b s l -> Forall (fun c => score_like ix tokens d (Sc c)) l.
Proof.
  intros Hb (_ & H & _). apply Forall_forall. intros c Hc. destruct (H c Hc) as (doc & m & Hin & Hs & -> & Hm & _). cbn [Sc]. exact (like_any b m doc Hb Hin Hs Hm).
Qed.

Definition good_copies (r : list cand) : Prop :=
  exists sims L, (forall B, sims B = alpha \/ (flt alpha (sims B) = true /\ score_like ix tokens d (sims B) /\ zlen r = k /\ Forall (fun c => fle (sims B) (Sc c) = true) r)) /\
    collected_any d alpha sims tokens docs L /\ best_k k L r.
Lemma lookup3 (fin : list (Z * (f64 * list cand))) p : NoDup (map fst fin) -> In p fin ->
  lookup alpha (map (fun q => (fst q, sm q)) fin) (fst p) = sm p.
Proof.
  intros Hn Hin. apply (lookup_in alpha (map (fun q => (fst q, sm q)) fin) (fst p, sm p)).
  - rewrite map_map. exact Hn.
  - apply (in_map (fun q => (fst q, sm q))). exact Hin.
Qed.
Lemma copies_flat (fin : list (Z * (f64 * list cand))) doc n : NoDup (map fst fin) -> Forall (fun p => CC (fst p) (sm p) (lst p)) fin -> In doc docs ->
  (forall t, token_times t (snd doc) <= n)%nat -> (key_times (fst doc) (flat_map lst fin) <= n)%nat.
Proof.
  intros Hn HC Hin Ht.
  assert (forall p c, CC (fst p) (sm p) (lst p) -> In c (lst p) -> Key c = fst doc -> fst p = size doc) as Hsz.
  { intros p c (_ & H2 & _) Hc Hk. destruct (H2 c Hc) as (doc' & m & Hin' & Hs & -> & _). cbn [Key] in Hk. destruct doc as [x ts], doc' as [x' ts']. cbn [fst snd] in *. subst x'.
    rewrite <- Hs. f_equal. apply (docs_any_unique docs x ts' ts Hdocs); assumption. }
  induction fin as [|p fin IH]; [cbn; lia|]. cbn [flat_map map] in *. rewrite key_times_app. inversion_clear Hn as [|? ? Hp Hn'].
  pose proof (Forall_inv HC) as HCp. apply Forall_inv_tail in HC. destruct (Z.eq_dec (fst p) (size doc)) as [E|E].
  - rewrite (key_times_none (fst doc) (flat_map lst fin)); [pose proof (proj2 (proj2 HCp) doc n Hin Ht); lia|].
    intros c Hc Hk. apply in_flat_map in Hc. destruct Hc as (q & Hq0 & Hc). rewrite Forall_forall in HC. pose proof (Hsz q c (HC q Hq0) Hc Hk) as E'. apply Hp. rewrite E, <- E'. apply in_map. exact Hq0.
  - rewrite (key_times_none (fst doc) (lst p)); [apply IH; assumption|]. intros c Hc Hk. exact (E (Hsz p c HCp Hc Hk)).
Qed.
Lemma fin_copies r : good_fin ix tokens d alpha k CC r -> good_copies r.
Proof.
  intros (fin & Hn & Hr & Hf & Hb). exists (lookup alpha (map (fun q => (fst q, sm q)) fin)), (flat_map lst fin).
  pose proof (q_min _ _ _ _ _ Hq) as Hmin. pose proof (q_max _ _ _ _ _ Hq) as Hmax. pose proof (q_bmax _ _ _ _ _ Hq) as Hbm. unfold bMin, sizeA in *.
  assert (forall p, In p fin -> CC (fst p) (sm p) (lst p)) as HC by (intros p Hp; rewrite Forall_forall in Hf; apply (Hf p Hp)).
  split; [|split; [|exact Hb]].
  - intros B. unfold lookup. destruct (find _ _) as [q|] eqn:E; [|left; reflexivity]. apply find_some in E. destruct E as [Hin _]. apply in_map_iff in Hin. destruct Hin as (p & <- & Hin). cbn [snd].
    rewrite Forall_forall in Hf. destruct (Hf p Hin) as [_ H]. exact H.
  - split; [|split].
    + intros doc Hin E. unfold eligible_any, eligible in E. cbn zeta in E. apply in_flat_map.
      assert (In (size doc) (map fst fin)) as Hi by (apply Hr; pose proof (size_any doc Hin ltac:(lia)); lia).
      apply in_map_iff in Hi. destruct Hi as (p & Ep & Hp). exists p. split; [exact Hp|]. rewrite <- Ep, (lookup3 fin p Hn Hp) in E. rewrite Ep in E.
      apply (proj1 (HC p Hp)); [exact Hin|symmetry; exact Ep|rewrite Ep; lia|rewrite Ep; lia].
    + intros c Hc. apply in_flat_map in Hc. destruct Hc as (p & Hp & Hc). destruct (proj1 (proj2 (HC p Hp)) c Hc) as (doc & m & Hin & Hs & -> & Hm & HT & HTb).
      exists doc, m. rewrite Hs, (lookup3 fin p Hn Hp). split; [exact Hin|]. split; [reflexivity|].
      assert (In (fst p) (map fst fin)) as Hi by (apply in_map; exact Hp). apply Hr in Hi. split; [lia|]. split; [exact Hm|]. split; assumption.
    + intros doc n Hin Ht. apply copies_flat; try assumption. apply Forall_forall. exact HC.
Qed.
Lemma any_run sched p : searchable ix tokens d alpha -> run sched start = Some p -> SuggestGen.Good ix tokens d alpha k CC p.
Proof.
  intros Hs Hr. unfold searchable in Hs. pose proof (q_min _ _ _ _ _ Hq) as Hmin. pose proof (q_max60 _ _ _ _ _ Hq) as Hm60. pose proof (q_ix _ _ _ _ _ Hq) as Hix26. pose proof (q_bmax _ _ _ _ _ Hq) as Hbm.
  assert (SuggestGen.Good ix tokens d alpha k CC start) as H0.
  { apply (SuggestGen.start_good rb srt); try exact CC_search; try exact CC_none; try exact CC_score; try exact (q_thr _ _ _ _ _ Hq); try exact (q_A _ _ _ _ _ Hq); try exact (q_k _ _ _ _ _ Hq); try exact (q_min _ _ _ _ _ Hq); try exact (q_max _ _ _ _ _ Hq); try exact (q_ix62 _ _ _ _ _ Hq); try exact (q_score _ _ _ _ _ Hq).
    - rewrite Hbm. unfold bMin, sizeA. lia.
    - rewrite Hbm. unfold bMin, sizeA. change max_chan with 35184372088820. lia. }
  eapply (SuggestGen.run_good rb srt ix tokens d alpha k CC); try exact Hr; try exact H0; try exact (q_A _ _ _ _ _ Hq); try exact (q_k _ _ _ _ _ Hq); try exact (q_min _ _ _ _ _ Hq); try exact (q_max _ _ _ _ _ Hq); try exact (q_ix62 _ _ _ _ _ Hq);
      try exact (q_score _ _ _ _ _ Hq); try exact (q_thr _ _ _ _ _ Hq); [exact CC_search|exact CC_none|exact CC_score].
Qed.
Lemma any_returns sched r : searchable ix tokens d alpha -> run sched start = Some (Finished r) -> exists l, r = Ret l /\ good_copies l.
Proof.
  intros Hs Hr. pose proof (any_run sched _ Hs Hr) as HG.
  cbn [SuggestGen.Good] in HG. destruct r as [l| | |]; [|destruct HG..]. exists l. split; [reflexivity|]. apply fin_copies. exact HG.
Qed.
End C.

(** some goroutine can always move *)
Section Progress.
Context (rb : roaring) (srt : list iter -> list iter).
Context (ix : list (option inverted)) (docs : list (Z * list term)) (tokens : list term) (d : metric) (alpha : f64) (k : Z).
Notation run := (Suggest.run rb srt ix tokens d alpha k).
Notation start := (Suggest.start ix tokens d alpha k).
Context (Hq : query_any ix tokens d alpha k) (Hdocs : docs_any docs) (Hix : index_any rb ix docs) (Hsrt : sorter_ok srt).
Lemma any_progress sched s : searchable ix tokens d alpha -> run sched start = Some (Running s) -> exists c p, Suggest.exec rb srt ix tokens d alpha k c (Running s) = Some p.
Proof.
  intros Hs Hr. pose proof (run_lock _ _ _ _ _ _ _ _ _ Hr) as HL. pose proof (any_run rb srt ix docs tokens d alpha k Hq Hdocs Hix Hsrt _ _ Hs Hr) as HG. clear Hr. rename HG into Hr. cbn [SuggestGen.Good] in Hr.
  pose proof (q_min _ _ _ _ _ Hq). pose proof (q_max60 _ _ _ _ _ Hq). pose proof (q_ix _ _ _ _ _ Hq). pose proof (q_cap _ _ _ _ _ Hq) as Hcap. pose proof (q_bmax _ _ _ _ _ Hq) as Hbm.
  destruct (existsb (fun w => match w with WRecv => true | _ => false end) (s_ws s)) eqn:Er.
  - apply progress; [exact HL|rewrite Hcap, Hbm; unfold searchable, bMin, sizeA in *; lia|]. right. right. apply existsb_exists in Er. destruct Er as (w & Hin & E). destruct w; try discriminate. exact Hin.
  - destruct Hr as (sent & fin & _ & _ & _ & _ & _ & Hws & Hex & Hne). destruct (existsb gone (s_ws s)) eqn:Eg.
    + apply progress; [exact HL|rewrite Hcap, Hbm; unfold searchable, bMin, sizeA in *; lia|]. left. apply existsb_exists in Eg. destruct Eg as (w & Hin & E). rewrite Forall_forall in Hws. specialize (Hws w Hin).
      destruct w; try discriminate; [apply (Hex Hin)|destruct Hws].
    + assert (exists w, In w (s_ws s)) as (w & Hw) by (destruct (s_ws s) as [|w l]; [congruence|]; exists w; left; reflexivity).
      destruct (busy_moves rb srt ix tokens d alpha k s HL) as (c & p & E); [|exists c, p; exact E].
      exists w. split; [exact Hw|]. split.
      * destruct (gone w) eqn:E; [|reflexivity]. assert (existsb gone (s_ws s) = true) by (apply existsb_exists; eauto). congruence.
      * intros ->. assert (existsb (fun w => match w with WRecv => true | _ => false end) (s_ws s) = true) by (apply existsb_exists; exists WRecv; auto). congruence.
Qed.
End Progress.

(** ** consequences *)
Section D.
Context (rb : roaring) (ix : list (option inverted)) (docs : list (Z * list term)) (tokens : list term) (d : metric) (alpha : f64) (k : Z).
Notation A := (zlen tokens).
Context (Hdocs : docs_any docs) (Hix : index_any rb ix docs).

Lemma copies_in_result sims L r doc n : collected_any d alpha sims tokens docs L -> best_k k L r -> In doc docs ->
  (forall t, token_times t (snd doc) <= n)%nat -> (key_times (fst doc) r <= n)%nat.
Proof.
  intros (_ & _ & H3) (_ & _ & rest & Hp & _) Hin Ht. specialize (H3 doc n Hin Ht).
  assert (key_times (fst doc) L = key_times (fst doc) (r ++ rest)) as E.
  { unfold key_times. clear - Hp. induction Hp; cbn [filter]; repeat (match goal with |- context [if ?b then _ else _] => destruct b end); cbn [length]; congruence. }
  rewrite E, key_times_app in H3. lia.
Qed.
Lemma distinct_exact sims L doc c : collected_any d alpha sims tokens docs L -> In doc docs -> NoDup (snd doc) -> In c L -> Key c = fst doc -> c = cand_of d tokens doc.
Proof.
  intros (H1 & H2 & H3) Hin Hn Hc Hk. destruct (H2 c Hc) as (doc' & m & Hin' & Ec & Hb & Hm & HT & HTb).
  assert (doc' = doc) as ->.
  { subst c. cbn [Key] in Hk. destruct doc as [x ts], doc' as [x' ts']. cbn [fst snd] in *. subst x'. f_equal. apply (docs_any_unique docs x ts' ts Hdocs); assumption. }
  assert (In (cand_of d tokens doc) L) as Hi.
  { apply H1; [exact Hin|]. unfold eligible_any, eligible. cbn zeta. lia. }
  assert (key_times (fst doc) L <= 1)%nat as Hone.
  { apply H3; [exact Hin|]. intros t. rewrite token_times_one by exact Hn. destruct (existsb _ _); lia. }
  assert (forall (f : cand -> bool) (l : list cand) a b, (length (filter f l) <= 1)%nat -> In a l -> In b l -> f a = true -> f b = true -> a = b) as Huniq.
  { clear. intros f l a b Hl Ha Hb Fa Fb. assert (In a (filter f l)) as Ha' by (apply filter_In; auto). assert (In b (filter f l)) as Hb' by (apply filter_In; auto).
    destruct (filter f l) as [|x [|y t]]; [destruct Ha'| |cbn in Hl; lia]. destruct Ha' as [<-|[]], Hb' as [<-|[]]. reflexivity. }
  exact (Huniq (fun c => Key c =? fst doc) L c (cand_of d tokens doc) Hone Hc Hi (proj2 (Z.eqb_eq _ _) Hk) (Z.eqb_refl _)).
Qed.

Context (Hq : query_ok ix tokens d alpha k).
Lemma any_sizes doc m : In doc docs -> 1 <= zlen (snd doc) -> 0 <= m <= overlap_of tokens (snd doc) -> sizes_ok m A (zlen (snd doc)) /\ size_ok (zlen (snd doc)) /\ zlen (snd doc) < zlen ix.
Proof.
  intros Hin H1 Hm. pose proof (size_any rb ix docs Hix doc Hin H1). pose proof (overlap_A tokens (snd doc)). pose proof (overlap_le_size tokens (snd doc) (q_nodup _ _ _ _ _ Hq)).
  pose proof (q_A _ _ _ _ _ Hq). pose proof (q_ix _ _ _ _ _ Hq). unfold sizes_ok, size_ok. lia.
Qed.
Lemma any_sound r c : good_copies ix docs tokens d alpha k r -> In c r -> exists doc m, In doc docs /\ c = mkCand (fst doc) (Score d m A (zlen (snd doc))) /\
  1 <= m <= overlap_of tokens (snd doc) /\ (sim_of d tokens doc >= val alpha * (1 - delta))%R.
Proof.
  intros (sims & L & Hs & (_ & H2 & _) & _ & _ & rest & Hp & _) Hc. assert (In c L) as Hin by (apply (Permutation_in _ (Permutation_sym Hp)), in_app_iff; left; exact Hc).
  destruct (H2 c Hin) as (doc & m & Hd & -> & Hb & Hm & HT & _). exists doc, m. split; [exact Hd|]. split; [reflexivity|]. split; [exact Hm|].
  pose proof (q_min _ _ _ _ _ Hq) as Hmin. assert (1 <= zlen (snd doc)) as H1 by lia. destruct (any_sizes doc (overlap_of tokens (snd doc)) Hd H1 ltac:(lia)) as (Hz & HB & Hlt). unfold sim_of. pose proof u_pos.
  assert (0 < delta < / 1000)%R as Hdl by (rewrite delta_u; lra). pose proof (q_alpha _ _ _ _ _ Hq) as Ha. pose proof (q_size _ _ _ _ _ Hq) as HA.
  destruct (metric_eq_dec d Exact) as [Ed|Hne].
  - rewrite Ed in *. apply no_gain; try assumption; cbn [Threshold] in *; lia.
  - set (B := zlen (snd doc)) in *. assert (alpha_ok (sims B)) as Hsb.
    { apply (sim_alpha_ok ix tokens d alpha Ha HA (q_ix _ _ _ _ _ Hq) (q_ov _ _ _ _ _ Hq) _ (q_nodup _ _ _ _ _ Hq)). destruct (Hs B) as [->|(H4 & H3 & _)]; [left; reflexivity|right; split; assumption]. }
    pose proof (gain_thr d (sims B) _ A B Hne Hsb HA HB Hz ltac:(lia)) as Hg.
    assert (val alpha <= val (sims B))%R as Hle.
    { destruct (Hs B) as [->|(H4 & H3 & _)]; [lra|]. apply (flt_val _ _ (proj1 Ha) (proj1 Hsb)) in H4. lra. }
    apply Rge_trans with (val (sims B) * (1 - delta))%R; [exact Hg|]. apply Rle_ge, Rmult_le_compat_r; lra.
Qed.
Lemma any_complete r doc : good_copies ix docs tokens d alpha k r -> In doc docs -> 1 <= zlen (snd doc) -> (d = Overlap -> zlen (snd doc) <= 32767) -> (sim_of d tokens doc >= val alpha * (1 + delta))%R ->
  In (cand_of d tokens doc) r \/ (zlen r = k /\ forall c, In c r -> (sim_of d tokens doc <= val (Sc c) * (1 + delta) + eps)%R).
Proof.
  intros (sims & L & Hs & (G1 & G2 & _) & Hlen & _ & rest & Hp & Hr) Hin H1 Ho Hsim. pose proof (overlap_0 tokens (snd doc)) as Hov0.
  destruct (any_sizes doc (overlap_of tokens (snd doc)) Hin H1 ltac:(lia)) as (Hz & HB & Hlt). pose proof u_pos.
  assert (0 < delta < / 1000)%R as Hdl by (rewrite delta_u; lra). assert (0 < eps < / 1000)%R as Hep by (rewrite eps_u; lra).
  pose proof (q_alpha _ _ _ _ _ Hq) as Ha. pose proof (q_size _ _ _ _ _ Hq) as HA. pose proof (q_min _ _ _ _ _ Hq) as Hmin.
  set (B := zlen (snd doc)) in *. set (m := overlap_of tokens (snd doc)) in *.
  assert (sim_like ix tokens d alpha (sims B)) as Hsl by (destruct (Hs B) as [->|(H2 & H3 & _)]; [left; reflexivity|right; split; assumption]).
  assert (alpha_ok (sims B)) as Hsb by (apply (sim_alpha_ok ix tokens d alpha Ha HA (q_ix _ _ _ _ _ Hq) (q_ov _ _ _ _ _ Hq) _ (q_nodup _ _ _ _ _ Hq)); exact Hsl).
  assert (MinY d alpha A <= B <= MaxY d alpha A) as Hbounds by (apply (no_loss alpha A B Ha HA HB d m Ho Hz Hsim)).
  assert (forall c, In c r -> exists (doc' : Z * list term) m', c = mkCand (fst doc') (Score d m' A (zlen (snd doc'))) /\ sizes_ok m' A (zlen (snd doc')) /\ size_ok (zlen (snd doc')) /\ zlen (snd doc') < zlen ix /\ 1 <= zlen (snd doc')) as Hform.
  { intros c Hc. assert (In c L) as Hi by (apply (Permutation_in _ (Permutation_sym Hp)), in_app_iff; left; exact Hc). destruct (G2 c Hi) as (doc' & m' & Hd' & Ec & Hb' & Hm' & _).
    exists doc', m'. split; [exact Ec|]. assert (1 <= zlen (snd doc')) as Hs1 by lia. destruct (any_sizes doc' m' Hd' Hs1 ltac:(lia)) as (X1 & X2 & X3). auto. }
  assert (forall c, In c r -> fin (Sc c) /\ (0 <= val (Sc c) <= 1)%R) as Hfr.
  { intros c Hc. destruct (Hform c Hc) as (doc' & m' & -> & (Z1 & Z2 & Z3) & HB' & Hlt' & Hpos'). cbn [Sc].
    apply (score_fin ix tokens d HA (q_ix _ _ _ _ _ Hq) (q_ov _ _ _ _ _ Hq)); lia. }
  assert (zlen (snd doc) = B) as EB by reflexivity.
  pose proof (overlap_le_size tokens (snd doc) (q_nodup _ _ _ _ _ Hq)) as Hmsz. fold m in Hmsz. fold B in Hmsz.
  destruct (eligible_any d alpha sims tokens doc) eqn:E.
  - assert (In (cand_of d tokens doc) (r ++ rest)) as Hi by (apply (Permutation_in _ Hp); apply G1; assumption).
    apply in_app_iff in Hi. destruct Hi as [Hi|Hi]; [left; exact Hi|right].
    assert (zlen r = k) as Hrk.
    { pose proof (Permutation_length Hp) as Hl. rewrite app_length in Hl. destruct rest as [|z rest]; [destruct Hi|]. cbn [length] in Hl. unfold zlen. lia. }
    split; [exact Hrk|]. intros c Hc. destruct (Hfr c Hc) as [Fc Vc]. specialize (Hr c _ Hc Hi). destruct Hz as (Z1 & Z2 & Z3).
    destruct (metric_eq_dec d Exact) as [Ed|Hd].
    + assert (Sc c = f_one) as ->.
      { destruct (Hform c Hc) as (doc' & m' & -> & _). cbn [Sc]. rewrite Ed. vm_compute. reflexivity. }
      rewrite (proj2 val_one). unfold sim_of. rewrite Ed. cbn [similarity]. destruct (_ && _); lra.
    + destruct (score_accurate d m A B Hd HA HB) as (Fs & Vs & Es); [lia|lia|lia|]. assert (val (Score d m A B) <= val (Sc c))%R as Hle.
      { destruct (Rle_or_lt (val (Score d m A B)) (val (Sc c))) as [H0|H0]; [exact H0|exfalso]. apply Hr. left. cbn [cand_of Sc]. apply flt_val; [exact Fc|exact Fs|exact H0]. }
      unfold sim_of. fold m. fold B. apply Rabs_le_inv in Es. assert (0 <= val (Sc c) * delta)%R by (apply Rmult_le_pos; lra). lra.
  - right. unfold eligible_any, eligible in E. cbn zeta in E. fold B in E. fold m in E.
    assert (m < Threshold d (sims B) A B) as Hpr by lia. clear E.
    destruct (Hs B) as [Eb|(H2 & H3 & Hrk & Hall)].
    + exfalso. destruct (no_loss alpha A B Ha HA HB d m Ho Hz Hsim) as [_ Ht]. rewrite Eb in Hpr. lia.
    + split; [exact Hrk|]. intros c Hc. rewrite Forall_forall in Hall. specialize (Hall c Hc). destruct (Hfr c Hc) as [Fc Vc]. apply (fle_val _ _ (proj1 Hsb) Fc) in Hall.
      destruct (Rle_or_lt (val (sims B) * (1 + delta)) (sim_of d tokens doc)) as [Hge|Hl].
      * exfalso. destruct (no_loss (sims B) A B Hsb HA HB d m Ho Hz (Rle_ge _ _ Hge)) as [_ Ht]. lia.
      * apply Rle_trans with (val (sims B) * (1 + delta))%R; [lra|]. apply Rle_trans with (val (Sc c) * (1 + delta))%R; [apply Rmult_le_compat_r; lra|lra].
Qed.
End D.
