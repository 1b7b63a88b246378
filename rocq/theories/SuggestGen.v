(** The invariant of the workers of a Suggest call for any relation between a size, a
    similarity and the candidates a search collects: used for documents with repeated
    tokens.  The proofs follow SuggestProofs.v. *)
From Coq Require Import ZifyBool Permutation Sorted.
From Verif Require Import Base BaseLemmas GoMap Store Postings PostingsSpec Merger MergerSpec MergerProofs Index IndexSpec IndexProofs P_IndexLemmas
  Float64 Metric Heap HeapProofs TopK TopKSpec TopKProofs Suggest SuggestSpec SuggestProofs.
Local Open Scope Z_scope.

Section S.
Context (rb : roaring) (srt : list iter -> list iter).
Context (ix : list (option inverted)) (tokens : list term) (d : metric) (alpha : f64) (k : Z).
Notation A := (zlen tokens).
Notation bmin := (Suggest.bMin tokens d alpha).
Notation bmax := (Suggest.bMax ix tokens d alpha).
Notation cap := (chan_cap ix tokens d alpha).
Notation exec := (Suggest.exec rb srt ix tokens d alpha k).
Notation run := (Suggest.run rb srt ix tokens d alpha k).
Notation start := (Suggest.start ix tokens d alpha k).
Notation worker_search := (Suggest.worker_search rb srt tokens d k).

(* [C b s l]: the candidates collected for size b with similarity s are l *)
Context (C : Z -> f64 -> list cand -> Prop) (HA : 1 <= A <= 65535) (Hk : 1 <= k).
Notation score_like := (score_like ix tokens d).
Notation sim_like := (sim_like ix tokens d alpha).
Context (Hscore : forall s, score_like s -> s <> S754_nan).
Context (Hthr : forall s B, sim_like s -> 1 <= B < zlen ix -> 1 <= Threshold d s A B).
Context (Hmin : 1 <= MinY d alpha A <= A) (Hmax : A <= MaxY d alpha A < 2 ^ 62) (Hixlen : zlen ix < 2 ^ 62).

Context (HCsearch : forall b s iv, 1 <= b < zlen ix -> Threshold d s A b <= b -> sim_like s -> IndicesGet ix b = Some iv ->
  exists q l, worker_search b (Threshold d s A b) iv = Ret q /\ C b s l /\ Inv q k l).
Context (HCnone : forall b s, 1 <= b -> sim_like s ->
  IndicesGet ix b = None \/ Threshold d s A b = 0 \/ b < Threshold d s A b \/ A < Threshold d s A b -> C b s []).
Context (HCscore : forall b s l, 1 <= b -> C b s l -> Forall (fun c => score_like (Sc c)) l).
(** ** justified similarities *)
Definition just (g : queue) (s : f64) : Prop :=
  s = alpha \/ (flt alpha s = true /\ score_like s /\ zlen (qh g) = k /\ Forall (fun c => fle s (Sc c) = true) (qh g)).
Lemma just_sim g s : just g s -> sim_like s. Proof. unfold just, sim_like. tauto. Qed.
Lemma fle_le4 s a b : s <> S754_nan -> num a -> num b -> le4 b a -> fle s (Sc b) = true -> fle s (Sc a) = true.
Proof.
  intros Hs Ha Hb. unfold num in *. unfold HeapProofs.le, less4. rewrite !fle_rank by assumption. destruct (rank s) as [[? ?] ?], (rank (Sc a)) as [[? ?] ?], (rank (Sc b)) as [[? ?] ?]. cbn. lia.
Qed.
Lemma count_split {X} (f : X -> bool) l1 l2 : length (filter f (l1 ++ l2)) = (length (filter f l1) + length (filter f l2))%nat.
Proof. rewrite filter_app, app_length. reflexivity. Qed.
Lemma just_mono g g' L L2 s : Inv g k L -> Inv g' k (L ++ L2) -> just g s -> just g' s.
Proof.
  intros HI HI' [->|(Ha & Hsc & Hz & Hall)]; [left; reflexivity|right]. split; [exact Ha|]. split; [exact Hsc|].
  pose proof (inv_num _ _ _ HI') as Hn'. destruct HI as (_ & _ & Hn & _ & Hl & rest & Hp & Hr), HI' as (_ & _ & HnL & _ & Hl' & rest' & Hp' & Hr').
  rewrite zlen_app' in Hl'. pose proof (zlen_nonneg L2). split; [lia|].
  apply Forall_forall. intros c Hc. destruct (fle s (Sc c)) eqn:E; [reflexivity|exfalso].
  set (f := fun x => fle s (Sc x)).
  assert (length (filter f rest') = 0%nat) as E1.
  { apply filter_none. intros x Hx. unfold f. destruct (fle s (Sc x)) eqn:Ex; [|reflexivity]. exfalso.
    assert (num x /\ num c) as [Nx Nc].
    { apply (Permutation_Forall Hp'), Forall_app in HnL. destruct HnL as [N1 N2]. rewrite Forall_forall in N1, N2. auto. }
    rewrite (fle_le4 s c x (Hscore s Hsc) Nc Nx (Hr' c x Hc Hx) Ex) in E. discriminate. }
  assert (length (filter f (qh g')) < length (qh g'))%nat as E2.
  { apply in_split in Hc. destruct Hc as (h1 & h2 & ->). rewrite count_split. cbn [filter]. unfold f at 2. rewrite E. rewrite app_length. cbn [length].
    pose proof (filter_length_le' f h1). pose proof (filter_length_le' f h2). lia. }
  assert (length (filter f (qh g)) = length (qh g)) as E3 by (apply filter_all; intros x Hx; rewrite Forall_forall in Hall; apply Hall; exact Hx).
  pose proof (filter_perm f _ _ Hp') as E4. pose proof (filter_perm f _ _ Hp) as E5. rewrite !count_split in *. unfold zlen in *. lia.
Qed.
Lemma store_just g L : Inv g k L -> Forall (fun c => score_like (Sc c)) L ->
  exists l, ManagerLowestScore g = Ret l /\ forall s, just g s -> just g (if flt s l then l else s).
Proof.
  intros HI HL. unfold ManagerLowestScore, IsFull. pose proof (inv_num _ _ _ HI) as Hn. destruct HI as (Ek & _ & _ & Hh & Hl & rest & Hp & Hr). rewrite Ek.
  destruct (Z.eqb_spec (zlen (qh g)) k) as [E|E]; cbn [negb].
  - unfold GetLowestScore. replace (0 <? zlen (qh g)) with true by lia. unfold top.
    destruct (qh g) as [|c h] eqn:Eh; [change (zlen (@nil cand)) with 0 in E; lia|]. cbn [index]. unfold index. replace ((0 <=? 0) && (0 <? zlen (c :: h))) with true by (rewrite <- Eh in *; lia). cbn [Z.to_nat nth_error bind].
    exists (Sc c). split; [reflexivity|]. intros s Hs. destruct (flt s (Sc c)) eqn:Ef; [|exact Hs].
    assert (score_like (Sc c)) as Hsc.
    { apply (Permutation_Forall Hp), Forall_app in HL. destruct HL as [HL _]. exact (Forall_inv HL). }
    right. rewrite Eh. split; [|split; [exact Hsc|split; [exact E|]]].
    + destruct Hs as [<-|(H1 & H2 & _)]; [exact Ef|]. assert (alpha <> S754_nan) as Na by (intros ->; cbn in H1; discriminate).
      pose proof (Hscore _ H2). pose proof (Hscore _ Hsc). rewrite flt_rank in * by assumption. destruct (rank s) as [[? ?] ?], (rank (Sc c)) as [[? ?] ?], (rank alpha) as [[? ?] ?]. cbn in *. lia.
    + apply Forall_forall. intros x Hx. pose proof (heap_top_min' less4 le4_trans less4_asym (c :: h) c x Hh eq_refl Hx) as Hle. rewrite Forall_forall in Hn. pose proof (Hn c (or_introl eq_refl)) as Nc. pose proof (Hn x Hx) as Nx.
      unfold num in *. unfold HeapProofs.le, less4 in Hle. rewrite fle_rank by assumption. destruct (rank (Sc c)) as [[? ?] ?], (rank (Sc x)) as [[? ?] ?]. cbn in *. lia.
  - exists f_neg_inf. split; [reflexivity|]. intros s Hs. replace (flt s f_neg_inf) with false; [exact Hs|]. destruct s as [|[]| |[]]; reflexivity.
Qed.

(** ** the invariant *)
Definition flight (w : wst) : list Z := match w with WSize b | WSearch b _ | WLock b _ | WMerge b _ => [b] | _ => [] end.
Definition wok (g : queue) (w : wst) : Prop :=
  match w with
  | WSearch b T => exists s, just g s /\ T = Threshold d s A b /\ T <= b /\ 1 <= b < zlen ix /\ IndicesGet ix b <> None
  | WLock b q | WMerge b q => exists s l, just g s /\ C b s l /\ Inv q k l
  | WFail _ => False
  | _ => True
  end.
Definition range (i j : Z) (sent : list Z) : Prop := forall x, In x sent <-> bmin <= x /\ i < x < j /\ (x <= A \/ x <= bmax).
Definition sent_ok (p : pst) (sent : list Z) : Prop :=
  NoDup sent /\
  match p with
  | PLoop i j => exists n, 0 <= n <= 2 ^ 62 /\ i = A - n /\ j = A + 1 + n /\ range i j sent
  | PSendI i j => exists n, 0 <= n < 2 ^ 62 /\ i = A - n /\ j = A + 1 + n /\ range i j sent
  | PSendJ i j => exists n, 0 <= n < 2 ^ 62 /\ i = A - n /\ j = A + 1 + n /\ range (i - 1) j sent
  | PWait => forall x, In x sent <-> bmin <= x /\ (x <= A \/ x <= bmax)
  end.
Definition sm (p : Z * (f64 * list cand)) : f64 := fst (snd p).
Definition lst (p : Z * (f64 * list cand)) : list cand := snd (snd p).
Definition WInv (s : st) : Prop :=
  exists sent fin,
    sent_ok (s_prod s) sent /\
    Permutation sent (s_ch s ++ flat_map flight (s_ws s) ++ map fst fin) /\
    Inv (s_glob s) k (flat_map lst fin) /\
    Forall (fun p => just (s_glob s) (sm p) /\ C (fst p) (sm p) (lst p)) fin /\
    just (s_glob s) (s_sim s) /\
    Forall (wok (s_glob s)) (s_ws s) /\
    (In WExit (s_ws s) -> s_prod s = PWait /\ s_ch s = []) /\
    s_ws s <> [].
Definition good_fin (r : list cand) : Prop :=
  exists fin, NoDup (map fst fin) /\ (forall x, In x (map fst fin) <-> bmin <= x /\ (x <= A \/ x <= bmax)) /\
    Forall (fun p => C (fst p) (sm p) (lst p) /\
      (sm p = alpha \/ (flt alpha (sm p) = true /\ score_like (sm p) /\ zlen r = k /\ Forall (fun c => fle (sm p) (Sc c) = true) r))) fin /\
    best_k k (flat_map lst fin) r.

Lemma bmin_eq : bmin = MinY d alpha A. Proof. reflexivity. Qed.
Lemma bmax_eq : bmax = Z.min (MaxY d alpha A) (zlen ix - 1).
Proof. unfold Suggest.bMax, sizeA. cbn zeta. destruct (zlen ix <=? MaxY d alpha A) eqn:E; lia. Qed.
Lemma bmax_lt : bmax < 2 ^ 62. Proof. rewrite bmax_eq. lia. Qed.

Lemma all_score (fin : list (Z * (f64 * list cand))) : Forall (fun b => 1 <= b) (map fst fin) -> Forall (fun p => C (fst p) (sm p) (lst p)) fin ->
  Forall (fun c => score_like (Sc c)) (flat_map lst fin).
Proof.
  induction fin as [|p fin IH]; intros H H2; [constructor|]. cbn [flat_map map] in *. apply Forall_app.
  split; [exact (HCscore _ _ _ (Forall_inv H) (Forall_inv H2))|apply IH; [exact (Forall_inv_tail H)|exact (Forall_inv_tail H2)]].
Qed.
Lemma sent_pos p sent : sent_ok p sent -> Forall (fun b => 1 <= b) sent.
Proof.
  intros [_ H]. apply Forall_forall. intros x Hx. pose proof Hmin. rewrite <- bmin_eq in *.
  destruct p as [i j|i j|i j|]; [destruct H as (n & _ & _ & _ & H)..|]; apply H in Hx; lia.
Qed.

Lemma finish s : WInv s -> s_prod s = PWait -> forallb gone (s_ws s) = true ->
  first_error (s_ws s) = None /\ good_fin (fst (GetCandidates (s_glob s))).
Proof.
  intros (sent & fin & Hsent & Hperm & HI & Hfin & _ & Hws & Hex & Hne) Hp Hg. rewrite Hp in Hsent. destruct Hsent as [Hnd' Hsent]. rewrite forallb_forall in Hg.
  assert (forall w, In w (s_ws s) -> w = WExit) as Hall.
  { intros w Hw. rewrite Forall_forall in Hws. specialize (Hws w Hw). specialize (Hg w Hw). destruct w; try discriminate; [reflexivity|destruct Hws]. }
  assert (flat_map flight (s_ws s) = [] /\ first_error (s_ws s) = None) as [E1 E2].
  { clear - Hall. induction (s_ws s) as [|w l IH]; [auto|]. rewrite (Hall w) by (left; reflexivity). cbn [flat_map flight app first_error]. apply IH. intros x Hx. apply Hall. right. exact Hx. }
  assert (s_ch s = []) as E3.
  { apply Hex. destruct (s_ws s) as [|w l]; [congruence|]. left. apply Hall. left. reflexivity. }
  rewrite E1, E3 in Hperm. cbn [app] in Hperm. split; [exact E2|]. exists fin.
  pose proof (list_inv _ _ _ HI) as (Hb & _ & Hl). split; [apply (Permutation_NoDup Hperm); exact Hnd'|]. split; [|split; [|exact Hb]].
  - intros x. rewrite <- Hsent. split; [apply Permutation_in; symmetry; exact Hperm|apply Permutation_in; exact Hperm].
  - eapply Forall_impl; [|exact Hfin]. intros p [Hj HC]. split; [exact HC|]. destruct Hj as [H|(H1 & H2 & H3 & H4)]; [left; exact H|right]. split; [exact H1|]. split; [exact H2|].
    split; [unfold zlen in *; rewrite (Permutation_length Hl); exact H3|]. apply (Permutation_Forall (Permutation_sym Hl)). exact H4.
Qed.

Lemma exec_worker_inv s i w p : WInv s -> nth_error (s_ws s) i = Some w -> exec_worker rb srt ix tokens d k s i w = Some p ->
  exists s', p = Running s' /\ WInv s'.
Proof.
  intros (sent & fin & Hsent & Hperm & HI & Hfin & Hsim & Hws & Hex & Hne) Hw He.
  assert (forall w', exists l1 l2, s_ws s = l1 ++ w :: l2 /\ set_nth_opt i w' (s_ws s) = l1 ++ w' :: l2) as Hset by (intros w'; apply set_nth_split; exact Hw).
  pose proof (nth_error_In _ _ Hw) as Hwin. pose proof Hws as Hws0. rewrite Forall_forall in Hws0. specialize (Hws0 w Hwin).
  assert (Forall (fun b => 1 <= b) sent) as Hpos by (eapply sent_pos; exact Hsent).
  (* replacing one worker, with the channel, similarity and result queue unchanged *)
  assert (forall w' lk, flight w' = flight w -> wok (s_glob s) w' -> w' <> WExit ->
    WInv (mkSt (s_ch s) (s_prod s) (set_nth_opt i w' (s_ws s)) (s_glob s) (s_sim s) lk)) as Hrep.
  { intros w' lk Hf Hok Hnex. destruct (Hset w') as (l1 & l2 & E1 & E2). exists sent, fin. cbn [s_ch s_prod s_ws s_glob s_sim]. rewrite E2. split; [exact Hsent|].
    rewrite E1 in *. split; [|split; [exact HI|split; [exact Hfin|split; [exact Hsim|split; [|split]]]]].
    - rewrite flat_map_app in *. cbn [flat_map] in *. rewrite Hf. exact Hperm.
    - apply Forall_app in Hws. destruct Hws as [W1 W2]. apply Forall_app. split; [exact W1|]. constructor; [exact Hok|exact (Forall_inv_tail W2)].
    - intros Hi. apply Hex. apply in_app_iff in Hi. apply in_app_iff. destruct Hi as [Hi|[Hi|Hi]]; [left; exact Hi|congruence|right; right; exact Hi].
    - destruct l1; discriminate. }
  (* a size is finished, with similarity v *)
  assert (forall b w' v lk, flight w = [b] -> flight w' = [] -> wok (s_glob s) w' -> w' <> WExit -> just (s_glob s) v -> C b v [] ->
    WInv (mkSt (s_ch s) (s_prod s) (set_nth_opt i w' (s_ws s)) (s_glob s) (s_sim s) lk)) as Hdone.
  { intros b w' v lk Hf Hf' Hok Hnex Hv Hc. destruct (Hset w') as (l1 & l2 & E1 & E2). exists sent, ((b, (v, [])) :: fin). cbn [s_ch s_prod s_ws s_glob s_sim]. rewrite E2. split; [exact Hsent|].
    rewrite E1 in *. split; [|split; [|split; [|split; [exact Hsim|split; [|split]]]]].
    - rewrite flat_map_app in *. cbn [flat_map map fst] in *. rewrite Hf' . rewrite Hf in Hperm. cbn [app] in *. rewrite Hperm. apply Permutation_app_head. rewrite <- !app_assoc. apply Permutation_app_head.
      cbn [app]. apply Permutation_cons_app. reflexivity.
    - cbn [flat_map lst snd app]. exact HI.
    - constructor; [split; [exact Hv|exact Hc]|exact Hfin].
    - apply Forall_app in Hws. destruct Hws as [W1 W2]. apply Forall_app. split; [exact W1|]. constructor; [exact Hok|exact (Forall_inv_tail W2)].
    - intros Hi. apply Hex. apply in_app_iff in Hi. apply in_app_iff. destruct Hi as [Hi|[Hi|Hi]]; [left; exact Hi|congruence|right; right; exact Hi].
    - destruct l1; discriminate. }
  assert (forall b, In b (flight w) -> 1 <= b) as Hbpos.
  { intros b Hb. apply (Permutation_Forall Hperm), Forall_app in Hpos. destruct Hpos as [_ Hp]. apply Forall_app in Hp. destruct Hp as [Hp _]. rewrite Forall_forall in Hp.
    apply Hp. apply in_flat_map. exists w. split; assumption. }
  destruct w as [|b|b T|b q|b q| | | |e]; cbn [exec_worker] in He.
  - (* receive *)
    destruct (s_ch s) as [|b ch] eqn:Ech.
    + destruct (s_prod s) eqn:Epr; try discriminate. injection He as <-. eexists. split; [reflexivity|]. unfold set_w. destruct (Hset WExit) as (l1 & l2 & E1 & E2).
      exists sent, fin. cbn [s_ch s_prod s_ws s_glob s_sim]. rewrite E2, E1, Epr, Ech in *. split; [exact Hsent|]. split; [rewrite flat_map_app in *; exact Hperm|].
      split; [exact HI|]. split; [exact Hfin|]. split; [exact Hsim|]. split; [|split; [auto|destruct l1; discriminate]].
      apply Forall_app in Hws. destruct Hws as [W1 W2]. apply Forall_app. split; [exact W1|]. constructor; [exact I|exact (Forall_inv_tail W2)].
    + injection He as <-. eexists. split; [reflexivity|]. destruct (Hset (WSize b)) as (l1 & l2 & E1 & E2).
      exists sent, fin. cbn [s_ch s_prod s_ws s_glob s_sim]. rewrite E2, E1 in *. split; [exact Hsent|]. split.
      * rewrite Hperm. rewrite !flat_map_app. cbn [flat_map flight app]. rewrite <- !app_assoc. cbn [app]. rewrite !(app_assoc ch). apply Permutation_cons_app. reflexivity.
      * split; [exact HI|]. split; [exact Hfin|]. split; [exact Hsim|]. split; [|split; [|destruct l1; discriminate]].
        -- apply Forall_app in Hws. destruct Hws as [W1 W2]. apply Forall_app. split; [exact W1|]. constructor; [exact I|exact (Forall_inv_tail W2)].
        -- intros Hi. exfalso. assert (In WExit (l1 ++ WRecv :: l2)) as Hi'; [|destruct (Hex Hi') as [_ Hc]; discriminate].
           apply in_app_iff in Hi. apply in_app_iff. destruct Hi as [Hi|[Hi|Hi]]; [left; exact Hi|congruence|right; right; exact Hi].
  - (* load the similarity *)
    specialize (Hbpos b (or_introl eq_refl)). unfold sizeA in He.
    destruct ((Threshold d (s_sim s) A b =? 0) || (b <? Threshold d (s_sim s) A b) || (A <? Threshold d (s_sim s) A b)) eqn:ET.
    + injection He as <-. eexists. split; [reflexivity|]. apply (Hdone b WRecv (s_sim s)); try reflexivity; [discriminate|exact Hsim|].
      apply HCnone; [exact Hbpos|exact (just_sim _ _ Hsim)|]. right. lia.
    + destruct (IndicesGet ix b) as [iv|] eqn:Eiv.
      * injection He as <-. eexists. split; [reflexivity|]. apply Hrep; [reflexivity| |discriminate]. cbn [wok]. exists (s_sim s). split; [exact Hsim|]. split; [reflexivity|].
        split; [lia|]. split; [|congruence]. unfold IndicesGet in Eiv. destruct ((b >=? 0) && (b <? zlen ix)) eqn:E; [lia|discriminate].
      * injection He as <-. eexists. split; [reflexivity|]. apply (Hdone b WRecv (s_sim s)); try reflexivity; [discriminate|exact Hsim|].
        apply HCnone; [exact Hbpos|exact (just_sim _ _ Hsim)|]. left. exact Eiv.
  - (* search *)
    destruct Hws0 as (v & Hv & -> & HTb & Hb & Hiv). destruct (IndicesGet ix b) as [iv|] eqn:Eiv; [|congruence].
    destruct (HCsearch b v iv Hb HTb (just_sim _ _ Hv) Eiv) as (q & lc & Eq & HC & Hq). rewrite Eq in He. injection He as <-. eexists. split; [reflexivity|].
    apply Hrep; [reflexivity| |discriminate]. cbn [wok]. exists v, lc. split; [assumption|]. split; assumption.
  - destruct (s_locked s); [discriminate|]. injection He as <-. eexists. split; [reflexivity|]. apply Hrep; [reflexivity|exact Hws0|discriminate].
  - (* merge *)
    destruct Hws0 as (v & lc & Hv & HC & Hq). destruct (merge_inv _ _ _ _ _ _ HI Hq) as (g' & Eg & _ & HI'). specialize (HI' ltac:(lia)). rewrite Eg in He. injection He as <-. eexists. split; [reflexivity|].
    pose proof (fun v => just_mono _ _ _ _ v HI HI') as Hmono. destruct (Hset WStore) as (l1 & l2 & E1 & E2).
    exists sent, ((b, (v, lc)) :: fin). cbn [s_ch s_prod s_ws s_glob s_sim]. rewrite E2, E1 in *. split; [exact Hsent|]. split; [|split; [|split; [|split; [|split; [|split]]]]].
    + rewrite Hperm. rewrite !flat_map_app. cbn [flat_map flight app map fst]. apply Permutation_app_head. rewrite <- !app_assoc. apply Permutation_app_head.
      cbn [app]. apply Permutation_cons_app. reflexivity.
    + cbn [flat_map]. change (lst (b, (v, lc))) with lc. eapply inv_perm; [|exact HI']. apply Permutation_app_comm.
    + constructor; [split; [apply Hmono; exact Hv|exact HC]|]. eapply Forall_impl; [|exact Hfin]. intros p [Hp HCp]. split; [apply Hmono; exact Hp|exact HCp].
    + apply Hmono. exact Hsim.
    + assert (forall w, wok (s_glob s) w -> wok g' w) as Hwm.
      { intros w. destruct w; cbn [wok]; auto.
        - intros (v' & H1 & H2). exists v'. split; [apply Hmono; exact H1|exact H2].
        - intros (v' & l' & H1 & H2). exists v', l'. split; [apply Hmono; exact H1|exact H2].
        - intros (v' & l' & H1 & H2). exists v', l'. split; [apply Hmono; exact H1|exact H2]. }
      apply Forall_app in Hws. destruct Hws as [W1 W2]. apply Forall_app. split; [eapply Forall_impl; [exact Hwm|exact W1]|]. constructor; [exact I|]. eapply Forall_impl; [exact Hwm|]. exact (Forall_inv_tail W2).
    + intros Hi. apply Hex. apply in_app_iff in Hi. apply in_app_iff. destruct Hi as [Hi|[Hi|Hi]]; [left; exact Hi|congruence|right; right; exact Hi].
    + destruct l1; discriminate.
  - (* raise the similarity *)
    assert (Forall (fun c => score_like (Sc c)) (flat_map lst fin)) as Hsc.
    { apply all_score; [apply (Permutation_Forall Hperm), Forall_app in Hpos; destruct Hpos as [_ Hp]; apply Forall_app in Hp; tauto|].
      eapply Forall_impl; [|exact Hfin]. intros p0 Hp. apply Hp. }
    destruct (store_just _ _ HI Hsc) as (l & El & Hl). rewrite El in He. injection He as <-. eexists. split; [reflexivity|].
    specialize (Hrep WUnlock (s_locked s) eq_refl I ltac:(discriminate)). destruct Hrep as (sent' & fin' & R1 & R2 & R3 & R4 & R5 & R6 & R7 & R8). cbn [s_ch s_prod s_ws s_glob s_sim] in *.
    exists sent', fin'. cbn [s_ch s_prod s_ws s_glob s_sim]. repeat (split; [assumption|]). split; [apply Hl; exact Hsim|]. repeat (split; [assumption|]). exact R8.
  - injection He as <-. eexists. split; [reflexivity|]. apply Hrep; [reflexivity|exact I|discriminate].
  - discriminate.
  - discriminate.
Qed.
Lemma send_inv s b p p' : s_prod s <> PWait -> WInv s -> (forall sent, sent_ok (s_prod s) sent -> sent_ok p (sent ++ [b])) ->
  send ix tokens d alpha s b p = Some p' -> exists s', p' = Running s' /\ WInv s'.
Proof.
  intros Hp (sent' & fin & Hsent & Hperm & HI & Hfin & Hsim & Hws & Hex & Hne) Hs. unfold send. destruct (_ <? _); [|discriminate]. intros E. injection E as <-. eexists. split; [reflexivity|].
  exists (sent' ++ [b]), fin. cbn [s_ch s_prod s_ws s_glob s_sim]. split; [apply Hs; exact Hsent|]. split.
  - rewrite <- Permutation_cons_append, Hperm, <- app_assoc. cbn [app]. apply Permutation_middle.
  - repeat (split; [assumption|]). split; [|exact Hne]. intros Hi. destruct (Hex Hi) as [Hc _]. congruence.
Qed.
Lemma goto_inv s p p' : s_prod s <> PWait -> WInv s -> (forall sent, sent_ok (s_prod s) sent -> sent_ok p sent) -> goto s p = Some p' ->
  exists s', p' = Running s' /\ WInv s'.
Proof.
  intros Hp (sent' & fin & Hsent & Hperm & HI & Hfin & Hsim & Hws & Hex & Hne) Hs. unfold goto. intros E. injection E as <-. eexists. split; [reflexivity|].
  exists sent', fin. cbn [s_ch s_prod s_ws s_glob s_sim]. split; [apply Hs; exact Hsent|]. repeat (split; [assumption|]). split; [|exact Hne]. intros Hi. destruct (Hex Hi) as [Hc _]. congruence.
Qed.
Lemma exec_prod_inv s p : WInv s -> exec_prod ix tokens d alpha s = Some p ->
  (exists s', p = Running s' /\ WInv s') \/ (exists r, p = Finished (Ret r) /\ good_fin r).
Proof.
  intros HW He. pose proof bmax_lt as Hbm. pose proof Hmin as Hm. rewrite <- bmin_eq in Hm. unfold exec_prod in He.
  destruct (s_prod s) as [i j|i j|i j|] eqn:Ep.
  - left. destruct ((bmin <=? i) || (j <=? bmax)) eqn:E; eapply goto_inv; try exact He; try exact HW; try congruence; rewrite Ep; intros sent (Hn & n & Hn2 & -> & -> & Hr); (split; [exact Hn|]).
    + exists n. split; [lia|]. auto.
    + intros x. rewrite (Hr x). lia.
  - left. destruct (bmin <=? i) eqn:E.
    + eapply send_inv; try exact He; try exact HW; try congruence; rewrite ?Ep; try discriminate. intros sent (Hn & n & Hn2 & -> & -> & Hr). split.
      * apply NoDup_snoc'; [exact Hn|]. rewrite (Hr (A - n)). lia.
      * exists n. split; [lia|]. split; [reflexivity|]. split; [reflexivity|]. intros x. rewrite in_app_iff, (Hr x). cbn [In]. lia.
    + eapply goto_inv; try exact He; try exact HW; try congruence; rewrite ?Ep; intros sent (Hn & n & Hn2 & -> & -> & Hr); (split; [exact Hn|]).
      exists n. split; [lia|]. split; [reflexivity|]. split; [reflexivity|]. intros x. rewrite (Hr x). lia.
  - left. cbn zeta in He. destruct (j <=? bmax) eqn:E.
    + eapply send_inv; try exact He; try exact HW; try congruence; rewrite ?Ep; try discriminate. intros sent (Hn & n & Hn2 & -> & -> & Hr). split.
      * apply NoDup_snoc'; [exact Hn|]. rewrite (Hr (A + 1 + n)). lia.
      * exists (n + 1). split; [lia|]. rewrite !wrapi64_small by lia. split; [lia|]. split; [lia|]. intros x. rewrite in_app_iff, (Hr x). cbn [In]. lia.
    + eapply goto_inv; try exact He; try exact HW; try congruence; rewrite ?Ep; intros sent (Hn & n & Hn2 & -> & -> & Hr); (split; [exact Hn|]).
      exists (n + 1). split; [lia|]. rewrite !wrapi64_small by lia. split; [lia|]. split; [lia|]. intros x. rewrite (Hr x). lia.
  - destruct (forallb gone (s_ws s)) eqn:Eg; [|discriminate]. injection He as <-. right. destruct (finish s HW Ep Eg) as [-> Hgood]. eexists. split; [reflexivity|exact Hgood].
Qed.
(* every run: running with the invariant, or finished with good results *)
Definition Good (p : proc) : Prop :=
  match p with Running s => WInv s | Finished (Ret r) => good_fin r | _ => False end.
Lemma exec_good c p p' : Good p -> exec c p = Some p' -> Good p'.
Proof.
  intros HG He. destruct p as [s|r|]; try discriminate. cbn [Good] in HG. destruct c as [|i]; cbn [Suggest.exec] in He.
  - destruct (exec_prod_inv s p' HG He) as [(s' & -> & H)|(r & -> & H)]; exact H.
  - destruct (nth_error (s_ws s) i) as [w|] eqn:E; [|discriminate]. destruct (exec_worker_inv s i w p' HG E He) as (s' & -> & H). exact H.
Qed.
Lemma run_good sched : forall p p', Good p -> run sched p = Some p' -> Good p'.
Proof.
  induction sched as [|c t IH]; intros p p' HG Hr; cbn [Suggest.run] in Hr; [injection Hr as <-; exact HG|].
  destruct (exec c p) as [p1|] eqn:E; [|discriminate]. eapply IH; [|exact Hr]. eapply exec_good; eassumption.
Qed.
Lemma cap_eq : cap = bmax - bmin + 1.
Proof. unfold chan_cap. pose proof bmax_lt. pose proof (zlen_nonneg ix). pose proof bmax_eq. pose proof bmin_eq. rewrite (wrapi64_small (bmax - bmin)) by lia. apply wrapi64_small. lia. Qed.
Lemma start_good : bmin <= bmax -> bmax - bmin < max_chan -> Good start.
Proof.
  intros Hb Hc. unfold Suggest.start. replace (A =? 0) with false by lia. replace ((cap <? 0) || (max_chan <? cap)) with false by (rewrite cap_eq; lia).
  unfold NewTopKQueue. replace (k <? 0) with false by lia. cbn [Good]. exists [], []. cbn [s_ch s_prod s_ws s_glob s_sim app map flat_map]. split; [|split; [|split; [|split; [|split; [|split; [|split]]]]]].
  - split; [constructor|]. exists 0. unfold sizeA. split; [lia|]. split; [lia|]. split; [lia|]. intros x. cbn [In]. lia.
  - generalize (Z.to_nat (Z.min 5 cap)). intros n. assert (flat_map flight (repeat WRecv n) = []) as -> by (induction n; [reflexivity|exact IHn]). constructor.
  - apply new_inv; [exact Hk|]. unfold NewTopKQueue. replace (k <? 0) with false by lia. reflexivity.
  - constructor.
  - left. reflexivity.
  - apply Forall_forall. intros w Hw. apply repeat_spec in Hw. subst w. exact I.
  - intros Hi. apply repeat_spec in Hi. discriminate.
  - rewrite cap_eq. destruct (Z.to_nat (Z.min 5 (bmax - bmin + 1))) eqn:E; [lia|discriminate].
Qed.
End S.
