(** Proofs about Autocomplete: every schedule. *)
From Coq Require Import ZifyBool Permutation Sorted Reals Lia.
From Verif Require Import Base BaseLemmas GoMap Store Postings PostingsSpec Merger MergerSpec MergerProofs MergerProofs2 P_MergerLemmas Index IndexSpec IndexProofs P_IndexLemmas
  Float64 FloatProofs MetricFloat Heap HeapProofs TopK TopKSpec TopKProofs Suggest SuggestSpec SuggestProofs P_SuggestLemmas Autocomplete AutocompleteSpec.
Local Open Scope Z_scope.

(** ** scores *)
Lemma fneg_cmp a b : SFcompare (fneg a) (fneg b) = SFcompare b a.
Proof.
  destruct a as [s|s| |s m e], b as [s'|s'| |s' m' e']; try (destruct s); try (destruct s'); try reflexivity; cbn;
  assert (Pos.compare_cont Eq m m' = CompOpp (Pos.compare_cont Eq m' m)) as -> by (rewrite Pos.compare_cont_antisym; reflexivity);
  rewrite (Z.compare_antisym e' e); destruct (e' ?= e); cbn [CompOpp]; rewrite ?CompOpp_involutive; reflexivity.
Qed.
Lemma int_cmp x y : is_u32 x -> is_u32 y -> SFcompare (of_int x) (of_int y) = Some (x ?= y).
Proof.
  unfold is_u32. intros Hx Hy. destruct (of_int_val x ltac:(lia)) as [Fx Vx], (of_int_val y ltac:(lia)) as [Fy Vy]. rewrite cmp_val by assumption. rewrite Vx, Vy. f_equal.
  destruct (Raux.Rcompare_spec (IZR x) (IZR y)) as [H|H|H]; symmetry; [apply Z.compare_lt_iff, lt_IZR, H|apply Z.compare_eq_iff, eq_IZR, H|apply Z.compare_gt_iff, lt_IZR, H].
Qed.
Definition acand (x : Z) : cand := mkCand x (fneg (of_int x)).
Lemma acand_num x : is_u32 x -> num (acand x).
Proof.
  unfold is_u32. intros Hx. destruct (of_int_val x ltac:(lia)) as [Fx _]. unfold num, acand. cbn [Sc]. apply fin_num in Fx. destruct (of_int x); cbn; congruence.
Qed.
Lemma acand_worse x y : is_u32 x -> is_u32 y -> (worse (acand x) (acand y) <-> y < x).
Proof.
  intros Hx Hy. unfold worse, acand. cbn [Key Sc]. unfold flt, feq, SFltb, SFeqb. rewrite fneg_cmp, int_cmp by assumption.
  destruct (Z.compare_spec y x); split; intros H'.
  - destruct H' as [H'|[_ H']]; [discriminate|lia].
  - lia.
  - exact H.
  - left. reflexivity.
  - destruct H' as [H'|[H' _]]; discriminate.
  - lia.
Qed.
Lemma acand_le x y : is_u32 x -> is_u32 y -> x <= y -> le4 (acand y) (acand x).
Proof.
  intros Hx Hy H. pose proof (acand_num x Hx). pose proof (acand_num y Hy). destruct (le4_total (acand y) (acand x)) as [?|H2]; [assumption|].
  destruct (Z.eq_dec x y) as [->|Hne]; [exact H2|]. apply less4_le. apply worse_less4; try assumption. apply acand_worse; try assumption. lia.
Qed.

(** ** searching all terms *)
Lemma search_all {St} (collect : St -> Z -> option err * St) srt rb iv P terms s :
  sorter_ok srt -> (forall t, In t terms -> holds_iv rb iv t (P t)) -> 1 <= zlen terms < 2 ^ 32 ->
  exists cs, is_answer (map P terms) (zlen terms) cs /\ Search rb (CPMerge collect srt) iv terms (zlen terms) s = wrapped (feed collect cs s).
Proof.
  intros Hsrt H Hn. set (F := filter (fun t => ne (P t)) terms). set (T := zlen terms) in *.
  assert (zlen F <= T) as HF.
  { unfold zlen, F, T. pose proof (filter_length_le' (fun t => ne (P t)) terms). unfold zlen. lia. }
  unfold Search. destruct (filterTerms_ok rb iv P terms T 0 H) as [->|[H1 H2]]; fold F.
  - destruct (zlen F <? T) eqn:E.
    + exists []. split; [|reflexivity]. apply is_answer_ne. rewrite <- filter_map_ne. fold F. apply answer_nil. left. unfold zlen in *. rewrite map_length. lia.
    + destruct (open_lists_ok rb iv P F) as (its & Eo & Hl).
      { intros t Hi. apply H. apply filter_In in Hi. apply Hi. }
      { apply Forall_forall. intros t Hi. apply filter_In in Hi. destruct (P t); [destruct Hi; discriminate|discriminate]. }
      assert (zlen (map P F) = T) as El by (unfold zlen in *; rewrite map_length; lia).
      rewrite Eo. destruct (intersect_ok collect srt its (map P F) s Hsrt Hl) as (cs & Ha & Em).
      * unfold nonempty. apply Forall_forall. intros l Hi. apply in_map_iff in Hi. destruct Hi as (t & <- & Hi). apply filter_In in Hi.
        destruct (P t); [destruct Hi; discriminate|discriminate].
      * lia.
      * exists cs. rewrite El in Ha. split; [apply is_answer_ne; rewrite <- filter_map_ne; exact Ha|]. unfold CPMerge, optimized. rewrite (lists_length _ _ Hl), El.
        replace ((T <? T) || (T =? 0) || (T <? 0)) with false by lia. rewrite Z.eqb_refl, Em. unfold wrapped. destruct (feed collect cs s) as [[]?]; reflexivity.
  - fold F in H2. replace (zlen (filterTerms iv terms T 0) <? T) with true by lia.
    exists []. split; [|reflexivity]. apply is_answer_ne. rewrite <- filter_map_ne. fold F. apply answer_nil. left. unfold zlen in *. rewrite map_length. lia.
Qed.
Lemma feed_firstk limit : 0 <= limit -> forall cs items, zlen items <= limit -> Forall (fun c => True) cs ->
  feed (firstk_collect limit) cs items = (Ret tt, items ++ map (fun c => NewMergeCandidate (fst c) (snd c)) (firstn (Z.to_nat (limit - zlen items)) cs)).
Proof.
  intros Hl. induction cs as [|[x n] cs IH]; intros items Hi _; cbn [feed].
  - rewrite firstn_nil, app_nil_r. reflexivity.
  - unfold firstk_collect at 1. destruct (Z.eqb_spec limit (zlen items)) as [E|E].
    + replace (Z.to_nat (limit - zlen items)) with O by lia. cbn [firstn map]. rewrite app_nil_r. reflexivity.
    + rewrite IH; [|rewrite zlen_app'; change (zlen [NewMergeCandidate x n]) with 1; lia|apply Forall_forall; auto]. rewrite zlen_app'. change (zlen [NewMergeCandidate x n]) with 1.
      replace (Z.to_nat (limit - zlen items)) with (S (Z.to_nat (limit - (zlen items + 1)))) by lia. cbn [firstn map fst snd]. rewrite <- app_assoc. reflexivity.
Qed.

Section A.
Context (rb : roaring) (srt : list iter -> list iter).
Context (ix : list (option inverted)) (docs : list (Z * list term)) (terms : list term) (limit : Z).
Notation n := (zlen terms).
Context (Hdocs : docs_ok docs) (Hix : index_of rb ix docs) (Hsrt : sorter_ok srt) (Hn : 1 <= n < 2 ^ 32) (Hnd : NoDup terms) (Hlim : 0 <= limit).
Definition G (b : Z) : list (Z * list term) := filter (fun doc => (zlen (snd doc) =? b) && has_all terms doc) docs.
Definition items_of (b : Z) : list Z := map (fun doc => NewMergeCandidate (fst doc) n) (firstn (Z.to_nat limit) (G b)).
Lemma sorted_sub (f : Z * list term -> bool) : StronglySorted Z.lt (map fst (filter f docs)).
Proof.
  destruct Hdocs as (Hs & _). clear - Hs. induction docs as [|x l IH]; cbn [filter map] in *; [constructor|]. inversion_clear Hs. destruct (f x); [|auto]. cbn [map]. constructor; [auto|].
  apply Forall_forall. intros y Hy. apply in_map_iff in Hy. destruct Hy as (z & <- & Hz). apply filter_In in Hz. rewrite Forall_forall in H0. apply H0. apply in_map. tauto.
Qed.
Lemma doc_u32 doc : In doc docs -> is_u32 (fst doc).
Proof. intros H. destruct Hdocs as (_ & Hu & _). rewrite Forall_forall in Hu. apply Hu. apply in_map. exact H. Qed.
Lemma filter_full {X} (f : X -> bool) l : zlen (filter f l) = zlen l <-> forallb f l = true.
Proof.
  induction l as [|x l IH]; [split; reflexivity|]. cbn [filter forallb]. pose proof (filter_length_le' f l). destruct (f x); cbn [andb]; rewrite ?zlen_cons; [rewrite <- IH; lia|].
  split; [unfold zlen; lia|discriminate].
Qed.
Lemma asearch_ok b iv : IndicesGet ix b = Some iv -> asearch rb srt terms limit iv = Ret (items_of b).
Proof.
  intros Hb. unfold asearch. destruct (search_all (firstk_collect limit) srt rb iv (posting_of docs b) terms [] Hsrt) as (cs & Ha & Es).
  - intros t _. specialize (Hix b t). unfold index_holds in Hix. rewrite Hb in Hix. exact Hix.
  - exact Hn.
  - rewrite Es, (feed_firstk limit Hlim cs [] ltac:(change (zlen (@nil Z)) with 0; lia) ltac:(apply Forall_forall; auto)). unfold wrapped. cbn [fst snd app]. change (zlen (@nil Z)) with 0. rewrite Z.sub_0_r.
    f_equal. assert (cs = map (fun doc => (fst doc, n)) (G b)) as ->; [|unfold items_of; rewrite firstn_map, map_map; reflexivity].
    apply (is_answer_unique _ _ _ _ Ha). split.
    + pose proof (sorted_sub (fun doc => (zlen (snd doc) =? b) && has_all terms doc)) as Hs. fold (G b) in Hs. clear - Hs. induction (G b) as [|x l IH]; [constructor|]. cbn [map] in *. inversion_clear Hs. constructor; [auto|].
      apply Forall_forall. intros y Hy. apply in_map_iff in Hy. destruct Hy as (z & <- & Hz). rewrite Forall_forall in H0. cbn [fst]. apply H0. apply in_map. exact Hz.
    + intros x c. rewrite in_map_iff. split.
      * intros ([y ts] & E & Hin). cbn [fst] in E. injection E as -> <-. unfold G in Hin. apply filter_In in Hin. destruct Hin as [Hin E]. cbn [snd] in E. apply andb_prop in E. destruct E as [E1 E2].
        rewrite (count_docs docs b terms x ts Hdocs Hin ltac:(lia)). apply filter_full in E2. cbn [snd] in E2. lia.
      * intros (-> & H1 & H2). assert (exists ts, In (x, ts) docs /\ zlen ts = b) as (ts & Hin & Hc).
        { assert (count x (map (posting_of docs b) terms) <> 0) as Hnz by lia. clear - Hnz. unfold count in Hnz. induction terms as [|t l IH]; [destruct (Hnz eq_refl)|]. cbn [map filter] in Hnz.
          destruct (existsb (Z.eqb x) (posting_of docs b t)) eqn:E; [|apply IH; exact Hnz]. apply existsb_exists in E. destruct E as (y & Hy & E). apply Z.eqb_eq in E. subst y.
          apply posting_of_In in Hy. destruct Hy as (ts & H1 & H2 & _). eauto. }
        rewrite (count_docs docs b terms x ts Hdocs Hin Hc) in *. pose proof (filter_length_le' (fun t => existsb (beqb t) ts) terms).
        assert (zlen (filter (fun t => existsb (beqb t) ts) terms) = n) as E by (unfold zlen in *; lia). exists (x, ts). cbn [fst]. split; [congruence|].
        apply filter_In. split; [exact Hin|]. apply filter_full in E. unfold has_all. cbn [snd]. rewrite E. lia.
Qed.

(** ** invariant *)
Definition wsize (w : awst) : Z := match w with ASearch b | ALock b _ | ACollect b _ | AUnlock b | ADone b | AFail b _ => b end.
Definition collected (w : awst) : bool := match w with AUnlock _ | ADone _ => true | _ => false end.
Definition part (w : awst) : list cand := if collected w then map answer_of (G (wsize w)) else [].
Definition aok (w : awst) : Prop :=
  match w with
  | ASearch b => IndicesGet ix b <> None
  | ALock b items | ACollect b items => items = items_of b
  | AFail _ _ => False
  | _ => True
  end.
Definition QI (q : queue) (L : list cand) : Prop := if limit =? 0 then q = mkQueue 0 [] else Inv q limit L.
Definition sizes_ok (p : apst) (ws : list awst) : Prop :=
  NoDup (map wsize ws) /\
  match p with
  | ALoop b => n <= b /\ forall x, In x (map wsize ws) <-> n <= x < b /\ IndicesGet ix x <> None
  | AWait => forall x, In x (map wsize ws) <-> n <= x /\ IndicesGet ix x <> None
  end.
Definition AInv (s : ast) : Prop :=
  sizes_ok (a_prod s) (a_ws s) /\ Forall aok (a_ws s) /\ exists L, QI (a_q s) L /\ Permutation L (flat_map part (a_ws s)).
Definition aresult (r : list cand) : Prop := r = first_matches limit terms docs.
Definition AGood (p : aproc) : Prop := match p with ARunning s => AInv s | AFinished (Ret r) => aresult r | AFinished _ => False | ACrashed => False end.

Lemma qi_perm q L L' : Permutation L L' -> QI q L -> QI q L'.
Proof. unfold QI. destruct (limit =? 0); [auto|]. apply inv_perm. Qed.
Lemma collect_steps : forall l q L, Inv q limit L -> Forall (fun doc : Z * list term => is_u32 (fst doc)) l ->
  exists q', manager_collect q (map (fun doc => NewMergeCandidate (fst doc) n) l) = Ret q' /\ Inv q' limit (L ++ map answer_of l).
Proof.
  induction l as [|x l IH]; intros q L HI Hu.
  - exists q. cbn [map]. rewrite app_nil_r. split; [reflexivity|exact HI].
  - cbn [map manager_collect]. pose proof (Forall_inv Hu) as Hx. rewrite position_pack by (try exact Hx; unfold is_u32; lia).
    destruct (add_inv q limit L (acand (fst x)) HI (acand_num _ Hx)) as (q1 & E1 & H1). unfold acand in E1. cbn [Key Sc] in E1. rewrite E1. cbn [bind].
    destruct (IH q1 _ H1 (Forall_inv_tail Hu)) as (q' & E & H2). exists q'. split; [exact E|]. rewrite <- app_assoc in H2. exact H2.
Qed.
Lemma G_in b doc : In doc (G b) -> In doc docs /\ zlen (snd doc) = b /\ has_all terms doc = true.
Proof. unfold G. intros H. apply filter_In in H. destruct H as [H E]. apply andb_prop in E. split; [exact H|]. split; [lia|tauto]. Qed.
Lemma manager_ok b q L : QI q L -> exists q', manager_collect q (items_of b) = Ret q' /\ QI q' (L ++ map answer_of (G b)).
Proof.
  unfold QI, items_of. destruct (Z.eqb_spec limit 0) as [E|E].
  - intros ->. rewrite E. cbn [Z.to_nat firstn map manager_collect]. eauto.
  - intros HI. destruct (collect_steps (firstn (Z.to_nat limit) (G b)) q L HI) as (q' & Eq & HI').
    { apply Forall_forall. intros x Hx. apply doc_u32. apply (G_in b). rewrite <- (firstn_skipn (Z.to_nat limit)). apply in_app_iff. left. exact Hx. }
    exists q'. split; [exact Eq|]. rewrite <- (firstn_skipn (Z.to_nat limit) (G b)), map_app.
    assert (forall x, In x (G b) -> is_u32 (fst x)) as Hu by (intros x Hx; apply doc_u32; apply (G_in b); exact Hx).
    apply inv_extend; [exact HI'| | |].
    + apply Forall_forall. intros c Hc. apply in_map_iff in Hc. destruct Hc as (x & <- & Hx). apply acand_num, Hu. rewrite <- (firstn_skipn (Z.to_nat limit)). apply in_app_iff. right. exact Hx.
    + intros c c' Hc Hc'. apply in_map_iff in Hc. destruct Hc as (x & <- & Hx). apply in_map_iff in Hc'. destruct Hc' as (x' & <- & Hx').
      pose proof (sorted_sub (fun doc => (zlen (snd doc) =? b) && has_all terms doc)) as Hs. fold (G b) in Hs. apply acand_le.
      * apply Hu. rewrite <- (firstn_skipn (Z.to_nat limit)). apply in_app_iff. left. exact Hx.
      * apply Hu. rewrite <- (firstn_skipn (Z.to_nat limit)). apply in_app_iff. right. exact Hx'.
      * clear - Hs Hx Hx'. rewrite <- (firstn_skipn (Z.to_nat limit) (G b)), map_app in Hs. apply (in_map fst) in Hx, Hx'.
        induction (map fst (firstn (Z.to_nat limit) (G b))) as [|y l IH]; [destruct Hx|]. cbn [app] in Hs. inversion_clear Hs. destruct Hx as [<-|Hx]; [|auto].
        rewrite Forall_forall in H0. specialize (H0 (fst x') ltac:(apply in_app_iff; right; exact Hx')). lia.
    + destruct (Z.le_gt_cases limit (zlen (G b))) as [Hle|Hgt].
      * right. unfold zlen in *. rewrite map_length, firstn_length. lia.
      * left. rewrite skipn_all2 by (unfold zlen in *; lia). reflexivity.
Qed.
Lemma aset_split s i w w' : nth_error (a_ws s) i = Some w -> wsize w' = wsize w -> exists l1 l2, a_ws s = l1 ++ w :: l2 /\ set_nth_opt i w' (a_ws s) = l1 ++ w' :: l2 /\ map wsize (l1 ++ w' :: l2) = map wsize (a_ws s).
Proof.
  intros H E. destruct (set_nth_split w' w i _ H) as (l1 & l2 & E1 & E2). exists l1, l2. split; [exact E1|]. split; [exact E2|]. rewrite E1, !map_app. cbn [map]. rewrite E. reflexivity.
Qed.
Lemma change_w s i w w' q lk : AInv s -> nth_error (a_ws s) i = Some w -> wsize w' = wsize w -> aok w' ->
  (collected w = true -> collected w' = true) ->
  (forall L, QI (a_q s) L -> QI q (L ++ if collected w' && negb (collected w) then map answer_of (G (wsize w)) else [])) ->
  AInv (mkA (a_prod s) (set_nth_opt i w' (a_ws s)) q lk).
Proof.
  intros (H1 & H2 & L & HQ & Hp) Hw Es Hok Hmono Hq. destruct (aset_split s i w w' Hw Es) as (l1 & l2 & E1 & E2 & E3). unfold AInv. cbn [a_prod a_ws a_q]. rewrite E2. split; [|split].
  - unfold sizes_ok in *. rewrite E3. exact H1.
  - rewrite E1 in H2. apply Forall_app in H2. destruct H2 as [F1 F2]. apply Forall_app. split; [exact F1|]. constructor; [exact Hok|exact (Forall_inv_tail F2)].
  - eexists. split; [apply Hq; exact HQ|]. rewrite Hp, E1, !flat_map_app. cbn [flat_map]. rewrite <- app_assoc. apply Permutation_app_head. unfold part at 1 3. rewrite Es.
    destruct (collected w), (collected w'); cbn [andb negb]; rewrite ?app_nil_r; try reflexivity; [discriminate (Hmono eq_refl)|]. cbn [app]. apply Permutation_app_comm.
Qed.
Lemma worker_good s i w p : AInv s -> nth_error (a_ws s) i = Some w -> aexec_worker rb srt ix terms limit s i w = Some p -> AGood p.
Proof.
  intros HI Hw He. assert (aok w) as Hok by (destruct HI as (_ & H2 & _); rewrite Forall_forall in H2; apply H2; eapply nth_error_In; eassumption).
  assert (forall L, QI (a_q s) L -> QI (a_q s) (L ++ [])) as Hid by (intros L; rewrite app_nil_r; auto).
  destruct w as [b|b items|b items|b|b|b e]; cbn [aexec_worker] in He; cbn [aok] in Hok.
  - destruct (IndicesGet ix b) as [iv|] eqn:Eb; [|congruence]. rewrite (asearch_ok b iv Eb) in He. injection He as <-. cbn [AGood]. unfold aset. eapply change_w; try eassumption; try reflexivity; auto.
  - destruct (a_locked s); [discriminate|]. injection He as <-. cbn [AGood]. eapply change_w; try eassumption; try reflexivity; auto.
  - subst items. pose proof HI as (_ & _ & L & HQ & _). destruct (manager_ok b (a_q s) L HQ) as (q' & E & _). rewrite E in He. injection He as <-. cbn [AGood].
    eapply change_w; try eassumption; try reflexivity; auto. intros L' HL'. destruct (manager_ok b (a_q s) L' HL') as (q'' & E' & HQ'). rewrite E in E'. injection E' as <-. exact HQ'.
  - injection He as <-. cbn [AGood]. eapply change_w; try eassumption; try reflexivity; auto.
  - discriminate.
  - destruct Hok.
Qed.
Lemma get_range x : IndicesGet ix x <> None -> 0 <= x < zlen ix.
Proof. unfold IndicesGet. destruct ((x >=? 0) && (x <? zlen ix)) eqn:E; [intros _; lia|]. congruence. Qed.
(* the first [limit] of an ascending list are its best *)
Lemma firstn_best l : 1 <= limit -> StronglySorted Z.lt (map fst l) -> Forall (fun doc : Z * list term => is_u32 (fst doc)) l ->
  best_k limit (map answer_of l) (map answer_of (firstn (Z.to_nat limit) l)).
Proof.
  intros H1 Hs Hu. assert (forall a b, In a l -> In b l -> fst a <= fst b -> ~ worse (answer_of a) (answer_of b)) as Hw.
  { intros a b Ha Hb Hle Hw. rewrite Forall_forall in Hu. apply (acand_worse (fst a) (fst b) (Hu a Ha) (Hu b Hb)) in Hw. lia. }
  split; [|split].
  - rewrite !map_length, firstn_length. lia.
  - assert (forall m, (forall a, In a m -> In a l) -> StronglySorted Z.lt (map fst m) -> forall k, StronglySorted (fun a b => ~ worse a b) (map answer_of (firstn k m))) as Hg.
    { induction m as [|x m IH]; intros Hin Hsm k0; [rewrite firstn_nil; constructor|]. destruct k0; [constructor|]. cbn [map firstn] in *. inversion_clear Hsm. constructor; [apply IH; auto; intros; apply Hin; right; assumption|].
      apply Forall_forall. intros c Hc. apply in_map_iff in Hc. destruct Hc as (y & <- & Hy). assert (In y m) as Hym by (rewrite <- (firstn_skipn k0 m); apply in_app_iff; left; exact Hy).
      apply Hw; [apply Hin; left; reflexivity|apply Hin; right; exact Hym|]. rewrite Forall_forall in H0. specialize (H0 (fst y) (in_map fst _ _ Hym)). lia. }
    apply Hg; auto.
  - exists (map answer_of (skipn (Z.to_nat limit) l)). split; [rewrite <- map_app, firstn_skipn; apply Permutation_refl|]. intros a b Ha Hb.
    apply in_map_iff in Ha. destruct Ha as (x & <- & Hx). apply in_map_iff in Hb. destruct Hb as (y & <- & Hy).
    apply Hw; [rewrite <- (firstn_skipn (Z.to_nat limit) l); apply in_app_iff; auto|rewrite <- (firstn_skipn (Z.to_nat limit) l); apply in_app_iff; auto|].
    rewrite <- (firstn_skipn (Z.to_nat limit) l), map_app in Hs. apply (in_map fst) in Hx, Hy. clear - Hs Hx Hy.
    induction (map fst (firstn (Z.to_nat limit) l)) as [|z m IH]; [destruct Hx|]. cbn [app] in Hs. inversion_clear Hs. destruct Hx as [<-|Hx]; [|auto].
    rewrite Forall_forall in H0. specialize (H0 (fst y) ltac:(apply in_app_iff; right; exact Hy)). lia.
Qed.
Lemma same_answers (l : list cand) m : Forall2 same l m -> Forall (fun c => c = acand (Key c)) l -> Forall (fun c => c = acand (Key c)) m -> l = m.
Proof.
  induction 1 as [|a b l m Hs _ IH]; intros Hl Hm; [reflexivity|]. f_equal; [|apply IH; eapply Forall_inv_tail; eassumption]. destruct Hs as [E _]. rewrite (Forall_inv Hl), (Forall_inv Hm), E. reflexivity.
Qed.
Lemma has_all_size doc : In doc docs -> has_all terms doc = true -> n <= zlen (snd doc) /\ IndicesGet ix (zlen (snd doc)) <> None.
Proof.
  intros Hin Hall. split.
  - unfold zlen. apply inj_le, NoDup_incl_length; [exact Hnd|]. intros t Ht. unfold has_all in Hall. rewrite forallb_forall in Hall. apply (mem_In' t (snd doc)), Hall, Ht.
  - intros E. destruct terms as [|t ts]; [change (zlen (@nil term)) with 0 in Hn; lia|]. specialize (Hix (zlen (snd doc)) t). unfold index_holds in Hix. rewrite E in Hix.
    unfold has_all in Hall. cbn [forallb] in Hall. apply andb_prop in Hall. destruct Hall as [Ht _]. assert (In (fst doc) (posting_of docs (zlen (snd doc)) t)) as Hp; [|rewrite Hix in Hp; destruct Hp].
    apply posting_of_In. exists (snd doc). destruct doc. auto.
Qed.
Lemma finish_good s : AInv s -> a_prod s = AWait -> forallb agone (a_ws s) = true -> aresult (fst (GetCandidates (a_q s))).
Proof.
  intros ((Hnd' & Hs) & Hok & L & HQ & Hp) Ep Hg. rewrite Ep in Hs. unfold aresult, first_matches. unfold QI in HQ.
  destruct (Z.eqb_spec limit 0) as [E|E]; [rewrite HQ, E; reflexivity|]. destruct (list_inv _ _ _ HQ) as (Hb & _ & _).
  assert (Permutation L (map answer_of (filter (has_all terms) docs))) as HpL.
  { rewrite Hp. assert (flat_map part (a_ws s) = map answer_of (flat_map G (map wsize (a_ws s)))) as ->.
    { clear - Hok Hg. induction (a_ws s) as [|w ws IH]; [reflexivity|]. cbn [forallb] in Hg. apply andb_prop in Hg. destruct Hg as [Hg1 Hg2]. cbn [flat_map map]. rewrite map_app, <- IH; [|exact (Forall_inv_tail Hok)|exact Hg2].
      f_equal. pose proof (Forall_inv Hok) as Hw. destruct w; try discriminate; [reflexivity|destruct Hw]. }
    apply Permutation_map. unfold G. rewrite <- (filter_group (fun doc => zlen (snd doc)) (fun _ doc => has_all terms doc) docs (map wsize (a_ws s)) Hnd').
    erewrite filter_ext_in'; [reflexivity|]. intros doc Hin. cbn beta. destruct (has_all terms doc) eqn:Ea; [|rewrite andb_false_r; reflexivity].
    rewrite andb_true_r. apply existsb_exists. exists (zlen (snd doc)). split; [apply Hs; apply has_all_size; assumption|apply Z.eqb_refl]. }
  assert (Forall (fun doc : Z * list term => is_u32 (fst doc)) (filter (has_all terms) docs)) as Hu.
  { apply Forall_forall. intros x Hx. apply filter_In in Hx. apply doc_u32. tauto. }
  assert (Forall (fun c => c = acand (Key c)) (map answer_of (filter (has_all terms) docs))) as Hform.
  { apply Forall_forall. intros c Hc. apply in_map_iff in Hc. destruct Hc as (x & <- & _). reflexivity. }
  apply same_answers.
  - eapply best_unique; [|exact HpL|exact Hb|apply firstn_best; [lia|apply sorted_sub|exact Hu]]. destruct HQ as (_ & _ & Hnum & _). exact Hnum.
  - destruct Hb as (_ & _ & rest & Hr & _). apply (Permutation_Forall (Permutation_sym HpL)) in Hform. apply (Permutation_Forall Hr), Forall_app in Hform. tauto.
  - rewrite <- (firstn_skipn (Z.to_nat limit) (filter (has_all terms) docs)), map_app in Hform. apply Forall_app in Hform. tauto.
Qed.
Lemma no_error ws : Forall aok ws -> afirst_error ws = None.
Proof. induction 1 as [|w ws Hw _ IH]; [reflexivity|]. destruct w; cbn [afirst_error]; auto. destruct Hw. Qed.
Lemma prod_good s p : AInv s -> aexec_prod ix s = Some p -> AGood p.
Proof.
  intros HI He. unfold aexec_prod in He. destruct (a_prod s) as [b|] eqn:Ep.
  - destruct HI as ((Hnd' & Hs) & Hok & L & HQ & Hp). rewrite Ep in Hs. destruct Hs as [Hb Hs]. destruct (Z.ltb_spec b (zlen ix)) as [Hlt|Hge]; injection He as <-; cbn [AGood]; unfold AInv, sizes_ok; cbn [a_prod a_ws a_q].
    + destruct (IndicesGet ix b) as [iv|] eqn:Eb.
      * split; [split; [|split; [lia|]]|split].
        -- rewrite map_app. cbn [map wsize]. apply (Permutation_NoDup (Permutation_cons_append _ _)). constructor; [|exact Hnd']. rewrite Hs. lia.
        -- intros x. rewrite map_app, in_app_iff, Hs. cbn [map wsize In]. split.
           ++ intros [[H1 H2]|[<-|[]]]; [split; [lia|exact H2]|]. split; [lia|congruence].
           ++ intros [H1 H2]. destruct (Z.eq_dec x b) as [->|]; [right; left; reflexivity|left; split; [lia|exact H2]].
        -- apply Forall_app. split; [exact Hok|]. constructor; [cbn [aok]; congruence|constructor].
        -- exists L. split; [exact HQ|]. rewrite flat_map_app. cbn [flat_map part collected]. rewrite !app_nil_r. exact Hp.
      * split; [split; [exact Hnd'|split; [lia|]]|split; [exact Hok|eauto]]. intros x. rewrite Hs. split; intros [H1 H2]; split; try assumption; [lia|]. destruct (Z.eq_dec x b) as [->|]; [congruence|lia].
    + split; [split; [exact Hnd'|]|split; [exact Hok|eauto]]. intros x. rewrite Hs. split; intros [H1 H2]; split; try assumption; [lia|]. pose proof (get_range x H2). lia.
  - destruct (forallb agone (a_ws s)) eqn:Eg; [|discriminate]. injection He as <-. rewrite no_error by apply HI. cbn [AGood]. apply finish_good; assumption.
Qed.
Lemma run_agood : forall sched p p', AGood p -> arun rb srt ix terms limit sched p = Some p' -> AGood p'.
Proof.
  induction sched as [|c t IH]; intros p p' Hp Hr; cbn [arun] in Hr; [injection Hr as <-; exact Hp|]. destruct (aexec rb srt ix terms limit c p) as [p1|] eqn:E; [|discriminate]. eapply IH; [|exact Hr].
  destruct p as [s| |]; try discriminate. cbn [AGood] in Hp. destruct c as [|i]; cbn [aexec] in E; [eapply prod_good; eassumption|]. destruct (nth_error (a_ws s) i) eqn:Ew; [|discriminate]. eapply worker_good; eassumption.
Qed.
Lemma start_agood : AGood (astart terms limit).
Proof.
  unfold astart, NewTopKQueue. replace (limit <? 0) with false by lia. cbn [AGood]. unfold AInv, sizes_ok. cbn [a_prod a_ws a_q map flat_map]. split; [split; [constructor|split; [lia|]]|split; [constructor|]].
  - intros x. cbn [In]. split; [intros []|lia].
  - exists []. split; [|constructor]. unfold QI. destruct (Z.eqb_spec limit 0) as [->|]; [reflexivity|]. apply new_inv; [lia|]. unfold NewTopKQueue. replace (limit <? 0) with false by lia. reflexivity.
Qed.
End A.

(** ** steps, lock, progress: any index *)
Definition aholder (w : awst) : bool := match w with ACollect _ _ | AUnlock _ => true | _ => false end.
Definition weight (w : awst) : Z := match w with ASearch _ => 4 | ALock _ _ => 3 | ACollect _ _ => 2 | AUnlock _ => 1 | _ => 0 end.
Definition wsum (ws : list awst) : Z := fold_right (fun w n => weight w + n) 0 ws.
Section B.
Context (rb : roaring) (srt : list iter -> list iter) (ix : list (option inverted)) (terms : list term) (limit : Z).
Definition alock_ok (s : ast) : Prop := zlen (filter aholder (a_ws s)) = if a_locked s then 1 else 0.
Definition amu (p : aproc) : Z :=
  match p with
  | ARunning s => wsum (a_ws s) + match a_prod s with ALoop b => 5 * Z.max 0 (zlen ix - b) + 2 | AWait => 1 end
  | _ => 0
  end.
Lemma wsum_app a b : wsum (a ++ b) = wsum a + wsum b.
Proof. unfold wsum. induction a; cbn [app fold_right]; lia. Qed.
Lemma wsum_nonneg ws : 0 <= wsum ws.
Proof. induction ws as [|w ws IH]; [cbn; lia|]. change (wsum (w :: ws)) with (weight w + wsum ws). destruct w; cbn [weight]; lia. Qed.
Lemma aset_eff i w w' ws : nth_error ws i = Some w ->
  zlen (filter aholder (set_nth_opt i w' ws)) = zlen (filter aholder ws) - (if aholder w then 1 else 0) + (if aholder w' then 1 else 0) /\
  wsum (set_nth_opt i w' ws) = wsum ws - weight w + weight w'.
Proof.
  intros H. destruct (set_nth_split w' w i ws H) as (l1 & l2 & -> & ->). rewrite !filter_app, !wsum_app. cbn [filter]. rewrite !zlen_app'. change (wsum (w :: l2)) with (weight w + wsum l2). change (wsum (w' :: l2)) with (weight w' + wsum l2).
  destruct (aholder w), (aholder w'); rewrite ?zlen_cons; lia.
Qed.
Lemma step_eff c p p' : aexec rb srt ix terms limit c p = Some p' ->
  amu p' < amu p /\ (match p with ARunning s => alock_ok s | _ => True end -> match p' with ARunning s => alock_ok s | _ => True end).
Proof.
  intros He. destruct p as [s| |]; try discriminate. pose proof (wsum_nonneg (a_ws s)) as Hw0. destruct c as [|i]; cbn [aexec] in He.
  - unfold aexec_prod in He. cbn [amu]. destruct (a_prod s) as [b|] eqn:Ep.
    + destruct (Z.ltb_spec b (zlen ix)); injection He as <-; cbn [amu a_prod a_ws]; unfold alock_ok; cbn [a_ws a_locked].
      * destruct (IndicesGet ix b); rewrite ?wsum_app, ?filter_app, ?zlen_app'; cbn [wsum fold_right weight filter aholder]; change (zlen (@nil awst)) with 0; split; intros; lia.
      * split; [lia|auto].
    + destruct (forallb agone (a_ws s)); [|discriminate]. injection He as <-. cbn [amu]. split; [lia|auto].
  - destruct (nth_error (a_ws s) i) as [w|] eqn:Ew; [|discriminate].
    assert (aholder w = true -> alock_ok s -> a_locked s = true) as Hh.
    { intros Hh HL. unfold alock_ok in HL. apply nth_error_In in Ew. destruct (a_locked s); [reflexivity|]. assert (In w (filter aholder (a_ws s))) as Hi by (apply filter_In; auto).
      destruct (filter aholder (a_ws s)); [destruct Hi|]. rewrite zlen_cons in HL. pose proof (zlen_nonneg l). lia. }
    assert (0 < wsum (a_ws s) + match a_prod s with ALoop b => 5 * Z.max 0 (zlen ix - b) + 2 | AWait => 1 end) as Hpos by (destruct (a_prod s); lia).
    destruct w as [b|b items|b items|b|b|b e]; cbn [aexec_worker] in He.
    + destruct (IndicesGet ix b); [|injection He as <-; cbn [amu]; auto]. destruct (asearch _ _ _ _ _) as [items|e| |]; injection He as <-; cbn [amu]; auto; unfold aset, alock_ok; cbn [a_ws a_prod a_locked].
      * destruct (aset_eff i _ (ALock b items) _ Ew) as [-> ->]. cbn [aholder weight]. split; intros; lia.
      * destruct (aset_eff i _ (AFail b e) _ Ew) as [-> ->]. cbn [aholder weight]. split; intros; lia.
    + destruct (a_locked s) eqn:El; [discriminate|]. injection He as <-. cbn [amu a_prod a_ws]. unfold alock_ok. cbn [a_ws a_locked]. destruct (aset_eff i _ (ACollect b items) _ Ew) as [-> ->]. rewrite El. cbn [aholder weight]. split; intros; lia.
    + destruct (manager_collect _ _); injection He as <-; cbn [amu a_prod a_ws]; auto. unfold alock_ok. cbn [a_ws a_locked]. destruct (aset_eff i _ (AUnlock b) _ Ew) as [-> ->]. cbn [aholder weight]. split; intros; lia.
    + injection He as <-. cbn [amu a_prod a_ws]. unfold alock_ok in *. cbn [a_ws a_locked]. destruct (aset_eff i _ (ADone b) _ Ew) as [-> ->]. cbn [aholder weight] in *. split; [lia|]. intros HL. rewrite (Hh eq_refl HL) in HL. lia.
    + discriminate.
    + discriminate.
Qed.
Lemma amu_nonneg p : 0 <= amu p.
Proof. destruct p as [s| |]; cbn [amu]; try lia. pose proof (wsum_nonneg (a_ws s)). destruct (a_prod s); lia. Qed.
Lemma arun_bounded : forall sched p p', arun rb srt ix terms limit sched p = Some p' -> zlen sched + amu p' <= amu p.
Proof.
  induction sched as [|c t IH]; intros p p' Hr; cbn [arun] in Hr; [injection Hr as <-; change (zlen (@nil achoice)) with 0; lia|]. destruct (aexec rb srt ix terms limit c p) as [p1|] eqn:E; [|discriminate].
  apply IH in Hr. apply step_eff in E. rewrite zlen_cons. lia.
Qed.
Lemma arun_lock : forall sched p p', match p with ARunning s => alock_ok s | _ => True end -> arun rb srt ix terms limit sched p = Some p' -> match p' with ARunning s => alock_ok s | _ => True end.
Proof.
  induction sched as [|c t IH]; intros p p' Hp Hr; cbn [arun] in Hr; [injection Hr as <-; exact Hp|]. destruct (aexec rb srt ix terms limit c p) as [p1|] eqn:E; [|discriminate].
  eapply IH; [|exact Hr]. apply step_eff in E. tauto.
Qed.
Lemma aprogress s : alock_ok s -> exists c p, aexec rb srt ix terms limit c (ARunning s) = Some p.
Proof.
  intros HL. destruct (a_prod s) as [b|] eqn:Ep.
  { exists AProd. cbn [aexec]. unfold aexec_prod. rewrite Ep. destruct (b <? zlen ix); eauto. }
  destruct (forallb agone (a_ws s)) eqn:Eg; [exists AProd; cbn [aexec]; unfold aexec_prod; rewrite Ep, Eg; eauto|].
  assert (exists i w, nth_error (a_ws s) i = Some w /\ agone w = false /\ (a_locked s = true -> aholder w = true)) as (i & w & Hi & Hg & Hh).
  { unfold alock_ok in HL. destruct (a_locked s).
    - assert (exists w, In w (filter aholder (a_ws s))) as (w & Hw) by (destruct (filter aholder (a_ws s)) as [|w l]; [change (zlen (@nil awst)) with 0 in HL; lia|]; exists w; left; reflexivity).
      apply filter_In in Hw. destruct Hw as [Hw Eh]. apply In_nth_error in Hw. destruct Hw as (i & Hi). exists i, w. split; [exact Hi|]. split; [destruct w; try discriminate; reflexivity|auto].
    - assert (exists w, In w (a_ws s) /\ agone w = false) as (w & Hw & Eg').
      { clear - Eg. induction (a_ws s) as [|w l IH]; [discriminate|]. cbn [forallb] in Eg. destruct (agone w) eqn:E; [|exists w; split; [left; reflexivity|exact E]]. destruct (IH Eg) as (w' & H1 & H2). exists w'. split; [right; exact H1|exact H2]. }
      apply In_nth_error in Hw. destruct Hw as (i & Hi). exists i, w. split; [exact Hi|]. split; [exact Eg'|discriminate]. }
  exists (AWork i). cbn [aexec]. rewrite Hi. destruct w as [b|b items|b items|b|b|b e]; cbn [aexec_worker]; try discriminate; eauto.
  - destruct (IndicesGet ix b); [|eauto]. destruct (asearch _ _ _ _ _); eauto.
  - destruct (a_locked s); [discriminate (Hh eq_refl)|eauto].
  - destruct (manager_collect _ _); eauto.
Qed.
End B.
