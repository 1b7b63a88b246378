(** Proofs about Autocomplete for documents whose tokens may repeat: every schedule. *)
From Coq Require Import ZifyBool Permutation Sorted Reals Lia.
From Verif Require Import Base BaseLemmas GoMap Store Postings PostingsSpec Merger MergerSpec MergerProofs MergerProofs2 MergerAnySpec MergerAny P_MergerLemmas Index IndexSpec IndexProofs P_IndexLemmas SearchAny
  Float64 FloatProofs MetricFloat Heap HeapProofs TopK TopKSpec TopKProofs Suggest SuggestSpec SuggestAnySpec SuggestProofs P_SuggestLemmas Autocomplete AutocompleteSpec AutocompleteProofs AutocompleteAnySpec.
Local Open Scope Z_scope.

(** ** searching all terms *)
Lemma search_all_any {St} (collect : St -> Z -> option err * St) srt rb iv P terms s :
  sorter_ok srt -> (forall t, In t terms -> holds_iv_any rb iv P t) -> 1 <= zlen terms < 2 ^ 32 ->
  exists cs, is_answer_any (stored_lists P terms) (zlen terms) cs /\ Search rb (CPMerge collect srt) iv terms (zlen terms) s = wrapped (feed collect cs s).
Proof.
  intros Hsrt H Hn. set (F := filter (fun t => ne (P t)) terms). set (T := zlen terms) in *.
  assert (forall t, In t terms -> ascending (P t)) as Hasc by (intros t Ht; apply (H t Ht)).
  assert (zlen F <= T) as HF.
  { unfold zlen, F, T. pose proof (filter_length_le' (fun t => ne (P t)) terms). unfold zlen. lia. }
  assert (zlen (stored_lists P F) = zlen F) as HL by (unfold zlen, stored_lists; rewrite map_length; reflexivity).
  unfold Search. destruct (filterTerms_any rb iv P terms T 0 H) as [->|[H1 H2]]; fold F.
  - destruct (zlen F <? T) eqn:E.
    + exists []. split; [|reflexivity]. apply answer_any_ne; [exact Hasc|]. apply answer_any_nil. left. fold F. lia.
    + destruct (open_lists_any rb iv P F) as (its & Eo & Hl).
      { intros t Hi. apply H. apply filter_In in Hi. apply Hi. }
      { apply Forall_forall. intros t Hi. apply filter_In in Hi. destruct (P t); [destruct Hi; discriminate|discriminate]. }
      fold (stored_lists P F) in Hl.
      rewrite Eo. destruct (intersect_any collect srt its (stored_lists P F) s Hsrt Hl) as (cs & Ha & Em).
      * unfold nonempty, stored_lists. apply Forall_forall. intros l Hi. apply in_map_iff in Hi. destruct Hi as (t & <- & Hi). apply filter_In in Hi. destruct Hi as [Hi E1].
        rewrite stored_nil by (apply Hasc; exact Hi). destruct (P t); discriminate.
      * lia.
      * exists cs. assert (zlen F = T) as EF by lia. rewrite HL, EF in Ha. split; [apply answer_any_ne; [exact Hasc|exact Ha]|]. unfold CPMerge, optimized. rewrite (anys_length _ _ Hl), HL, EF.
        replace ((T <? T) || (T =? 0) || (T <? 0)) with false by lia. rewrite Z.eqb_refl, Em. unfold wrapped. destruct (feed collect cs s) as [[]?]; reflexivity.
  - fold F in H2. replace (zlen (filterTerms iv terms T 0) <? T) with true by lia.
    exists []. split; [|reflexivity]. apply answer_any_ne; [exact Hasc|]. apply answer_any_nil. left. fold F. lia.
Qed.
(* every list has an ascending permutation *)
Fixpoint ins (x : Z) (l : list Z) : list Z := match l with [] => [x] | y :: t => if x <=? y then x :: l else y :: ins x t end.
Lemma ins_perm x l : Permutation (ins x l) (x :: l).
Proof. induction l as [|y t IH]; [reflexivity|]. cbn [ins]. destruct (x <=? y); [reflexivity|]. rewrite IH. apply perm_swap. Qed.
Lemma ins_sorted x l : StronglySorted Z.le l -> StronglySorted Z.le (ins x l).
Proof.
  induction l as [|y t IH]; intros H; cbn [ins]; [constructor; constructor|]. destruct (Z.leb_spec x y) as [E|E].
  - constructor; [exact H|]. inversion_clear H. constructor; [exact E|]. eapply Forall_impl; [|exact H1]. cbn beta. intros; lia.
  - inversion_clear H. constructor; [auto|]. apply (Permutation_Forall (Permutation_sym (ins_perm x t))). constructor; [lia|exact H1].
Qed.
Lemma sorted_perm l : exists X, StronglySorted Z.le X /\ Permutation X l.
Proof.
  induction l as [|x l (X & Hs & Hp)]; [exists []; split; constructor|]. exists (ins x X). split; [apply ins_sorted; exact Hs|]. rewrite ins_perm. constructor. exact Hp.
Qed.

Section A.
Context (rb : roaring) (srt : list iter -> list iter).
Context (ix : list (option inverted)) (terms : list term) (limit : Z) (F : Z -> list Z).
Notation n := (zlen terms).
Context (Hn : 0 <= n < 2 ^ 32) (Hlim : 0 <= limit).
Definition items_of (b : Z) : list Z := map (fun x => NewMergeCandidate x n) (firstn (Z.to_nat limit) (F b)).
Context (HF : forall b iv, IndicesGet ix b = Some iv -> asearch rb srt terms limit iv = Ret (items_of b)).
Context (HFs : forall b, StronglySorted Z.le (F b)) (HFu : forall b, Forall is_u32 (F b)).
(** ** invariant *)
Definition part (w : awst) : list cand := if collected w then map acand (F (wsize w)) else [].
Definition aok (w : awst) : Prop :=
  match w with
  | ASearch b => IndicesGet ix b <> None
  | ALock b items | ACollect b items => items = items_of b
  | AFail _ _ => False
  | _ => True
  end.
Definition QI (q : queue) (L : list cand) : Prop := if limit =? 0 then q = mkQueue 0 [] else Inv q limit L.
Definition sizes_ok (p : apst) (ws : list awst) : Prop :=
  NoDup (map wsize ws) /\
  match p with
  | ALoop b => n <= b /\ forall x, In x (map wsize ws) <-> n <= x < b /\ IndicesGet ix x <> None
  | AWait => forall x, In x (map wsize ws) <-> n <= x /\ IndicesGet ix x <> None
  end.
Definition AInv (s : ast) : Prop :=
  sizes_ok (a_prod s) (a_ws s) /\ Forall aok (a_ws s) /\ exists L, QI (a_q s) L /\ Permutation L (flat_map part (a_ws s)).
Definition aresult (r : list cand) : Prop := exists sizes X, NoDup sizes /\ (forall x, In x sizes <-> n <= x /\ IndicesGet ix x <> None) /\
  StronglySorted Z.le X /\ Permutation X (flat_map F sizes) /\ r = map acand (firstn (Z.to_nat limit) X).
Definition AGood (p : aproc) : Prop := match p with ARunning s => AInv s | AFinished (Ret r) => aresult r | AFinished _ => False | ACrashed => False end.

Lemma qi_perm q L L' : Permutation L L' -> QI q L -> QI q L'.
Proof. unfold QI. destruct (limit =? 0); [auto|]. apply inv_perm. Qed.
Lemma collect_steps : forall l q L, Inv q limit L -> Forall is_u32 l ->
  exists q', manager_collect q (map (fun x => NewMergeCandidate x n) l) = Ret q' /\ Inv q' limit (L ++ map acand l).
Proof.
  induction l as [|x l IH]; intros q L HI Hu.
  - exists q. cbn [map]. rewrite app_nil_r. split; [reflexivity|exact HI].
  - cbn [map manager_collect]. pose proof (Forall_inv Hu) as Hx. rewrite position_pack by (try exact Hx; unfold is_u32; lia).
    destruct (add_inv q limit L (acand x) HI (acand_num _ Hx)) as (q1 & E1 & H1). unfold acand in E1. cbn [Key Sc] in E1. rewrite E1. cbn [bind].
    destruct (IH q1 _ H1 (Forall_inv_tail Hu)) as (q' & E & H2). exists q'. split; [exact E|]. rewrite <- app_assoc in H2. exact H2.
Qed.
Lemma split_le k (l : list Z) x y : StronglySorted Z.le l -> In x (firstn k l) -> In y (skipn k l) -> x <= y.
Proof.
  revert k. induction l as [|z l IH]; intros k Hs Hx Hy; [rewrite firstn_nil in Hx; destruct Hx|]. destruct k; [destruct Hx|]. cbn [firstn skipn] in *. inversion_clear Hs. destruct Hx as [<-|Hx]; [|eauto].
  rewrite Forall_forall in H0. apply H0. rewrite <- (firstn_skipn k l). apply in_app_iff. right. exact Hy.
Qed.
Lemma manager_ok b q L : QI q L -> exists q', manager_collect q (items_of b) = Ret q' /\ QI q' (L ++ map acand (F b)).
Proof.
  unfold QI, items_of. pose proof (HFu b) as Hu. rewrite Forall_forall in Hu. destruct (Z.eqb_spec limit 0) as [E|E].
  - intros ->. rewrite E. cbn [Z.to_nat firstn map manager_collect]. eauto.
  - intros HI. destruct (collect_steps (firstn (Z.to_nat limit) (F b)) q L HI) as (q' & Eq & HI').
    { apply Forall_forall. intros x Hx. apply Hu. rewrite <- (firstn_skipn (Z.to_nat limit)). apply in_app_iff. left. exact Hx. }
    exists q'. split; [exact Eq|]. rewrite <- (firstn_skipn (Z.to_nat limit) (F b)), map_app.
    apply inv_extend; [exact HI'| | |].
    + apply Forall_forall. intros c Hc. apply in_map_iff in Hc. destruct Hc as (x & <- & Hx). apply acand_num, Hu. rewrite <- (firstn_skipn (Z.to_nat limit)). apply in_app_iff. right. exact Hx.
    + intros c c' Hc Hc'. apply in_map_iff in Hc. destruct Hc as (x & <- & Hx). apply in_map_iff in Hc'. destruct Hc' as (x' & <- & Hx'). apply acand_le.
      * apply Hu. rewrite <- (firstn_skipn (Z.to_nat limit)). apply in_app_iff. left. exact Hx.
      * apply Hu. rewrite <- (firstn_skipn (Z.to_nat limit)). apply in_app_iff. right. exact Hx'.
      * eapply split_le; [apply HFs|exact Hx|exact Hx'].
    + destruct (Z.le_gt_cases limit (zlen (F b))) as [Hle|Hgt].
      * right. unfold zlen in *. rewrite map_length, firstn_length. lia.
      * left. rewrite skipn_all2 by (unfold zlen in *; lia). reflexivity.
Qed.
Lemma aset_split s i w w' : nth_error (a_ws s) i = Some w -> wsize w' = wsize w -> exists l1 l2, a_ws s = l1 ++ w :: l2 /\ set_nth_opt i w' (a_ws s) = l1 ++ w' :: l2 /\ map wsize (l1 ++ w' :: l2) = map wsize (a_ws s).
Proof.
  intros H E. destruct (set_nth_split w' w i _ H) as (l1 & l2 & E1 & E2). exists l1, l2. split; [exact E1|]. split; [exact E2|]. rewrite E1, !map_app. cbn [map]. rewrite E. reflexivity.
Qed.
Lemma change_w s i w w' q lk : AInv s -> nth_error (a_ws s) i = Some w -> wsize w' = wsize w -> aok w' ->
  (collected w = true -> collected w' = true) ->
  (forall L, QI (a_q s) L -> QI q (L ++ if collected w' && negb (collected w) then map acand (F (wsize w)) else [])) ->
  AInv (mkA (a_prod s) (set_nth_opt i w' (a_ws s)) q lk).
Proof.
  intros (H1 & H2 & L & HQ & Hp) Hw Es Hok Hmono Hq. destruct (aset_split s i w w' Hw Es) as (l1 & l2 & E1 & E2 & E3). unfold AInv. cbn [a_prod a_ws a_q]. rewrite E2. split; [|split].
  - unfold sizes_ok in *. rewrite E3. exact H1.
  - rewrite E1 in H2. apply Forall_app in H2. destruct H2 as [F1 F2]. apply Forall_app. split; [exact F1|]. constructor; [exact Hok|exact (Forall_inv_tail F2)].
  - eexists. split; [apply Hq; exact HQ|]. rewrite Hp, E1, !flat_map_app. cbn [flat_map]. rewrite <- app_assoc. apply Permutation_app_head. unfold part at 1 3. rewrite Es.
    destruct (collected w), (collected w'); cbn [andb negb]; rewrite ?app_nil_r; try reflexivity; [discriminate (Hmono eq_refl)|]. cbn [app]. apply Permutation_app_comm.
Qed.
Lemma worker_good s i w p : AInv s -> nth_error (a_ws s) i = Some w -> aexec_worker rb srt ix terms limit s i w = Some p -> AGood p.
Proof.
  intros HI Hw He. assert (aok w) as Hok by (destruct HI as (_ & H2 & _); rewrite Forall_forall in H2; apply H2; eapply nth_error_In; eassumption).
  assert (forall L, QI (a_q s) L -> QI (a_q s) (L ++ [])) as Hid by (intros L; rewrite app_nil_r; auto).
  destruct w as [b|b items|b items|b|b|b e]; cbn [aexec_worker] in He; cbn [aok] in Hok.
  - destruct (IndicesGet ix b) as [iv|] eqn:Eb; [|congruence]. rewrite (HF b iv Eb) in He. injection He as <-. cbn [AGood]. unfold aset. eapply change_w; try eassumption; try reflexivity; auto.
  - destruct (a_locked s); [discriminate|]. injection He as <-. cbn [AGood]. eapply change_w; try eassumption; try reflexivity; auto.
  - subst items. pose proof HI as (_ & _ & L & HQ & _). destruct (manager_ok b (a_q s) L HQ) as (q' & E & _). rewrite E in He. injection He as <-. cbn [AGood].
    eapply change_w; try eassumption; try reflexivity; auto. intros L' HL'. destruct (manager_ok b (a_q s) L' HL') as (q'' & E' & HQ'). rewrite E in E'. injection E' as <-. exact HQ'.
  - injection He as <-. cbn [AGood]. eapply change_w; try eassumption; try reflexivity; auto.
  - discriminate.
  - destruct Hok.
Qed.
Lemma get_range x : IndicesGet ix x <> None -> 0 <= x < zlen ix.
Proof. unfold IndicesGet. destruct ((x >=? 0) && (x <? zlen ix)) eqn:E; [intros _; lia|]. congruence. Qed.
(* the first [limit] of an ascending list are its best *)
Lemma firstn_best l : 1 <= limit -> StronglySorted Z.le l -> Forall is_u32 l ->
  best_k limit (map acand l) (map acand (firstn (Z.to_nat limit) l)).
Proof.
  intros H1 Hs Hu. assert (forall a b, In a l -> In b l -> a <= b -> ~ worse (acand a) (acand b)) as Hw.
  { intros a b Ha Hb Hle Hw. rewrite Forall_forall in Hu. apply (acand_worse a b (Hu a Ha) (Hu b Hb)) in Hw. lia. }
  split; [|split].
  - rewrite !map_length, firstn_length. lia.
  - assert (forall m, (forall a, In a m -> In a l) -> StronglySorted Z.le m -> forall k, StronglySorted (fun a b => ~ worse a b) (map acand (firstn k m))) as Hg.
    { induction m as [|x m IH]; intros Hin Hsm k0; [rewrite firstn_nil; constructor|]. destruct k0; [constructor|]. cbn [map firstn] in *. inversion_clear Hsm. constructor; [apply IH; auto; intros; apply Hin; right; assumption|].
      apply Forall_forall. intros c Hc. apply in_map_iff in Hc. destruct Hc as (y & <- & Hy). assert (In y m) as Hym by (rewrite <- (firstn_skipn k0 m); apply in_app_iff; left; exact Hy).
      apply Hw; [apply Hin; left; reflexivity|apply Hin; right; exact Hym|]. rewrite Forall_forall in H0. exact (H0 y Hym). }
    apply Hg; auto.
  - exists (map acand (skipn (Z.to_nat limit) l)). split; [rewrite <- map_app, firstn_skipn; apply Permutation_refl|]. intros a b Ha Hb.
    apply in_map_iff in Ha. destruct Ha as (x & <- & Hx). apply in_map_iff in Hb. destruct Hb as (y & <- & Hy).
    apply Hw; [rewrite <- (firstn_skipn (Z.to_nat limit) l); apply in_app_iff; auto|rewrite <- (firstn_skipn (Z.to_nat limit) l); apply in_app_iff; auto|].
    eapply split_le; eassumption.
Qed.
Lemma finish_good s : AInv s -> a_prod s = AWait -> forallb agone (a_ws s) = true -> aresult (fst (GetCandidates (a_q s))).
Proof.
  intros ((Hnd' & Hs) & Hok & L & HQ & Hp) Ep Hg. rewrite Ep in Hs. unfold QI in HQ.
  destruct (sorted_perm (flat_map F (map wsize (a_ws s)))) as (X & HX & HpX). exists (map wsize (a_ws s)), X. split; [exact Hnd'|]. split; [exact Hs|]. split; [exact HX|]. split; [exact HpX|].
  destruct (Z.eqb_spec limit 0) as [E|E]; [rewrite HQ, E; reflexivity|]. destruct (list_inv _ _ _ HQ) as (Hb & _ & _).
  assert (Permutation L (map acand X)) as HpL.
  { rewrite Hp, HpX. assert (flat_map part (a_ws s) = map acand (flat_map F (map wsize (a_ws s)))) as ->; [|reflexivity].
    clear - Hok Hg. induction (a_ws s) as [|w ws IH]; [reflexivity|]. cbn [forallb] in Hg. apply andb_prop in Hg. destruct Hg as [Hg1 Hg2]. cbn [flat_map map]. rewrite map_app, <- IH; [|exact (Forall_inv_tail Hok)|exact Hg2].
    f_equal. pose proof (Forall_inv Hok) as Hw. destruct w; try discriminate; [reflexivity|destruct Hw]. }
  assert (Forall is_u32 X) as Hu.
  { apply (Permutation_Forall (Permutation_sym HpX)). apply Forall_forall. intros x Hx. apply in_flat_map in Hx. destruct Hx as (b & _ & Hx). pose proof (HFu b) as H. rewrite Forall_forall in H. apply H. exact Hx. }
  assert (Forall (fun c => c = acand (Key c)) (map acand X)) as Hform.
  { apply Forall_forall. intros c Hc. apply in_map_iff in Hc. destruct Hc as (x & <- & _). reflexivity. }
  apply same_answers.
  - eapply best_unique; [|exact HpL|exact Hb|apply firstn_best; [lia|exact HX|exact Hu]]. destruct HQ as (_ & _ & Hnum & _). exact Hnum.
  - destruct Hb as (_ & _ & rest & Hr & _). apply (Permutation_Forall (Permutation_sym HpL)) in Hform. apply (Permutation_Forall Hr), Forall_app in Hform. tauto.
  - rewrite <- (firstn_skipn (Z.to_nat limit) X), map_app in Hform. apply Forall_app in Hform. tauto.
Qed.
Lemma no_error ws : Forall aok ws -> afirst_error ws = None.
Proof. induction 1 as [|w ws Hw _ IH]; [reflexivity|]. destruct w; cbn [afirst_error]; auto. destruct Hw. Qed.
Lemma prod_good s p : AInv s -> aexec_prod ix s = Some p -> AGood p.
Proof.
  intros HI He. unfold aexec_prod in He. destruct (a_prod s) as [b|] eqn:Ep.
  - destruct HI as ((Hnd' & Hs) & Hok & L & HQ & Hp). rewrite Ep in Hs. destruct Hs as [Hb Hs]. destruct (Z.ltb_spec b (zlen ix)) as [Hlt|Hge]; injection He as <-; cbn [AGood]; unfold AInv, sizes_ok; cbn [a_prod a_ws a_q].
    + destruct (IndicesGet ix b) as [iv|] eqn:Eb.
      * split; [split; [|split; [lia|]]|split].
        -- rewrite map_app. cbn [map wsize]. apply (Permutation_NoDup (Permutation_cons_append _ _)). constructor; [|exact Hnd']. rewrite Hs. lia.
        -- intros x. rewrite map_app, in_app_iff, Hs. cbn [map wsize In]. split.
           ++ intros [[H1 H2]|[<-|[]]]; [split; [lia|exact H2]|]. split; [lia|congruence].
           ++ intros [H1 H2]. destruct (Z.eq_dec x b) as [->|]; [right; left; reflexivity|left; split; [lia|exact H2]].
        -- apply Forall_app. split; [exact Hok|]. constructor; [cbn [aok]; congruence|constructor].
        -- exists L. split; [exact HQ|]. rewrite flat_map_app. cbn [flat_map part collected]. rewrite !app_nil_r. exact Hp.
      * split; [split; [exact Hnd'|split; [lia|]]|split; [exact Hok|eauto]]. intros x. rewrite Hs. split; intros [H1 H2]; split; try assumption; [lia|]. destruct (Z.eq_dec x b) as [->|]; [congruence|lia].
    + split; [split; [exact Hnd'|]|split; [exact Hok|eauto]]. intros x. rewrite Hs. split; intros [H1 H2]; split; try assumption; [lia|]. pose proof (get_range x H2). lia.
  - destruct (forallb agone (a_ws s)) eqn:Eg; [|discriminate]. injection He as <-. rewrite no_error by apply HI. cbn [AGood]. apply finish_good; assumption.
Qed.
Lemma run_agood : forall sched p p', AGood p -> arun rb srt ix terms limit sched p = Some p' -> AGood p'.
Proof.
  induction sched as [|c t IH]; intros p p' Hp Hr; cbn [arun] in Hr; [injection Hr as <-; exact Hp|]. destruct (aexec rb srt ix terms limit c p) as [p1|] eqn:E; [|discriminate]. eapply IH; [|exact Hr].
  destruct p as [s| |]; try discriminate. cbn [AGood] in Hp. destruct c as [|i]; cbn [aexec] in E; [eapply prod_good; eassumption|]. destruct (nth_error (a_ws s) i) eqn:Ew; [|discriminate]. eapply worker_good; eassumption.
Qed.
Lemma start_agood : AGood (astart terms limit).
Proof.
  unfold astart, NewTopKQueue. replace (limit <? 0) with false by lia. cbn [AGood]. unfold AInv, sizes_ok. cbn [a_prod a_ws a_q map flat_map]. split; [split; [constructor|split; [lia|]]|split; [constructor|]].
  - intros x. cbn [In]. split; [intros []|lia].
  - exists []. split; [|constructor]. unfold QI. destruct (Z.eqb_spec limit 0) as [->|]; [reflexivity|]. apply new_inv; [lia|]. unfold NewTopKQueue. replace (limit <? 0) with false by lia. reflexivity.
Qed.
End A.

(** ** documents *)
Lemma choose_upto (Q : Z -> list Z -> Prop) : (forall b, exists X, Q b X) -> forall k : nat, exists F, (forall b, 0 <= b < Z.of_nat k -> Q b (F b)) /\ (forall b, ~ 0 <= b < Z.of_nat k -> F b = []).
Proof.
  intros H. induction k as [|k (F & H1 & H2)]; [exists (fun _ => []); split; intros; [lia|reflexivity]|]. destruct (H (Z.of_nat k)) as (X & HX).
  exists (fun b => if b =? Z.of_nat k then X else F b). split; intros b Hb; destruct (Z.eqb_spec b (Z.of_nat k)) as [->|E]; [exact HX|apply H1; lia|lia|apply H2; lia].
Qed.
Lemma copies_times (cs : list (Z * Z)) x : copies x cs = times x (map fst cs).
Proof.
  unfold copies, times. induction cs as [|c cs IH]; [reflexivity|]. cbn [filter map count_occ]. destruct (Z.eq_dec (fst c) x) as [E|E].
  - replace (fst c =? x) with true by lia. cbn [length]. rewrite IH. reflexivity.
  - replace (fst c =? x) with false by lia. exact IH.
Qed.
Section B.
Context (rb : roaring) (srt : list iter -> list iter).
Context (ix : list (option inverted)) (docs : list (Z * list term)) (terms : list term) (limit : Z).
Notation n := (zlen terms).
Context (Hdocs : docs_any docs) (Hix : index_any rb ix docs) (Hsrt : sorter_ok srt) (Hn : 0 <= n < 2 ^ 32) (Hlim : 0 <= limit).
Definition one_size (b : Z) (X : list Z) : Prop :=
  (forall iv, IndicesGet ix b = Some iv -> asearch rb srt terms limit iv = Ret (map (fun x => NewMergeCandidate x n) (firstn (Z.to_nat limit) X))) /\
  StronglySorted Z.le X /\ (forall x, In x X <-> terms <> [] /\ exists ts, In (x, ts) docs /\ zlen ts = b /\ has_all terms (x, ts) = true) /\
  (forall x ts m, In (x, ts) docs -> (forall t, token_times t ts <= m)%nat -> (times x X <= m)%nat).
Lemma has_all_in x ts : terms <> [] -> has_all terms (x, ts) = true -> exists t, In t terms /\ In t ts.
Proof.
  intros Hne H. unfold has_all in H. cbn [snd] in H. destruct terms as [|t l]; [contradiction|]. cbn [forallb] in H. apply andb_prop in H. exists t. split; [left; reflexivity|]. apply (mem_In' t ts). tauto.
Qed.
Lemma has_all_get x ts : terms <> [] -> In (x, ts) docs -> has_all terms (x, ts) = true -> IndicesGet ix (zlen ts) <> None.
Proof.
  intros Hne Hin Hall. intros E. destruct (has_all_in x ts Hne Hall) as (t & _ & Ht). specialize (Hix (zlen ts) t). unfold index_holds_any in Hix. rewrite E in Hix.
  assert (In x (occurrences docs (zlen ts) t)) as Hp; [|rewrite Hix in Hp; destruct Hp]. apply occurrences_In. exists ts. split; [exact Hin|]. split; [reflexivity|]. apply mem_In'. exact Ht.
Qed.
Lemma one_size_ok b : exists X, one_size b X.
Proof.
  assert (forall t, ascending (occurrences docs b t)) as Hasc by (intros t; apply occurrences_ascending; apply Hdocs).
  assert (terms = [] \/ terms <> []) as [He|Hne] by (destruct terms; [left; reflexivity|right; discriminate]).
  { exists []. split; [|split; [constructor|split; [|intros; cbn; lia]]]; [|intros x; split; [intros []|tauto]]. intros iv _. unfold asearch. rewrite He. rewrite firstn_nil. reflexivity. }
  assert (1 <= n) as Hn1 by (destruct terms; [contradiction|rewrite zlen_cons; pose proof (zlen_nonneg l); lia]).
  destruct (IndicesGet ix b) as [iv|] eqn:Eb.
  - destruct (search_all_any (firstk_collect limit) srt rb iv (occurrences docs b) terms [] Hsrt) as (cs & (Hs & Ha1 & Ha2 & Ha3) & Es); [|lia|].
    { intros t _. specialize (Hix b t). unfold index_holds_any in Hix. rewrite Eb in Hix. split; [apply Hasc|exact Hix]. }
    unfold stored_lists in *.
    assert (forall x m, In (x, m) cs -> m = n /\ exists ts, In (x, ts) docs /\ zlen ts = b /\ has_all terms (x, ts) = true) as Hcs.
    { intros x m Hin. destruct (Ha2 x m Hin) as [Hm HT].
      assert (exists t, In x (occurrences docs b t)) as (t & Ht).
      { assert (count x (map (fun t => stored (occurrences docs b t)) terms) <> 0) as Hnz by lia. clear - Hnz Hasc. unfold count in Hnz. induction terms as [|t l IH]; [destruct (Hnz eq_refl)|]. cbn [map filter] in Hnz.
        destruct (existsb (Z.eqb x) (stored (occurrences docs b t))) eqn:E; [|apply IH; exact Hnz]. apply existsb_exists in E. destruct E as (y & Hy & E). apply Z.eqb_eq in E. subst y.
        exists t. apply (stored_In _ _ (proj2 (Hasc t))). exact Hy. }
      apply occurrences_In in Ht. destruct Ht as (ts & Hd1 & Hd2 & _). rewrite (count_docs_any docs b terms x ts Hdocs Hd1 Hd2) in Hm. pose proof (filter_length_le' (fun t => existsb (beqb t) ts) terms) as Hle.
      assert (zlen (filter (fun t => existsb (beqb t) ts) terms) = n) as E by (unfold zlen in *; lia). split; [lia|]. exists ts. split; [exact Hd1|]. split; [exact Hd2|]. apply filter_full in E. exact E. }
    exists (map fst cs). split; [|split; [|split]].
    + intros iv' E. rewrite Eb in E. injection E as <-. unfold asearch. rewrite Es, (feed_firstk limit Hlim cs [] ltac:(change (zlen (@nil Z)) with 0; lia) ltac:(apply Forall_forall; auto)). unfold wrapped. cbn [fst snd app]. change (zlen (@nil Z)) with 0. rewrite Z.sub_0_r.
      f_equal. rewrite firstn_map, map_map. apply map_ext_in. intros [x m] Hin. cbn [fst snd]. destruct (Hcs x m) as [-> _]; [|reflexivity]. rewrite <- (firstn_skipn (Z.to_nat limit) cs). apply in_app_iff. left. exact Hin.
    + clear - Hs. induction Hs as [|c cs Hs IH Hf]; [constructor|]. cbn [map]. constructor; [exact IH|]. apply Forall_map. exact Hf.
    + intros x. rewrite in_map_iff. split.
      * intros ([y m] & E & Hin). cbn [fst] in E. subst y. split; [exact Hne|]. apply (Hcs x m Hin).
      * intros (_ & ts & Hin & Hc & Hall). pose proof (count_docs_any docs b terms x ts Hdocs Hin Hc) as E. assert (zlen (filter (fun t => existsb (beqb t) ts) terms) = n) as E2 by (apply filter_full; exact Hall). exists (x, n). split; [reflexivity|].
        rewrite <- E2, <- E. apply Ha1; lia.
    + intros x ts m Hin Hm. rewrite <- copies_times. apply Ha3. apply Forall_map, Forall_forall. intros t _. pose proof (stored_times x _ (proj2 (Hasc t))). pose proof (times_occurrences docs b t x ts (proj1 Hdocs) Hin). specialize (Hm t). lia.
  - exists []. split; [congruence|]. split; [constructor|]. split; [|intros; cbn; lia]. intros x. split; [intros []|]. intros (_ & ts & Hin & Hc & Hall). pose proof (has_all_get x ts Hne Hin Hall) as H. congruence.
Qed.
Lemma get_in x : IndicesGet ix x <> None -> 0 <= x < zlen ix.
Proof. unfold IndicesGet. destruct ((x >=? 0) && (x <? zlen ix)) eqn:E; [intros _; lia|]. congruence. Qed.
Lemma autocomplete_every sched p : arun rb srt ix terms limit sched (astart terms limit) = Some p ->
  match p with
  | ARunning _ => True
  | AFinished r => exists X, listed_every terms docs X /\ r = Ret (map acand (firstn (Z.to_nat limit) X))
  | ACrashed => False
  end.
Proof.
  intros Hr. destruct (choose_upto one_size one_size_ok (length ix)) as (F & HF & HF0).
  assert (forall b, StronglySorted Z.le (F b)) as HFs.
  { intros b. destruct (Z_lt_dec b 0); [rewrite HF0 by lia; constructor|]. destruct (Z_lt_dec b (zlen ix)) as [H|H]; unfold zlen in H; [apply HF; lia|rewrite HF0 by lia; constructor]. }
  assert (forall b, Forall is_u32 (F b)) as HFu.
  { intros b. apply Forall_forall. intros x Hx. destruct (Z_lt_dec b 0); [rewrite HF0 in Hx by lia; destruct Hx|]. destruct (Z_lt_dec b (zlen ix)) as [H|H]; unfold zlen in H; [|rewrite HF0 in Hx by lia; destruct Hx].
    destruct (HF b ltac:(lia)) as (_ & _ & Hi & _). apply Hi in Hx. destruct Hx as (_ & ts & Hin & _). destruct Hdocs as (_ & Hu & _). rewrite Forall_forall in Hu. apply (Hu x). apply (in_map fst _ _ Hin). }
  pose proof (run_agood rb srt ix terms limit F) as HR.
  assert (AGood ix terms limit F p) as HG.
  { assert (forall b iv, IndicesGet ix b = Some iv -> asearch rb srt terms limit iv = Ret (items_of terms limit F b)) as HFi; [|eapply HR; try eassumption; eapply start_agood; eassumption]. intros b iv E. assert (IndicesGet ix b <> None) as Hne by congruence. apply get_in in Hne. unfold zlen in Hne. destruct (HF b Hne) as (H & _). unfold items_of. apply H. exact E. }
  destruct p as [s|[r| | |]|]; cbn [AGood] in HG; [exact I| |destruct HG..]. destruct HG as (sizes & X & Hnds & Hsz & HX & Hp & ->). exists X. split; [|reflexivity].
  assert (forall b, In b sizes -> one_size b (F b)) as Hone by (intros b Hb; apply Hsz in Hb; apply HF; pose proof (get_in b (proj2 Hb)) as H; unfold zlen in H; exact H).
  split; [exact HX|]. split.
  - intros x. split.
    + intros Hx. apply (Permutation_in _ Hp), in_flat_map in Hx. destruct Hx as (b & Hb & Hx). pose proof (proj1 (proj1 (Hsz b) Hb)) as Hbn. apply (Hone b Hb) in Hx. destruct Hx as (Hne & ts & H1 & H3 & H2). split; [exact Hne|]. exists ts. split; [exact H1|]. split; [exact H2|lia].
    + intros (Hne & ts & Hin & Hall & Hle). apply (Permutation_in _ (Permutation_sym Hp)), in_flat_map. exists (zlen ts). pose proof (conj Hle (has_all_get x ts Hne Hin Hall)) as Hg. apply Hsz in Hg. split; [exact Hg|]. apply (Hone _ Hg). eauto.
  - intros x ts m Hin Hm. replace (times x X) with (times x (flat_map F sizes)) by (unfold times; symmetry; apply (proj1 (Permutation_count_occ Z.eq_dec _ _) Hp)). clear - Hone Hnds Hin Hm Hdocs.
    assert (forall l, (forall b, In b l -> In b sizes) -> ~ In (zlen ts) l -> times x (flat_map F l) = 0%nat) as Hz.
    { intros l Hl Hni. unfold times. apply count_occ_not_In. intros Hx. apply in_flat_map in Hx. destruct Hx as (b & Hb & Hx). apply (Hone b (Hl b Hb)) in Hx. destruct Hx as (_ & ts' & H1 & H2 & _). rewrite (docs_any_unique docs x ts ts' Hdocs Hin H1) in Hni. subst b. contradiction. }
    assert (forall l, (forall b, In b l -> In b sizes) -> NoDup l -> (times x (flat_map F l) <= m)%nat) as Hall.
    { induction l as [|b l IH]; intros Hl Hn'; [cbn; lia|]. inversion_clear Hn'. cbn [flat_map]. unfold times. rewrite count_occ_app. fold (times x (F b)) (times x (flat_map F l)). destruct (Z.eq_dec b (zlen ts)) as [->|E].
      - rewrite (Hz l); [|intros; apply Hl; right; assumption|assumption]. destruct (Hone _ (Hl _ (or_introl eq_refl))) as (_ & _ & _ & Ht). specialize (Ht x ts m Hin Hm). lia.
      - assert (times x (F b) = 0%nat) as ->; [|apply IH; auto; intros; apply Hl; right; assumption]. specialize (Hz [b]). cbn [flat_map] in Hz. rewrite app_nil_r in Hz. apply Hz; [intros c [<-|[]]; apply Hl; left; reflexivity|intros [E'|[]]; congruence]. }
    apply Hall; auto.
Qed.
End B.
(* distinct terms: a document with all of them is large enough *)
Lemma autocomplete_any rb srt ix docs terms limit : docs_any docs -> index_any rb ix docs -> sorter_ok srt -> 1 <= zlen terms < 2 ^ 32 -> NoDup terms -> 0 <= limit ->
  forall sched p, arun rb srt ix terms limit sched (astart terms limit) = Some p ->
  match p with
  | ARunning _ => True
  | AFinished r => exists X, listed terms docs X /\ r = Ret (map acand (firstn (Z.to_nat limit) X))
  | ACrashed => False
  end.
Proof.
  intros Hdocs Hix Hsrt Hn Hnd Hlim sched p Hr. pose proof (autocomplete_every rb srt ix docs terms limit Hdocs Hix Hsrt ltac:(lia) Hlim sched p Hr) as H. destruct p as [s|r|]; [exact I| |exact H].
  destruct H as (X & (H1 & H2 & H3) & ->). exists X. split; [|reflexivity]. split; [exact H1|]. split; [|exact H3]. intros x. rewrite H2. split.
  - intros (_ & ts & Hin & Hall & _). eauto.
  - intros (ts & Hin & Hall). split; [destruct terms; [change (zlen (@nil term)) with 0 in Hn; lia|discriminate]|]. exists ts. split; [exact Hin|]. split; [exact Hall|].
    unfold zlen. apply inj_le, NoDup_incl_length; [exact Hnd|]. intros t Ht. unfold has_all in Hall. rewrite forallb_forall in Hall. apply (mem_In' t ts), Hall, Ht.
Qed.
