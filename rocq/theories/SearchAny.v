(** Search over documents whose tokens may repeat. *)
From Coq Require Import ZifyBool Permutation Sorted.
From Verif Require Import Base BaseLemmas GoMap Store Postings PostingsSpec PostingsDrive PostingsProofs P_PostingsLemmas Merger MergerSpec MergerProofs MergerProofs2 MergerAnySpec MergerAny
  Index IndexSpec IndexProofs P_IndexLemmas.
Local Open Scope Z_scope.

(** ** CPMerge *)
Lemma answer_any_nil ls T : zlen ls < T \/ zlen ls = 0 \/ Forall (fun l => l = []) ls -> is_answer_any ls T [].
Proof.
  intros H. split; [constructor|]. split; [|split].
  - intros x H1 H2. pose proof (count_le x ls). destruct H as [H|[H|H]]; [lia|lia|]. exfalso. unfold count in H1. clear H2 H0. induction H as [|l ls -> _ IH]; [cbn in H1; lia|]. cbn [filter existsb] in H1. auto.
  - intros x c [].
  - intros x n _. cbn. lia.
Qed.
Lemma cpmerge_any {St} (collect : St -> Z -> option err * St) srt rid ls T s : sorter_ok srt ->
  lists_any rid ls -> nonempty ls -> zlen ls <= 65535 -> 1 <= T ->
  exists cs, is_answer_any ls T cs /\
    CPMerge collect srt rid T s = (if T <? zlen ls then wrapped (feed collect cs s) else feed collect cs s).
Proof.
  intros Hsrt Hl Hne Hn HT. unfold CPMerge, optimized. rewrite (anys_length _ _ Hl). destruct (T <? zlen ls) eqn:E.
  - replace ((zlen ls <? T) || (zlen ls =? 0) || (T <? 0)) with false by lia. replace (zlen ls =? T) with false by lia.
    apply cpMerge_any; auto. lia.
  - destruct ((zlen ls <? T) || (zlen ls =? 0) || (T <? 0)) eqn:E1.
    + exists []. split; [apply answer_any_nil; pose proof (zlen_nonneg ls); lia|reflexivity].
    + replace (zlen ls =? T) with true by lia. assert (T = zlen ls) as -> by lia. apply intersect_any; auto. pose proof (zlen_nonneg ls). lia.
Qed.

(** ** stored lists *)
Lemma stored_In l x : Forall is_u32 l -> In x (stored l) <-> In x l.
Proof. intros H. unfold stored. destruct (zlen l <=? 256); [reflexivity|]. apply (to_set_spec l H). Qed.
Lemma stored_nil l : Forall is_u32 l -> stored l = [] <-> l = [].
Proof.
  intros H. split; intros E.
  - destruct l as [|x l]; [reflexivity|]. assert (In x (stored (x :: l))) as Hx by (apply stored_In; [exact H|left; reflexivity]). rewrite E in Hx. destruct Hx.
  - subst l. reflexivity.
Qed.
Lemma times_sorted x l : StronglySorted Z.lt l -> (times x l <= 1)%nat.
Proof.
  unfold times. induction 1 as [|y l Hs IH Hy]; [cbn; lia|]. cbn [count_occ]. destruct (Z.eq_dec y x) as [->|]; [|exact IH].
  rewrite (proj1 (count_occ_not_In Z.eq_dec l x)); [lia|]. intros Hi. rewrite Forall_forall in Hy. specialize (Hy x Hi). lia.
Qed.
Lemma stored_times x l : Forall is_u32 l -> (times x (stored l) <= times x l)%nat.
Proof.
  intros H. unfold stored. destruct (zlen l <=? 256); [lia|]. destruct (to_set_spec l H) as [[Hs _] Hi]. change (each_once l) with (to_set l).
  pose proof (times_sorted x _ Hs). unfold times in *. destruct (in_dec Z.eq_dec x l) as [Hx|Hx].
  - apply (count_occ_In Z.eq_dec) in Hx. lia.
  - rewrite (proj1 (count_occ_not_In Z.eq_dec (to_set l) x)); [lia|]. rewrite Hi. exact Hx.
Qed.

(** ** Search *)
Section Search.
Context (rb : roaring) (iv : inverted) (P : term -> list Z).
Definition holds_iv_any (t : term) : Prop :=
  ascending (P t) /\
  (P t = [] -> IndexHas iv t = false /\ IndexGet iv t = Ret None) /\
  (P t <> [] -> IndexHas iv t = true /\
     exists r it, IndexGet iv t = Ret (Some (zlen (P t), r)) /\ openPosting rb r (zlen (P t)) = Ret it /\ stands_any it (stored (P t))).
Lemma filterTerms_any terms : forall T k, (forall t, In t terms -> holds_iv_any t) ->
  filterTerms iv terms T k = filter (fun t => ne (P t)) terms \/
  (k + zlen (filterTerms iv terms T k) < T /\ k + zlen (filter (fun t => ne (P t)) terms) < T).
Proof.
  induction terms as [|t ts IH]; intros T k H; cbn [filterTerms filter]; [auto|].
  assert (zlen (filter (fun t => ne (P t)) (t :: ts)) <= zlen (t :: ts)) as Hle.
  { unfold zlen. enough (length (filter (fun t => ne (P t)) (t :: ts)) <= length (t :: ts))%nat by lia.
    clear. induction (t :: ts) as [|x l IH]; cbn; [lia|]. destruct (ne (P x)); cbn; lia. }
  assert (IndexHas iv t = ne (P t)) as Eh.
  { destruct (H t (or_introl eq_refl)) as (_ & H1 & H2). destruct (P t); [apply H1; reflexivity|apply H2; discriminate]. }
  rewrite Eh. destruct (k + zlen (t :: ts) >=? T) eqn:E.
  - assert (forall t0, In t0 ts -> holds_iv_any t0) as H' by (intros; apply H; right; assumption).
    destruct (ne (P t)).
    + destruct (IH T (k + 1) H') as [->|[H1 H2]]; [auto|]. right. rewrite !zlen_cons. lia.
    + destruct (IH T k H') as [->|[H1 H2]]; auto.
  - right. cbn [filter] in Hle. split; [|lia]. change (zlen (@nil term)) with 0. pose proof (zlen_nonneg (filter (fun t0 => ne (P t0)) (t :: ts))).
    cbn [filter] in H0. lia.
Qed.
Lemma open_lists_any terms : (forall t, In t terms -> holds_iv_any t) -> Forall (fun t => P t <> []) terms ->
  exists its, open_lists rb iv terms = Ret its /\ lists_any its (map (fun t => stored (P t)) terms).
Proof.
  induction terms as [|t ts IH]; intros H Hne; cbn [open_lists map]; [exists []; split; [reflexivity|constructor]|].
  inversion_clear Hne. destruct IH as (its & Ei & Hl); auto.
  { intros; apply H; right; assumption. }
  destruct (H t (or_introl eq_refl)) as (_ & _ & H3). destruct (H3 H0) as (_ & r & it & Eg & Eo & Hs). rewrite Eg, Eo, Ei.
  exists (it :: its). split; [reflexivity|constructor; assumption].
Qed.
Definition stored_lists (terms : list term) : list (list Z) := map (fun t => stored (P t)) terms.
Lemma answer_any_ne terms T cs : (forall t, In t terms -> ascending (P t)) ->
  is_answer_any (stored_lists (filter (fun t => ne (P t)) terms)) T cs -> is_answer_any (stored_lists terms) T cs.
Proof.
  intros Hp (H1 & H2 & H3 & H4).
  assert (forall x, count x (stored_lists (filter (fun t => ne (P t)) terms)) = count x (stored_lists terms)) as Hc.
  { intros x. unfold count. f_equal. clear - Hp. induction terms as [|t ts IH]; [reflexivity|]. cbn [filter stored_lists map].
    assert (forall t0, In t0 ts -> ascending (P t0)) as Hp' by (intros; apply Hp; right; assumption). specialize (IH Hp').
    destruct (P t) as [|y l] eqn:E; cbn [ne].
    - change (stored []) with (@nil Z). cbn [existsb]. exact IH.
    - cbn [stored_lists map filter]. rewrite E. unfold stored_lists in IH. destruct (existsb (Z.eqb x) (stored (y :: l))); rewrite IH; reflexivity. }
  split; [exact H1|]. split; [intros x; rewrite <- Hc; apply H2|]. split; [intros x c; rewrite <- Hc; apply H3|].
  intros x n Hx. apply H4. unfold stored_lists in *. apply Forall_map in Hx. apply Forall_map. rewrite Forall_forall in *. intros t Ht. apply Hx. apply filter_In in Ht. apply Ht.
Qed.
Lemma search_any {St} (collect : St -> Z -> option err * St) srt terms T s :
  sorter_ok srt -> (forall t, In t terms -> holds_iv_any t) -> zlen terms <= 65535 -> 1 <= T ->
  exists cs, is_answer_any (stored_lists terms) T cs /\
    exists e, (e = feed collect cs s \/ e = wrapped (feed collect cs s)) /\ Search rb (CPMerge collect srt) iv terms T s = wrapped e.
Proof.
  intros Hsrt H Hn HT. set (F := filter (fun t => ne (P t)) terms).
  assert (forall t, In t terms -> ascending (P t)) as Hasc by (intros t Ht; apply (H t Ht)).
  assert (zlen F <= zlen terms) as HF.
  { unfold zlen, F. enough (length (filter (fun t => ne (P t)) terms) <= length terms)%nat by lia.
    clear. induction terms as [|x l IH]; cbn; [lia|]. destruct (ne (P x)); cbn; lia. }
  assert (zlen (stored_lists F) = zlen F) as HL by (unfold zlen, stored_lists; rewrite map_length; reflexivity).
  unfold Search. destruct (filterTerms_any terms T 0 H) as [->|[H1 H2]]; fold F.
  - destruct (zlen F <? T) eqn:E.
    + exists []. split; [apply answer_any_ne; [exact Hasc|]; apply answer_any_nil; left; fold F; lia|]. exists (Ret tt, s). split; [left; reflexivity|reflexivity].
    + assert (Forall (fun t => P t <> []) F) as HFne.
      { apply Forall_forall. intros t Hi. apply filter_In in Hi. destruct (P t); [destruct Hi; discriminate|discriminate]. }
      destruct (open_lists_any F) as (its & Eo & Hl).
      { intros t Hi. apply H. apply filter_In in Hi. apply Hi. } { exact HFne. }
      rewrite Eo. destruct (cpmerge_any collect srt its (stored_lists F) T s Hsrt Hl) as (cs & Ha & Em).
      * unfold nonempty, stored_lists. apply Forall_map. rewrite Forall_forall in *. intros t Hi E0. apply (HFne t Hi). apply (stored_nil (P t)); [|exact E0].
        apply filter_In in Hi. apply (Hasc t). apply Hi.
      * lia.
      * exact HT.
      * exists cs. split; [apply answer_any_ne; [exact Hasc|exact Ha]|]. rewrite Em, HL.
        exists (if T <? zlen F then wrapped (feed collect cs s) else feed collect cs s). split; [destruct (T <? zlen F); auto|].
        unfold wrapped. destruct (T <? zlen F); cbn [fst snd]; destruct (feed collect cs s) as [[]?]; reflexivity.
  - assert (0 <= zlen F) by apply zlen_nonneg. fold F in H2.
    replace (zlen (filterTerms iv terms T 0) <? T) with true by lia.
    exists []. split; [apply answer_any_ne; [exact Hasc|]; apply answer_any_nil; left; fold F; lia|]. exists (Ret tt, s). split; [left; reflexivity|reflexivity].
Qed.
End Search.

(** ** in terms of documents *)
Lemma docs_any_unique docs x ts ts' : docs_any docs -> In (x, ts) docs -> In (x, ts') docs -> ts = ts'.
Proof.
  intros (Hs & _ & _). induction docs as [|d docs IH]; intros H H'; [destruct H|]. cbn [map] in Hs. inversion_clear Hs.
  rewrite Forall_forall in H1. destruct H as [->|H], H' as [E|H'].
  - congruence.
  - apply (in_map fst) in H'. apply H1 in H'. cbn in H'. lia.
  - subst d. apply (in_map fst) in H. apply H1 in H. cbn in H. lia.
  - apply IH; assumption.
Qed.
Lemma times_occurrences docs c t x ts : StronglySorted Z.lt (map fst docs) -> In (x, ts) docs -> (times x (occurrences docs c t) <= token_times t ts)%nat.
Proof.
  intros Hs Hin. induction docs as [|d docs IH]; [destruct Hin|]. cbn [map] in Hs. inversion_clear Hs. rewrite Forall_forall in H0. unfold occurrences. cbn [flat_map]. unfold times. rewrite count_occ_app.
  fold (occurrences docs c t). destruct Hin as [->|Hin].
  - cbn [fst snd] in *. rewrite (proj1 (count_occ_not_In Z.eq_dec (occurrences docs c t) x)).
    + destruct (zlen ts =? c); [|cbn; lia]. rewrite count_occ_repeat_eq by reflexivity. lia.
    + intros Hi. apply occurrences_In in Hi. destruct Hi as (ts' & Hi & _). specialize (H0 x (in_map fst _ _ Hi)). lia.
  - specialize (IH H Hin). unfold times in IH. assert (fst d <> x) as Hne by (specialize (H0 x (in_map fst _ _ Hin)); lia).
    destruct (zlen (snd d) =? c); [|exact IH]. rewrite count_occ_repeat_neq by congruence. exact IH.
Qed.
Lemma times_none docs c t x : (forall ts, In (x, ts) docs -> zlen ts <> c) -> times x (occurrences docs c t) = 0%nat.
Proof.
  intros H. unfold times. apply count_occ_not_In. intros Hi. apply occurrences_In in Hi. destruct Hi as (ts & H1 & H2 & _). exact (H ts H1 H2).
Qed.
Lemma count_docs_any docs c terms x ts : docs_any docs -> In (x, ts) docs -> zlen ts = c ->
  count x (map (fun t => stored (occurrences docs c t)) terms) = zlen (filter (fun t => existsb (beqb t) ts) terms).
Proof.
  intros Hd Hin Hc. unfold count. induction terms as [|t terms IH]; [reflexivity|]. cbn [map filter].
  assert (Forall is_u32 (occurrences docs c t)) as Hu by (apply occurrences_ascending; apply Hd).
  assert (existsb (Z.eqb x) (stored (occurrences docs c t)) = existsb (beqb t) ts) as ->.
  { apply Bool.eq_iff_eq_true. rewrite existsb_exists. split.
    - intros (y & Hy & E). apply Z.eqb_eq in E. subst y. apply (stored_In _ _ Hu), occurrences_In in Hy. destruct Hy as (ts' & H1 & _ & H2).
      rewrite (docs_any_unique docs x ts ts' Hd Hin H1). exact H2.
    - intros E. exists x. split; [|apply Z.eqb_refl]. apply (stored_In _ _ Hu), occurrences_In. exists ts. auto. }
  destruct (existsb (beqb t) ts); rewrite ?zlen_cons, IH; reflexivity.
Qed.
(** the candidates a search may collect for the documents of size c *)
Definition candidates_any (docs : list (Z * list term)) (terms : list term) (c T : Z) (cs : list (Z * Z)) : Prop :=
  (forall x ts, In (x, ts) docs -> zlen ts = c -> T <= zlen (filter (fun t => existsb (beqb t) ts) terms) ->
     In (x, zlen (filter (fun t => existsb (beqb t) ts) terms)) cs) /\
  (forall x m, In (x, m) cs -> T <= m /\ exists ts, In (x, ts) docs /\ zlen ts = c /\ m <= zlen (filter (fun t => existsb (beqb t) ts) terms)) /\
  (forall x ts n, In (x, ts) docs -> (forall t, token_times t ts <= n)%nat -> (copies x cs <= n)%nat).
Lemma search_docs_any {St} (collect : St -> Z -> option err * St) srt rb ix c iv docs terms T s :
  sorter_ok srt -> docs_any docs -> IndicesGet ix c = Some iv ->
  (forall t, index_holds_any rb ix c t (occurrences docs c t)) -> zlen terms <= 65535 -> 1 <= T ->
  exists cs, candidates_any docs terms c T cs /\
    exists e, (e = feed collect cs s \/ e = wrapped (feed collect cs s)) /\
      Search rb (CPMerge collect srt) iv terms T s = wrapped e.
Proof.
  intros H1 Hd H2 H3 H4 H5. assert (forall t, ascending (occurrences docs c t)) as Hasc by (intros t; apply occurrences_ascending; apply Hd).
  destruct (search_any rb iv (occurrences docs c) collect srt terms T s H1) as (cs & (_ & Ha1 & Ha2 & Ha3) & Es); auto.
  { intros t _. specialize (H3 t). unfold index_holds_any in H3. rewrite H2 in H3. split; [apply Hasc|exact H3]. }
  unfold stored_lists in *. exists cs. split; [|exact Es]. split; [|split].
  - intros x ts Hin Hc HT. pose proof (count_docs_any docs c terms x ts Hd Hin Hc) as E. rewrite <- E in *. apply Ha1; lia.
  - intros x m Hin. destruct (Ha2 x m Hin) as [Hm HT]. split; [exact HT|].
    assert (exists t, In x (occurrences docs c t)) as (t & Ht).
    { assert (count x (map (fun t => stored (occurrences docs c t)) terms) <> 0) as Hnz by lia. clear - Hnz Hasc. unfold count in Hnz. induction terms as [|t terms IH]; [destruct (Hnz eq_refl)|]. cbn [map filter] in Hnz.
      destruct (existsb (Z.eqb x) (stored (occurrences docs c t))) eqn:E; [|apply IH; exact Hnz]. apply existsb_exists in E. destruct E as (y & Hy & E). apply Z.eqb_eq in E. subst y.
      exists t. apply (stored_In _ _ (proj2 (Hasc t))). exact Hy. }
    apply occurrences_In in Ht. destruct Ht as (ts & Hd1 & Hd2 & _). exists ts. split; [exact Hd1|]. split; [exact Hd2|].
    rewrite <- (count_docs_any docs c terms x ts Hd Hd1 Hd2). lia.
  - intros x ts n Hin Hn. apply Ha3. apply Forall_map, Forall_forall. intros t _. pose proof (stored_times x _ (proj2 (Hasc t))). pose proof (times_occurrences docs c t x ts (proj1 Hd) Hin). specialize (Hn t). lia.
Qed.
