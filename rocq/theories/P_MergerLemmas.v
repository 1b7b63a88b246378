(** Glue for P_Merger. *)
From Coq Require Import ZifyBool Reals Lra.
From Verif Require Import Base BaseLemmas Postings PostingsSpec PostingsDrive PostingsProofs Heap HeapProofs
  Merger MergerSpec MergerProofs MergerProofs2 MergerProofs3 MergerProofs4.
Local Open Scope Z_scope.

Lemma answer_nil ls T : zlen ls < T \/ zlen ls = 0 -> is_answer ls T [].
Proof.
  intros H. split; [constructor|]. intros x c. split; [intros []|]. intros (-> & H1 & H2). pose proof (count_le x ls). lia.
Qed.
Lemma is_answer_unique ls T a b : is_answer ls T a -> is_answer ls T b -> a = b.
Proof.
  intros [Ha Ia] [Hb Ib].
  assert (forall xc, In xc a <-> In xc b) as Hiff by (intros [x c]; rewrite Ia, Ib; reflexivity).
  clear Ia Ib. revert b Hb Hiff. induction Ha as [|x a Ha IH Hx]; intros b Hb Hiff.
  - destruct b as [|y b]; [reflexivity|]. destruct (proj2 (Hiff y) (or_introl eq_refl)).
  - destruct Hb as [|y b Hb Hy]; [destruct (proj1 (Hiff x) (or_introl eq_refl))|].
    rewrite Forall_forall in Hx, Hy.
    assert (x = y) as ->.
    { destruct (proj1 (Hiff x) (or_introl eq_refl)) as [->|H1]; [reflexivity|].
      destruct (proj2 (Hiff y) (or_introl eq_refl)) as [->|H2]; [reflexivity|].
      specialize (Hx _ H2). specialize (Hy _ H1). lia. }
    f_equal. apply IH; [exact Hb|]. intros z. split; intros Hz.
    + destruct (proj1 (Hiff z) (or_intror Hz)) as [<-|H]; [specialize (Hx _ Hz); lia|exact H].
    + destruct (proj2 (Hiff z) (or_intror Hz)) as [<-|H]; [specialize (Hy _ Hz); lia|exact H].
Qed.

Section S.
Context {St : Type} (collect : St -> Z -> option err * St) (srt : list iter -> list iter).
Hypothesis Hsrt : sorter_ok srt.
(* the wrapper around any merger that is right for T < n *)
Lemma optimized_ok m rid ls T s : lists rid ls -> nonempty ls -> zlen ls < 2 ^ 32 -> 0 <= T ->
  (T < zlen ls -> exists cs, is_answer ls T cs /\ m rid T s = feed collect cs s) ->
  exists cs, is_answer ls T cs /\ optimized collect srt m rid T s = feed collect cs s.
Proof.
  intros Hl Hne Hn HT Hm. unfold optimized. rewrite (lists_length _ _ Hl).
  destruct ((zlen ls <? T) || (zlen ls =? 0) || (T <? 0)) eqn:E.
  { exists []. split; [apply answer_nil; lia|reflexivity]. }
  destruct (zlen ls =? T) eqn:E2.
  - assert (T = zlen ls) as -> by lia. apply intersect_ok; auto. pose proof (zlen_nonneg ls). lia.
  - apply Hm. lia.
Qed.
Lemma c15 rid ls T s : lists rid ls -> nonempty ls -> zlen ls <= 65535 -> 0 <= T ->
  exists cs, is_answer ls T cs /\ ScanCount collect srt rid T s = feed collect cs s.
Proof. intros Hl Hne Hn HT. apply optimized_ok; auto; [lia|]. intros _. apply scanCount_ok; auto. Qed.
Lemma c16 rid ls T s : lists rid ls -> nonempty ls -> zlen ls <= 65535 -> 1 <= T ->
  exists cs, is_answer ls T cs /\
    CPMerge collect srt rid T s = (if T <? zlen ls then wrapped (feed collect cs s) else feed collect cs s).
Proof.
  intros Hl Hne Hn HT. unfold CPMerge. destruct (T <? zlen ls) eqn:E.
  - unfold optimized. rewrite (lists_length _ _ Hl).
    replace ((zlen ls <? T) || (zlen ls =? 0) || (T <? 0)) with false by lia. replace (zlen ls =? T) with false by lia.
    apply cpMerge_ok; auto. lia.
  - apply optimized_ok; auto; lia.
Qed.
Lemma c17 rid ls T s : lists rid ls -> nonempty ls -> zlen ls < 2 ^ 32 -> 0 <= T ->
  exists cs, is_answer ls T cs /\ MergeSkip collect srt rid T s = feed collect cs s.
Proof. intros Hl Hne Hn HT. apply optimized_ok; auto. intros _. apply mergeSkip_ok; auto. Qed.
Lemma c18 srtr lparam rid ls T s : sorter_ok srtr -> lists rid ls -> nonempty ls -> zlen ls <= 65535 -> 0 <= T ->
  (forall it0 r0, srtr rid = it0 :: r0 -> 0 <= lparam T (it_len it0) /\ (lparam T (it_len it0) < T \/ lparam T (it_len it0) = 0)) ->
  exists cs, is_answer ls T cs /\ DivideSkip collect srt srtr lparam rid T s = feed collect cs s.
Proof. intros Hs Hl Hne Hn HT Hlp. apply optimized_ok; auto; [lia|]. intros Hlt. apply divideSkip_ok; auto. Qed.
End S.

(** the real-number version of the DivideSkip parameter *)
Definition lparam_real (mu : R) (T M : Z) : Z := Int_part (IZR T / (mu * ln (IZR M) + 1)).
Lemma Int_part_IZR z : Int_part (IZR z) = z.
Proof. unfold Int_part. rewrite <- (tech_up (IZR z) (z + 1)); [lia| |]; rewrite plus_IZR; lra. Qed.
Lemma Int_part_spec r : (IZR (Int_part r) <= r < IZR (Int_part r) + 1)%R.
Proof. destruct (base_Int_part r). lra. Qed.
Lemma lparam_real_one mu T : lparam_real mu T 1 = T.
Proof.
  unfold lparam_real. rewrite ln_1, Rmult_0_r, Rplus_0_l. unfold Rdiv. rewrite Rinv_1, Rmult_1_r. apply Int_part_IZR.
Qed.
Lemma lparam_real_ok mu T M : (0 < mu)%R -> 0 <= T -> 2 <= M ->
  0 <= lparam_real mu T M /\ (lparam_real mu T M < T \/ lparam_real mu T M = 0).
Proof.
  intros Hmu HT HM. unfold lparam_real.
  assert (0 < ln (IZR M))%R as Hln by (rewrite <- ln_1; apply ln_increasing; [lra|apply IZR_lt; lia]).
  set (d := (mu * ln (IZR M) + 1)%R).
  assert (1 < d)%R as Hd by (unfold d; pose proof (Rmult_lt_0_compat mu _ Hmu Hln); lra).
  pose proof (Int_part_spec (IZR T / d)) as [H1 H2]. set (l := Int_part (IZR T / d)) in *.
  assert (0 <= IZR T)%R as HTr by (apply IZR_le; lia).
  assert (0 <= IZR T / d)%R as H3 by (unfold Rdiv; apply Rmult_le_pos; [lra|]; left; apply Rinv_0_lt_compat; lra).
  assert (-1 < l) as Hl. { apply lt_IZR. lra. }
  split; [lia|]. destruct (Z.eq_dec T 0) as [->|Hne].
  - right. assert (IZR 0 / d = 0)%R as E by (unfold Rdiv; lra). rewrite E in H1. assert (l <= 0) by (apply le_IZR; lra). lia.
  - left. apply lt_IZR. eapply Rle_lt_trans; [exact H1|].
    assert (0 < IZR T)%R by (apply IZR_lt; lia).
    apply (Rmult_lt_reg_r d); [lra|]. unfold Rdiv. rewrite Rmult_assoc, Rinv_l by lra. rewrite Rmult_1_r.
    rewrite <- (Rmult_1_r (IZR T)) at 1. apply Rmult_lt_compat_l; lra.
Qed.
Lemma c18_real {St} (collect : St -> Z -> option err * St) srt srtr mu rid ls T s :
  sorter_ok srt -> longest_first srtr -> lists rid ls -> nonempty ls -> zlen ls <= 65535 -> 0 <= T ->
  (0 < mu)%R -> (exists l, In l ls /\ 2 <= zlen l) ->
  exists cs, is_answer ls T cs /\ DivideSkip collect srt srtr (lparam_real mu) rid T s = feed collect cs s.
Proof.
  intros Hsrt [Hs Hlong] Hl Hne Hn HT Hmu (l & Hin & Hlen). apply c18; auto.
  intros it0 r0 E. apply lparam_real_ok; auto.
  assert (exists it, In it rid /\ it_len it = zlen l) as (it & Hit & Eit).
  { clear - Hl Hin. induction Hl as [|it l' rid ls [_ Hb] Hl IH]; [destruct Hin|]. destruct Hin as [->|Hin].
    - exists it. split; [left; reflexivity|]. apply (behaves_len it (zlen l) l Hb).
    - destruct (IH Hin) as (it' & H1 & H2). exists it'. split; [right; exact H1|exact H2]. }
  assert (In it (it0 :: r0)) as Hin0 by (rewrite <- E; eapply Permutation_in; [apply Hs|exact Hit]).
  destruct Hin0 as [->|Hin0]; [lia|]. specialize (Hlong rid it0 r0 it E Hin0). lia.
Qed.

(** collectors that remember what they received *)
Lemma feed_logging policy cs : forall log,
  exists k, (k <= length cs)%nat /\
    snd (feed (logging policy) cs log) = log ++ map pk (firstn k cs) /\
    (forall j, (1 <= j < k)%nat -> policy (log ++ map pk (firstn j cs)) = None) /\
    (fst (feed (logging policy) cs log) =
       if Nat.eqb k 0 then Ret tt else
       match policy (log ++ map pk (firstn k cs)) with
       | None => Ret tt | Some ErrCollectionTerminated => Ret tt | Some e => Fail e
       end) /\
    ((k < length cs)%nat -> (1 <= k)%nat /\ policy (log ++ map pk (firstn k cs)) <> None).
Proof.
  induction cs as [|[x c] cs IH]; intros log.
  - exists O. cbn. rewrite app_nil_r. repeat split; try lia.
  - cbn [feed]. change (logging policy log (NewMergeCandidate x c)) with (policy (log ++ [pk (x, c)]), log ++ [pk (x, c)]).
    destruct (policy (log ++ [pk (x, c)])) as [e|] eqn:E.
    + exists 1%nat. cbn [firstn map length Nat.eqb]. split; [lia|]. split; [destruct e; reflexivity|]. split; [lia|].
      rewrite E. split; [destruct e; reflexivity|]. intros _. split; [lia|discriminate].
    + destruct (IH (log ++ [pk (x, c)])) as (k & Hk & H1 & H2 & H3 & H4).
      exists (S k). cbn [firstn map length]. split; [lia|]. rewrite H1, <- app_assoc. split; [reflexivity|].
      split.
      { intros [|j] Hj; [lia|]. destruct j as [|j]; [exact E|]. specialize (H2 (S j) ltac:(lia)). rewrite <- app_assoc in H2. exact H2. }
      rewrite H3. rewrite <- app_assoc in *. cbn [app] in *. split.
      * cbn [Nat.eqb]. destruct k as [|k]; [cbn [Nat.eqb firstn map]; rewrite E; reflexivity|reflexivity].
      * intros Hl. split; [lia|]. apply H4. lia.
Qed.

Lemma feed_stops policy cs : exists k, stops policy cs k /\ feed (logging policy) cs [] = (outcome policy cs k, received cs k).
Proof.
  destruct (feed_logging policy cs []) as (k & H1 & H2 & H3 & H4 & H5). cbn [app] in *. exists k. split.
  - split; [exact H1|]. split; [exact H3|exact H5].
  - rewrite (surjective_pairing (feed _ _ _)), H2, H4. unfold outcome. destruct k; reflexivity.
Qed.

(** slice iterators are an instance *)
Definition slices (ls : list (list Z)) : list iter := map (fun l => ISlice (mkSl l 0)) ls.
Lemma slices_ok ls : Forall posting ls -> lists (slices ls) ls.
Proof.
  induction 1 as [|l ls Hl Hls IH]; constructor; auto. split; [exact Hl|]. intros ops.
  eapply simulates_run; [apply RS_simulates|]. split; [apply sorted_lt_le; apply Hl|]. exists []. auto.
Qed.
(* insertion sorts by length, shortest or longest first; stable like Go's sort.Sort
   on fewer than 12 elements *)
Fixpoint ins (lt : Z -> Z -> bool) (x : iter) (l : list iter) : list iter :=
  match l with
  | [] => [x]
  | y :: l' => if lt (it_len y) (it_len x) || (it_len y =? it_len x) then y :: ins lt x l' else x :: l
  end.
Definition isort (lt : Z -> Z -> bool) (l : list iter) : list iter := fold_left (fun acc x => ins lt x acc) l [].
Definition sort_asc := isort Z.ltb.
Definition sort_desc := isort Z.gtb.
Lemma ins_perm lt x l : Permutation (ins lt x l) (x :: l).
Proof.
  induction l as [|y l IH]; [reflexivity|]. cbn [ins]. destruct (lt (it_len y) (it_len x) || (it_len y =? it_len x)); [|reflexivity].
  rewrite IH. apply perm_swap.
Qed.
Lemma isort_perm lt l : Permutation l (isort lt l).
Proof.
  unfold isort. enough (forall acc, Permutation (acc ++ l) (fold_left (fun acc x => ins lt x acc) l acc)) as H by apply (H []).
  induction l as [|x l IH]; intros acc; cbn [fold_left]; [rewrite app_nil_r; reflexivity|].
  rewrite <- IH, ins_perm. cbn [app]. symmetry. apply Permutation_middle.
Qed.
Lemma sort_asc_ok : sorter_ok sort_asc. Proof. intros l. apply isort_perm. Qed.
Definition desc (l : list iter) : Prop := StronglySorted (fun a b => it_len b <= it_len a) l.
Lemma ins_desc x l : desc l -> desc (ins Z.gtb x l).
Proof.
  induction 1 as [|y l Hl IH Hy]; cbn [ins]; [repeat constructor|].
  destruct ((it_len y >? it_len x) || (it_len y =? it_len x)) eqn:E.
  - constructor; [exact IH|]. apply Forall_forall. intros z Hz. apply (Permutation_in _ (ins_perm _ _ _)) in Hz.
    destruct Hz as [<-|Hz]; [lia|]. rewrite Forall_forall in Hy. exact (Hy z Hz).
  - constructor; [constructor; auto|]. constructor; [lia|]. eapply Forall_impl; [|exact Hy]. intros z Hz. cbv beta in *. lia.
Qed.
Lemma sort_desc_ok : longest_first sort_desc.
Proof.
  split; [intros l; apply isort_perm|]. intros l x r y E Hy.
  assert (desc (sort_desc l)) as Hd.
  { unfold sort_desc, isort. enough (forall acc, desc acc -> desc (fold_left (fun acc x => ins Z.gtb x acc) l acc)) as H by (apply H; constructor).
    clear. induction l as [|a l IH]; intros acc H; cbn [fold_left]; [exact H|]. apply IH. apply ins_desc. exact H. }
  rewrite E in Hd. apply StronglySorted_inv in Hd. destruct Hd as [_ Hd]. rewrite Forall_forall in Hd. exact (Hd y Hy).
Qed.
