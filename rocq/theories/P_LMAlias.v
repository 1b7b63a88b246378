(** C53 Scoring leaves the caller's words alone. *)
From Coq Require Import Lia.
From Verif Require Import Base BaseLemmas Float64 NGram LMAlias.

(** A slice of an allocated array. *)
Definition valid (m : memory) (s : gslice) : Prop :=
  (s_arr s < length m /\ s_len s <= s_cap s /\ s_off s + s_cap s <= length (array m (s_arr s)))%nat.
(** The arrays of [m] are as they were in [m']. *)
Definition untouched (m m' : memory) : Prop := forall a, (a < length m)%nat -> array m' a = array m a.

Lemma set_len m : forall a l, length (set_array m a l) = length m.
Proof. induction m as [|x m IH]; intros [|a] l; cbn; auto. Qed.
Lemma set_get m : forall a l b, array (set_array m a l) b = if (Nat.eqb a b) && (b <? length m)%nat then l else array m b.
Proof.
  unfold array. induction m as [|x m IH]; intros a l b; [destruct a, b; cbn; rewrite ?Bool.andb_false_r; reflexivity|].
  destruct a as [|a], b as [|b]; cbn [set_array nth length Nat.eqb andb]; try reflexivity. rewrite IH. reflexivity.
Qed.
Lemma app_get (m : memory) l b : array (m ++ [l]) b = if (b <? length m)%nat then array m b else if Nat.eqb b (length m) then l else [].
Proof.
  unfold array. destruct (b <? length m)%nat eqn:E; [apply Nat.ltb_lt in E; apply app_nth1; exact E|]. apply Nat.ltb_ge in E. rewrite app_nth2 by exact E.
  destruct (Nat.eqb b (length m)) eqn:E2; [apply Nat.eqb_eq in E2; subst; rewrite Nat.sub_diag; reflexivity|]. apply Nat.eqb_neq in E2. apply nth_overflow. cbn. lia.
Qed.
Lemma write_len l i xs : (i + length xs <= length l)%nat -> length (write_at l i xs) = length l.
Proof. intros H. unfold write_at. rewrite !app_length, firstn_length, skipn_length. lia. Qed.
Lemma contents_len m s : valid m s -> length (contents m s) = s_len s.
Proof. intros (H1 & H2 & H3). unfold contents. rewrite firstn_length, skipn_length. lia. Qed.
Lemma write_contents (l : list Z) off k xs : (off + k + length xs <= length l)%nat ->
  firstn (k + length xs) (skipn off (write_at l (off + k) xs)) = firstn k (skipn off l) ++ xs.
Proof.
  intros H. unfold write_at.
  assert (skipn off (firstn (off + k) l ++ xs ++ skipn (off + k + length xs) l) = firstn k (skipn off l) ++ xs ++ skipn (off + k + length xs) l) as ->.
  { rewrite skipn_app, firstn_length, Nat.min_l by lia. replace (off - (off + k))%nat with O by lia. cbn [skipn]. f_equal. rewrite <- firstn_skipn_comm. reflexivity. }
  rewrite app_assoc, firstn_app. rewrite app_length, firstn_length, skipn_length, Nat.min_l by lia. rewrite Nat.sub_diag. cbn [firstn]. rewrite app_nil_r. apply firstn_all2. rewrite app_length, firstn_length, skipn_length. lia.
Qed.

(** What append does: the new slice holds the elements and the appended ones; the only old
    cells written are those behind the slice, and only if its capacity has room for them. *)
Lemma append_spec g m s xs : valid m s -> let '(m', s') := go_append g m s xs in
  contents m' s' = contents m s ++ xs /\ valid m' s' /\ s_len s' = (s_len s + length xs)%nat /\ (length m <= length m')%nat
  /\ (forall a, (a < length m)%nat -> array m' a = if Nat.eqb a (s_arr s) && (s_len s + length xs <=? s_cap s)%nat then write_at (array m a) (s_off s + s_len s) xs else array m a).
Proof.
  intros Hv. pose proof Hv as (H1 & H2 & H3). unfold go_append. destruct (s_len s + length xs <=? s_cap s)%nat eqn:E.
  - apply Nat.leb_le in E. assert (forall b, array (set_array m (s_arr s) (write_at (array m (s_arr s)) (s_off s + s_len s) xs)) b = if Nat.eqb (s_arr s) b then write_at (array m (s_arr s)) (s_off s + s_len s) xs else array m b) as Hg.
    { intros b. rewrite set_get. destruct (Nat.eqb (s_arr s) b) eqn:Eb; [|reflexivity]. apply Nat.eqb_eq in Eb. subst b. destruct (s_arr s <? length m)%nat eqn:E1; [reflexivity|apply Nat.ltb_ge in E1; lia]. }
    split; [|split; [|split; [reflexivity|split; [rewrite set_len; lia|]]]].
    + unfold contents at 1. cbn [s_arr s_off s_len]. rewrite Hg, Nat.eqb_refl. apply write_contents. lia.
    + unfold valid. cbn [s_arr s_off s_len s_cap]. rewrite set_len, Hg, Nat.eqb_refl, write_len by lia. lia.
    + intros a Ha. rewrite Hg, (Nat.eqb_sym (s_arr s)), Bool.andb_true_r. destruct (Nat.eqb a (s_arr s)) eqn:Ea; [apply Nat.eqb_eq in Ea; subst a; reflexivity|reflexivity].
  - apply Nat.leb_gt in E. split; [|split; [|split; [reflexivity|split; [rewrite app_length; cbn; lia|]]]].
    + unfold contents at 1. cbn [s_arr s_off s_len skipn]. rewrite app_get. rewrite (proj2 (Nat.ltb_ge _ _)), Nat.eqb_refl by lia. rewrite app_assoc, firstn_app, app_length, contents_len, Nat.sub_diag by exact Hv. cbn [firstn]. rewrite app_nil_r.
      apply firstn_all2. rewrite app_length, contents_len by exact Hv. lia.
    + unfold valid. cbn [s_arr s_off s_len s_cap]. rewrite app_get, (proj2 (Nat.ltb_ge _ _)), Nat.eqb_refl, !app_length, contents_len, repeat_length by (exact Hv || lia). cbn [length]. lia.
    + intros a Ha. rewrite Bool.andb_false_r, app_get. rewrite (proj2 (Nat.ltb_lt _ _) Ha). reflexivity.
Qed.
Lemma contents_untouched m m' s : (s_arr s < length m)%nat -> untouched m m' -> contents m' s = contents m s.
Proof. intros H U. unfold contents. rewrite U by exact H. reflexivity. Qed.
Lemma untouched_refl m : untouched m m. Proof. intros a _. reflexivity. Qed.
Lemma untouched_trans m m' m'' : (length m <= length m')%nat -> untouched m m' -> untouched m' m'' -> untouched m m''.
Proof. intros Hl H1 H2 a Ha. rewrite H2 by lia. apply H1. exact Ha. Qed.
Lemma untouched_new (m : memory) l : untouched m (m ++ [l]).
Proof. intros a Ha. rewrite app_get, (proj2 (Nat.ltb_lt _ _) Ha). reflexivity. Qed.
Lemma new_valid (m : memory) l : valid (m ++ [l]) (mkSlice (length m) 0 (length l) (length l)) /\ contents (m ++ [l]) (mkSlice (length m) 0 (length l) (length l)) = l.
Proof.
  assert (array (m ++ [l]) (length m) = l) as Hg by (rewrite app_get, (proj2 (Nat.ltb_ge _ _)), Nat.eqb_refl by lia; reflexivity).
  split; [unfold valid; cbn [s_arr s_off s_len s_cap]; rewrite Hg, app_length; cbn; lia|]. unfold contents. cbn [s_arr s_off s_len skipn]. rewrite Hg. apply firstn_all.
Qed.
Lemma left_spec grow lm m s : valid m s -> let '(m', s') := leftWrapSentence grow lm m s in
  contents m' s' = lm_start lm :: contents m s /\ valid m' s' /\ s_len s' = S (s_len s) /\ (length m <= length m')%nat /\ untouched m m'.
Proof.
  intros Hv. unfold leftWrapSentence, new_slice. destruct (new_valid m [lm_start lm]) as [Hn Hc]. cbn [length] in Hn, Hc.
  assert (contents (m ++ [[lm_start lm]]) s = contents m s) as Es by (apply contents_untouched; [apply Hv|apply untouched_new]). rewrite Es. unfold append_.
  pose proof (append_spec (grow (length (m ++ [[lm_start lm]]))) (m ++ [[lm_start lm]]) _ (contents m s) Hn) as H. cbn [length].
  destruct (go_append _ _ _ (contents m s)) as [m' s']. destruct H as (H1 & H2 & H3 & H4 & H5). rewrite Hc in H1. rewrite contents_len in H3 by exact Hv. cbn [s_len] in H3. rewrite app_length in H4. cbn [length] in H4.
  split; [exact H1|]. split; [exact H2|]. split; [rewrite H3; reflexivity|]. split; [lia|].
  intros a Ha. rewrite H5 by (rewrite app_length; cbn; lia). cbn [s_arr]. destruct (Nat.eqb a (length m)) eqn:E; [apply Nat.eqb_eq in E; lia|]. cbn [andb]. apply untouched_new. exact Ha.
Qed.
Lemma skipn_add {A} (l : list A) : forall a b, skipn (a + b) l = skipn b (skipn a l).
Proof. induction l as [|x l IH]; intros [|a] b; cbn [skipn Nat.add]; try reflexivity; [rewrite skipn_nil; reflexivity|apply IH]. Qed.
Lemma split_contents m s n : valid m s -> (0 <= n)%Z -> map (contents m) (split_slices s n) = splitIntoNGrams (contents m s) n.
Proof.
  intros Hv Hn. unfold split_slices, splitIntoNGrams. unfold zlen. rewrite contents_len by exact Hv. destruct (Z.of_nat (s_len s) <? n)%Z eqn:E; [reflexivity|]. apply Z.ltb_ge in E.
  rewrite map_map. apply map_ext_in. intros i Hi. apply in_seq in Hi. unfold contents, reslice. cbn [s_arr s_off s_len]. replace (i + Z.to_nat n - i)%nat with (Z.to_nat n) by lia.
  rewrite skipn_firstn_comm, firstn_firstn, Nat.min_l by lia. f_equal. apply skipn_add.
Qed.

(** ** The theorems *)
(** ScoreWordIDs gives the score of the words, and of all the memory the caller can reach
    the only cell it may change is the one behind the slice, if the slice's array has one: the
    end symbol is written there. *)
Theorem C53_score_writes : forall flog grow lm m s, valid m s -> (0 <= lm_order lm)%Z ->
  let '(r, m') := ScoreWordIDs_mem flog grow lm m s in
  r = ScoreWordIDs flog lm (contents m s)
  /\ forall a, (a < length m)%nat -> array m' a = if Nat.eqb a (s_arr s) && (s_len s <? s_cap s)%nat
       then firstn (s_off s + s_len s) (array m a) ++ [lm_end lm] ++ skipn (s_off s + s_len s + 1) (array m a) else array m a.
Proof.
  intros flog grow lm m s Hv Ho. unfold ScoreWordIDs_mem, wrapSentence, rightWrapSentence, append_.
  pose proof (append_spec (grow (length m)) m s [lm_end lm] Hv) as H. destruct (go_append _ m s [lm_end lm]) as [m1 s1]. destruct H as (H1 & H2 & H3 & H4 & H5).
  pose proof (left_spec grow lm m1 s1 H2) as H. destruct (leftWrapSentence grow lm m1 s1) as [m2 s2]. destruct H as (G1 & G2 & G3 & G4 & G5). split.
  - unfold ScoreWordIDs. rewrite H1 in G1. rewrite <- G1, <- split_contents by assumption.
    generalize (@Ret f64 (of_int 0)). induction (split_slices s2 (lm_order lm)) as [|x l IH]; intros acc; [reflexivity|]. cbn [map fold_left]. apply IH.
  - intros a Ha. rewrite G5 by lia. rewrite H5 by exact Ha. cbn [length]. replace (s_len s + 1 <=? s_cap s)%nat with (s_len s <? s_cap s)%nat by (unfold Nat.ltb; f_equal; lia). reflexivity.
Qed.
Print Assumptions C53_score_writes.
(** Without spare capacity nothing the caller can reach changes. *)
Theorem C53_unchanged_partial : forall flog grow lm m s, valid m s -> (0 <= lm_order lm)%Z -> s_len s = s_cap s ->
  untouched m (snd (ScoreWordIDs_mem flog grow lm m s)).
Proof.
  intros flog grow lm m s Hv Ho E a Ha. pose proof (C53_score_writes flog grow lm m s Hv Ho) as H. destruct (ScoreWordIDs_mem flog grow lm m s) as [r m']. cbn [snd]. rewrite (proj2 H) by exact Ha.
  rewrite E, Nat.ltb_irrefl, Bool.andb_false_r. reflexivity.
Qed.
Print Assumptions C53_unchanged_partial.
(** With spare capacity something does: scoring the first two of the words 5 6 7 8 turns the
    7 into the end symbol (here 9), whatever the model. *)
Theorem C53_spare_refuted : forall flog grow m0, let lm := mkLM m0 3 1 9 in let words := mkSlice 0 0 2 4 in
  valid [[5; 6; 7; 8]%Z] words /\ contents [[5; 6; 7; 8]%Z] words = [5; 6]%Z
  /\ array (snd (ScoreWordIDs_mem flog grow lm [[5; 6; 7; 8]%Z] words)) 0 = [5; 6; 9; 8]%Z.
Proof.
  intros flog grow m0 lm words. assert (valid [[5; 6; 7; 8]%Z] words) as Hv by (unfold valid; cbn; lia). split; [exact Hv|]. split; [reflexivity|].
  pose proof (C53_score_writes flog grow lm _ words Hv ltac:(cbn; lia)) as H. destruct (ScoreWordIDs_mem flog grow lm _ words) as [r m']. cbn [snd]. rewrite (proj2 H) by (cbn; lia). reflexivity.
Qed.
Print Assumptions C53_spare_refuted.

(** Scoring a sentence of words changes nothing, and gives the score of their ids. *)
Lemma map_ids_spec grow get sentence : forall m s, valid m s -> (s_len s + length sentence <= s_cap s)%nat ->
  let '(r, m') := map_ids grow get m s sentence in
  (length m <= length m')%nat /\ (forall a, (a < length m)%nat -> a <> s_arr s -> array m' a = array m a)
  /\ match r with
     | Ret s' => valid m' s' /\ s_arr s' = s_arr s /\ s_cap s' = s_cap s /\ s_len s' = (s_len s + length sentence)%nat
                 /\ exists ids, Forall2 (fun t i => get t = Ret i) sentence ids /\ contents m' s' = contents m s ++ ids
     | Fail e => exists t, In t sentence /\ get t = Fail e
     | Panic => exists t, In t sentence /\ get t = Panic
     | NoFuel => exists t, In t sentence /\ get t = NoFuel
     end.
Proof.
  induction sentence as [|t ts IH]; intros m s Hv Hc; cbn [map_ids].
  - split; [lia|]. split; [auto|]. split; [exact Hv|]. do 2 (split; [reflexivity|]). split; [cbn; lia|]. exists []. split; [constructor|]. rewrite app_nil_r. reflexivity.
  - destruct (get t) as [id|e| |] eqn:Et; try (split; [lia|]; split; [auto|]; exists t; split; [left; reflexivity|exact Et]).
    unfold append_. pose proof (append_spec (grow (length m)) m s [id] Hv) as H. unfold go_append in *. cbn [length] in *. rewrite (proj2 (Nat.leb_le _ _)) in * by lia.
    set (m1 := set_array _ _ _) in *. set (s1 := mkSlice _ _ _ _) in *. destruct H as (H1 & H2 & H3 & H4 & H5).
    specialize (IH m1 s1 H2). cbn [s_len s_cap s_arr] in IH. unfold s1 at 1 2 in IH. cbn [s_len s_cap] in IH. specialize (IH ltac:(lia)).
    destruct (map_ids grow get m1 s1 ts) as [r m']. destruct IH as (I1 & I2 & I3). split; [lia|]. split.
    { intros a Ha Hne. rewrite I2; [|lia|exact Hne]. rewrite H5 by exact Ha. destruct (Nat.eqb a (s_arr s)) eqn:E; [apply Nat.eqb_eq in E; congruence|reflexivity]. }
    destruct r as [s'|e| |]; try (destruct I3 as (t' & Hin & Ht); exists t'; split; [right; exact Hin|exact Ht]).
    destruct I3 as (J1 & J2 & J3 & J4 & ids & J5 & J6). split; [exact J1|]. split; [exact J2|]. split; [exact J3|]. split; [rewrite J4; cbn; lia|].
    exists (id :: ids). split; [constructor; assumption|]. rewrite J6, H1, <- app_assoc. reflexivity.
Qed.
Theorem C53_sentence : forall flog grow get lm m sentence, (0 <= lm_order lm)%Z ->
  let '(r, m') := ScoreSentence flog grow get lm m sentence in
  untouched m m' /\ forall ids, Forall2 (fun t i => get t = Ret i) sentence ids -> r = ScoreWordIDs flog lm ids.
Proof.
  intros flog grow get lm m sentence Ho. unfold ScoreSentence, MapIntoListOfWordIDs, make_cap.
  set (m0 := m ++ [repeat 0%Z (length sentence)]). set (s0 := mkSlice (length m) 0 0 (length sentence)).
  assert (array m0 (length m) = repeat 0%Z (length sentence)) as Hg by (unfold m0; rewrite app_get, (proj2 (Nat.ltb_ge _ _)), Nat.eqb_refl by lia; reflexivity).
  assert (valid m0 s0) as Hv by (unfold valid, s0; cbn [s_arr s_off s_len s_cap]; rewrite Hg, repeat_length; unfold m0; rewrite app_length; cbn; lia).
  pose proof (map_ids_spec grow get sentence m0 s0 Hv (le_n _)) as H. destruct (map_ids grow get m0 s0 sentence) as [r m1]. destruct H as (H1 & H2 & H3).
  assert (length m0 = S (length m)) as Hl by (unfold m0; rewrite app_length; cbn; lia).
  assert (untouched m m1) as U by (intros a Ha; rewrite H2 by (cbn; lia); apply untouched_new; exact Ha).
  assert (forall (P : res Z) t ids, In t sentence -> get t = P -> (forall i, P <> Ret i) -> Forall2 (fun t i => get t = Ret i) sentence ids -> False) as Hbad.
  { clear. intros P t ids Hin Ht Hp F. induction F as [|x i l ids' Hx F IH]; [destruct Hin|]. destruct Hin as [->|Hin]; [apply (Hp i); congruence|exact (IH Hin)]. }
  destruct r as [s1|e| |]; try (split; [exact U|]; intros ids F; exfalso; destruct H3 as (t & Hin & Ht); eapply (Hbad _ t ids Hin Ht); [intros ? X; discriminate X|exact F]).
  destruct H3 as (J1 & J2 & J3 & J4 & ids & J5 & J6). pose proof (C53_score_writes flog grow lm m1 s1 J1 Ho) as H. destruct (ScoreWordIDs_mem flog grow lm m1 s1) as [r m2]. destruct H as [K1 K2]. split.
  - intros a Ha. rewrite K2 by lia. rewrite J2. cbn [s_arr s0]. destruct (Nat.eqb a (length m)) eqn:E; [apply Nat.eqb_eq in E; lia|]. cbn [andb]. apply U. exact Ha.
  - intros ids' F. rewrite K1, J6. assert (contents m0 s0 = []) as -> by reflexivity. cbn [app]. f_equal.
    clear -F J5. revert ids' F. induction J5 as [|x i l ids Hx J IH]; intros ids' F; inversion F as [|? i' ? ids'' Hi F']; subst; [reflexivity|]. f_equal; [congruence|apply IH; exact F'].
Qed.
Print Assumptions C53_sentence.
(** Asking for continuations changes nothing. *)
Theorem C53_next : forall grow lm m s, valid m s -> (1 <= lm_order lm)%Z ->
  let '(r, m') := LMNext_mem grow lm m s in untouched m m' /\ r = LMNext lm (contents m s).
Proof.
  intros grow lm m s Hv Ho. unfold LMNext_mem, LMNext, lm_context. unfold zlen. rewrite contents_len by exact Hv. destruct (Z.of_nat (s_len s) + 1 <? lm_order lm)%Z eqn:E1.
  { pose proof (left_spec grow lm m s Hv) as H. destruct (leftWrapSentence grow lm m s) as [m' s']. destruct H as (H1 & _ & _ & _ & H2). split; [exact H2|]. cbn [bind]. rewrite H1. reflexivity. }
  assert (forall i j, (i <= j <= s_len s)%nat -> slice (contents m s) (Z.of_nat i) (Z.of_nat j) = Ret (contents m (reslice s i j))) as Hs.
  { intros i j Hij. unfold slice, zlen. rewrite contents_len by exact Hv. rewrite !(proj2 (Z.leb_le _ _)) by lia. cbn [andb]. f_equal. unfold contents, reslice. cbn [s_arr s_off s_len]. rewrite Nat2Z.id. replace (Z.to_nat (Z.of_nat j - Z.of_nat i)) with (j - i)%nat by lia.
    rewrite skipn_firstn_comm, firstn_firstn, Nat.min_l by lia. rewrite skipn_add. reflexivity. }
  apply Z.ltb_ge in E1. destruct (lm_order lm <? Z.of_nat (s_len s))%Z eqn:E2.
  - apply Z.ltb_lt in E2. split; [apply untouched_refl|]. replace (Z.of_nat (s_len s) - lm_order lm + 1)%Z with (Z.of_nat (Z.to_nat (Z.of_nat (s_len s) - lm_order lm + 1))) at 2 by lia. rewrite Hs by lia. reflexivity.
  - apply Z.ltb_ge in E2. destruct (Z.of_nat (s_len s) =? lm_order lm)%Z eqn:E3.
    + apply Z.eqb_eq in E3. split; [apply untouched_refl|]. change 0%Z with (Z.of_nat 0). replace (lm_order lm - 1)%Z with (Z.of_nat (Z.to_nat (lm_order lm - 1))) at 2 by lia. rewrite Hs by lia. reflexivity.
    + split; [apply untouched_refl|reflexivity].
Qed.
Print Assumptions C53_next.
(** Asking a scorer about a word leaves the scorer (and all else) as it was, so that any
    number of words can be asked about, in any order. *)
Lemma fill_spec grow counts : forall m s, valid m s -> (s_len s + length counts = s_cap s)%nat ->
  let '(m', s') := fold_left (fun a c => let '(m, s) := a in append_ grow m s [c]) counts (m, s) in
  contents m' s' = contents m s ++ counts /\ valid m' s' /\ s_len s' = s_cap s' /\ (length m <= length m')%nat /\ s_arr s' = s_arr s
  /\ forall a, (a < length m)%nat -> a <> s_arr s -> array m' a = array m a.
Proof.
  induction counts as [|c cs IH]; intros m s Hv Hc; cbn [fold_left length] in *.
  - rewrite app_nil_r. split; [reflexivity|]. split; [exact Hv|]. split; [lia|]. split; [lia|]. split; auto.
  - unfold append_ at 2. pose proof (append_spec (grow (length m)) m s [c] Hv) as H. unfold go_append in *. cbn [length] in *. rewrite (proj2 (Nat.leb_le _ _)) in * by lia.
    set (m1 := set_array _ _ _) in *. set (s1 := mkSlice _ _ _ _) in *. destruct H as (H1 & H2 & H3 & H4 & H5).
    specialize (IH m1 s1 H2). unfold s1 at 1 2 in IH. cbn [s_len s_cap] in IH. specialize (IH ltac:(lia)). destruct (fold_left _ cs (m1, s1)) as [m' s']. destruct IH as (I1 & I2 & I3 & I4 & I5 & I6).
    split; [rewrite I1, H1, <- app_assoc; reflexivity|]. split; [exact I2|]. split; [exact I3|]. split; [lia|]. split; [exact I5|].
    intros a Ha Hne. rewrite I6; [|lia|exact Hne]. rewrite H5 by exact Ha. destruct (Nat.eqb a (s_arr s)) eqn:E; [apply Nat.eqb_eq in E; congruence|reflexivity].
Qed.
Theorem C53_scorer : forall grow m counts, let '(m', s) := scorer_counts grow m counts in
  untouched m m' /\ contents m' s = counts
  /\ forall c, fst (ScoreNext_counts grow m' s c) = counts ++ [c] /\ untouched m' (snd (ScoreNext_counts grow m' s c)).
Proof.
  intros grow m counts. unfold scorer_counts, make_cap. set (m0 := m ++ [repeat 0%Z (length counts)]). set (s0 := mkSlice (length m) 0 0 (length counts)).
  assert (array m0 (length m) = repeat 0%Z (length counts)) as Hg by (unfold m0; rewrite app_get, (proj2 (Nat.ltb_ge _ _)), Nat.eqb_refl by lia; reflexivity).
  assert (length m0 = S (length m)) as Hl by (unfold m0; rewrite app_length; cbn; lia).
  assert (valid m0 s0) as Hv by (unfold valid, s0; cbn [s_arr s_off s_len s_cap]; rewrite Hg, repeat_length, Hl; lia).
  pose proof (fill_spec grow counts m0 s0 Hv eq_refl) as H. destruct (fold_left _ counts (m0, s0)) as [m' s']. destruct H as (I1 & I2 & I3 & I4 & I5 & I6). split.
  { intros a Ha. rewrite I6; [|lia|cbn; lia]. apply untouched_new. exact Ha. }
  split; [exact I1|]. intros c. unfold ScoreNext_counts, append_. pose proof (append_spec (grow (length m')) m' s' [c] I2) as H. destruct (go_append _ m' s' [c]) as [m2 s2]. destruct H as (H1 & _ & _ & _ & H5). cbn [fst snd]. split; [rewrite H1, I1; reflexivity|].
  intros a Ha. rewrite H5 by exact Ha. cbn [length]. rewrite (proj2 (Nat.leb_gt _ _)) by lia. rewrite Bool.andb_false_r. reflexivity.
Qed.
Print Assumptions C53_scorer.
Example C53_nonvacuous : let s := mkSlice 0 1 2 2 in let m := [[4; 5; 6]; [7]]%Z in valid m s /\ contents m s = [5; 6]%Z /\ s_len s = s_cap s
  /\ (1 <= lm_order (mkLM (mkModel [] 0) 3 1 2))%Z.
Proof. split; [unfold valid; cbn; lia|]. split; [reflexivity|]. split; [reflexivity|cbn; lia]. Qed.
