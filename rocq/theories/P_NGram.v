(** C48 Packed array lookups.  C49 Model counts of n-grams.  C50 Next-word scoring agrees
    with full scoring.  C51 Next uses the most recent words.  C63 Back-off score. *)
From Coq Require Import Sorting.Sorted ZifyBool.
From Verif Require Import Base BaseLemmas GoMap Float64 Merger MergerProofs NGram NGramSpec NGramProofs NGramProofs2 NGramProofs3 NGramProofs4.
Local Open Scope Z_scope.
Local Opaque Pack UnpackLeft UnpackRight.

(** ** C48 *)
Lemma triples_nodes l : triples_ok l -> zlen l < 2 ^ 32 -> nodes_ok (map node_of l).
Proof.
  intros [Hs Hu] Hz. split; [|split].
  - clear Hz. induction Hs as [|x l Hs IH Hf]; cbn [map]; [constructor|]. apply Forall_cons_iff in Hu. destruct Hu as [Hx Hu]. constructor; [apply IH; exact Hu|].
    rewrite map_map, Forall_map, Forall_forall. intros y Hy. rewrite Forall_forall in Hf, Hu. specialize (Hf y Hy). specialize (Hu y Hy). unfold node_of. cbn [fst]. unfold is_u32 in *. lia.
  - rewrite Forall_map. eapply Forall_impl; [|exact Hu]. intros t (H1 & H2 & H3). unfold node_of. cbn [fst snd]. unfold is_u32 in *. split; lia.
  - rewrite zlen_map. exact Hz.
Qed.
Lemma node_pack t : is_u32 (fst (fst t)) -> is_u32 (snd (fst t)) -> node_of t = (Pack (fst (fst t)) (snd (fst t)), snd t).
Proof. intros H1 H2. unfold node_of. rewrite pack_val by (unfold is_u32 in *; lia). reflexivity. Qed.
Lemma in_nodes l c w n : triples_ok l -> is_u32 c -> is_u32 w -> (In (Pack c w, n) (map node_of l) <-> In (c, w, n) l).
Proof.
  intros [_ Hu] Hc Hw. rewrite in_map_iff. rewrite Forall_forall in Hu. split.
  - intros ([[c' w'] n'] & E & Hin). destruct (Hu _ Hin) as (H1 & H2 & _). rewrite node_pack in E by assumption. cbn [fst snd] in *. injection E as E ->.
    apply pack_inj in E; try assumption. destruct E as [-> ->]. exact Hin.
  - intros Hin. exists (c, w, n). split; [|exact Hin]. rewrite node_pack by assumption. reflexivity.
Qed.

(** A vector of at most 2^32-3 nodes answers each lookup with the stored count and the
    node's position, with (0, 2^32-3) for what was not stored; the corpus count is the sum
    of the counts (uint32); the sub-vector of a context exists iff something is stored
    under it, and it answers for the context as the whole vector does. *)
Theorem C48_lookup_partial : forall l, triples_ok l -> zlen l <= 2 ^ 32 - 3 ->
  let v := CreatePackedArray (map node_of l) in
  (forall i c w n, nth_error l i = Some (c, w, n) -> GetCount v w c = Ret (n, Z.of_nat i) /\ GetContextOffset v w c = Ret (Z.of_nat i))
  /\ (forall c w, is_u32 c -> is_u32 w -> (forall n, ~ In (c, w, n) l) -> GetCount v w c = Ret (0, no_offset) /\ GetContextOffset v w c = Ret no_offset)
  /\ CorpusCount v = fold_right (fun t a => snd t + a) 0 l mod 2 ^ 32
  /\ (forall c, is_u32 c -> (exists w n, In (c, w, n) l) ->
        exists sub, SubVector v c = Ret (Some sub) /\ forall w, GetCount sub w c = GetCount v w c)
  /\ (forall c, is_u32 c -> (forall w n, ~ In (c, w, n) l) -> SubVector v c = Ret None).
Proof.
  intros l Hl Hz v. pose proof (triples_nodes l Hl ltac:(lia)) as Hok. pose proof (proj2 Hl) as Hu. rewrite Forall_forall in Hu. split; [|split; [|split; [|split]]].
  - intros i c w n Hi. destruct (nth_error_split l i Hi) as (l1 & l2 & El & Hi1). destruct (Hu (c, w, n)) as (Hc & Hw & Hn); [eapply nth_error_In; exact Hi|]. cbn [fst snd] in *.
    assert (map node_of l = map node_of l1 ++ (Pack c w, n) :: map node_of l2) as E.
    { rewrite El, map_app. cbn [map]. rewrite node_pack by assumption. reflexivity. }
    assert (Z.of_nat i = zlen (map node_of l1)) as -> by (rewrite zlen_map; unfold zlen; lia). split.
    + eapply getcount_node; [exact Hok|rewrite zlen_map; exact Hz|exact Hc|exact Hw|exact E].
    + unfold GetContextOffset. destruct (find_node _ _ _ c w n Hok Hc Hw E) as [Ef _]. unfold v. rewrite Ef. reflexivity.
  - intros c w Hc Hw Hno. assert (forall n, ~ In (Pack c w, n) (map node_of l)) as Hno' by (intros n Hin; apply (Hno n); apply in_nodes in Hin; assumption). split.
    + apply getcount_no_node; assumption.
    + unfold GetContextOffset, v. rewrite find_no_node by assumption. reflexivity.
  - unfold v. destruct (create_groups _ Hok) as (gs & _ & _ & ->). cbn [CorpusCount pa_groups pa_of total]. unfold wrap32. f_equal. clear. induction l as [|t l IH]; [reflexivity|]. cbn [map csum fold_right] in *. fold (csum (map node_of l)). rewrite IH. reflexivity.
  - intros c Hc (w & n & Hin). destruct (Hu _ Hin) as (_ & Hw & _). cbn [fst snd] in Hw. apply (proj1 (sub_node _ c Hok Hc)). exists w, n. split; [exact Hw|]. apply in_nodes; assumption.
  - intros c Hc Hno. apply (proj2 (sub_node _ c Hok Hc)). intros w n Hw Hin. apply in_nodes in Hin; try assumption. apply (Hno w n). exact Hin.
Qed.
Print Assumptions C48_lookup_partial.

Definition triples0 : list triple := [(0, 5, 1); (1, 3, 2); (1, 9, 4); (2, 4, 7)].
Lemma triples0_ok : triples_ok triples0.
Proof.
  split.
  - repeat (apply SSorted_cons; [|repeat (apply Forall_cons; [cbn; lia|]); apply Forall_nil]). apply SSorted_nil.
  - repeat (apply Forall_cons; [unfold is_u32; cbn [fst snd]; lia|]). apply Forall_nil.
Qed.
Example C48_nonvacuous : triples_ok triples0 /\ zlen triples0 <= 2 ^ 32 - 3
  /\ GetCount (CreatePackedArray (map node_of triples0)) 9 1 = Ret (4, 2)
  /\ GetCount (CreatePackedArray (map node_of triples0)) 4 1 = Ret (0, no_offset).
Proof. split; [exact triples0_ok|]. split; [vm_compute; discriminate|]. split; vm_compute; reflexivity. Qed.

(** Beyond: the node at position 2^32-3 is not found; and a sub-vector is not to be asked
    about another context: asked about context 1, that of context 0 finds word 4, which is
    stored under context 2 only. *)
Lemma seq_sorted : forall n s, StronglySorted (fun a b : triple => fst (fst a) < fst (fst b) \/ fst (fst a) = fst (fst b) /\ snd (fst a) < snd (fst b)) (map (fun i => (0, Z.of_nat i, 1)) (seq s n)).
Proof.
  induction n as [|n IH]; intros s; cbn [seq map]; constructor; [apply IH|]. rewrite Forall_map, Forall_forall. intros i Hi. apply in_seq in Hi. cbn [fst snd]. lia.
Qed.
Lemma big_vector N : Z.of_nat N = 2 ^ 32 - 2 ->
  let l : list triple := map (fun i => (0, Z.of_nat i, 1)) (seq 0 N) in
  triples_ok l /\ In (0, 2 ^ 32 - 3, 1) l /\ GetCount (CreatePackedArray (map node_of l)) (2 ^ 32 - 3) 0 = Ret (0, no_offset).
Proof.
  intros HN l. assert (triples_ok l) as Hok.
  { split; [apply seq_sorted|]. unfold l. rewrite Forall_map, Forall_forall. intros i Hi. apply in_seq in Hi. unfold is_u32. cbn [fst snd]. lia. }
  assert (nth_error l (N - 1) = Some (0, 2 ^ 32 - 3, 1)) as Hn.
  { unfold l. rewrite nth_error_map. rewrite (nth_error_nth' _ O) by (rewrite seq_length; lia). rewrite seq_nth by lia. cbn [option_map]. do 3 f_equal. lia. }
  split; [exact Hok|]. split; [eapply nth_error_In; exact Hn|].
  assert (zlen l = 2 ^ 32 - 2) as Hz by (unfold zlen, l; rewrite map_length, seq_length; exact HN).
  destruct (nth_error_split l _ Hn) as (l1 & l2 & El & Hl1).
  assert (is_u32 0) as H0 by (unfold is_u32; lia). assert (is_u32 (2 ^ 32 - 3)) as H3 by (unfold is_u32; lia).
  pose proof (triples_nodes l Hok ltac:(lia)) as Hnok.
  assert (map node_of l = map node_of l1 ++ (Pack 0 (2 ^ 32 - 3), 1) :: map node_of l2) as E.
  { rewrite El, map_app. cbn [map]. rewrite (node_pack (0, 2 ^ 32 - 3, 1)) by assumption. reflexivity. }
  destruct (find_node _ _ _ 0 (2 ^ 32 - 3) 1 Hnok H0 H3 E) as [Ef _]. rewrite getcount_find, Ef. cbn [bind].
  assert (zlen (map node_of l1) = 2 ^ 32 - 3) as -> by (rewrite zlen_map; unfold zlen; lia). reflexivity.
Qed.
Theorem C48_lookup_refuted :
  (exists l c w n, triples_ok l /\ In (c, w, n) l /\ 0 < n /\ GetCount (CreatePackedArray (map node_of l)) w c = Ret (0, no_offset))
  /\ (exists l sub, triples_ok l /\ SubVector (CreatePackedArray (map node_of l)) 0 = Ret (Some sub)
        /\ GetCount sub 4 1 = Ret (7, 2) /\ GetCount (CreatePackedArray (map node_of l)) 4 1 = Ret (0, no_offset)).
Proof.
  split.
  - destruct (big_vector (Z.to_nat (2 ^ 32 - 2))) as (H1 & H2 & H3); [rewrite Z2Nat.id by lia; reflexivity|].
    eexists _, 0, (2 ^ 32 - 3), 1. split; [exact H1|]. split; [exact H2|]. split; [lia|exact H3].
  - exists [(0, 5, 1); (1, 3, 2); (2, 4, 7)]. exists (mkPA [0; 2 ^ 32 + 1] [5 * 2 ^ 32 + 1; 3 * 2 ^ 32 + 2; 4 * 2 ^ 32 + 7] 10). split.
    { split; [repeat (apply SSorted_cons; [|repeat (apply Forall_cons; [cbn; lia|]); apply Forall_nil]); apply SSorted_nil|repeat (apply Forall_cons; [unfold is_u32; cbn [fst snd]; lia|]); apply Forall_nil]. }
    split; [vm_compute; reflexivity|]. split; [|vm_compute; reflexivity].
    (* the values from position 1 on are words 3, 4: ascending by luck, so 4 is found *)
    vm_compute. reflexivity.
Qed.
Print Assumptions C48_lookup_refuted.

(** ** C49 *)
(** The count of an n-gram as a uint32. *)
Definition count32 (files : list ngfile) (g : list Z) : Z := count_of files g mod 2 ^ 32.
(** What a model read from files sees of an n-gram: the corpus size, then the counts of its
    prefixes, up to the model's order. *)
Definition seen_counts (files : list ngfile) (g : list Z) : list Z :=
  count_all (nth 0 files []) mod 2 ^ 32 :: map (fun i => count32 files (firstn i g)) (seq 1 (Nat.min (length files) (length g))).
Lemma seen_eq files g : seen_counts files g = wrap32 (count_all (nth 0 files [])) :: spec_counts files (firstn (length files) g).
Proof.
  unfold seen_counts, spec_counts. f_equal. rewrite firstn_length. apply map_ext_in. intros i Hi. apply in_seq in Hi. unfold count32, wrap32. do 2 f_equal. rewrite firstn_firstn. f_equal. lia.
Qed.
Definition model_files (files : list ngfile) : Prop := files_ok files /\ prefix_closed files /\ (1 <= length files <= 255)%nat.

Theorem C49_counts_partial : forall files, model_files files ->
  exists ixs, read_vectors [] files = Ret ixs /\ nGramOrder (NewNGramModel ixs) = zlen files
  /\ forall g, g <> [] -> Forall is_u32 g -> Score_counts (NewNGramModel ixs) g = Ret (seen_counts files g).
Proof.
  intros files (H1 & H2 & H3). destruct (read_ok files H1 H2) as (ixs & off & E & HI). exists ixs. split; [exact E|]. split; [exact (order_eq _ _ _ HI H3)|].
  intros g Hg Hu. rewrite (counts_ok _ _ _ HI H3 g Hg Hu), seen_eq. reflexivity.
Qed.
Print Assumptions C49_counts_partial.

(** words: 1 = a, 2 = b, 3 = c *)
Definition files1 : list ngfile := [[([1], 3); ([2], 1)]; [([1; 1], 1); ([1; 2], 2)]; [([1; 1; 2], 1)]].
Ltac files_tac :=
  let k := fresh "k" in let f := fresh "f" in let H := fresh "H" in
  intros k f H; repeat (destruct k as [|k]; [injection H as <-; split;
    [let Hin := fresh in intros ? ? Hin; cbn [In] in Hin;
     repeat (destruct Hin as [Hin|Hin]; [injection Hin as <- <-; split; [reflexivity|]; split;
       [repeat (apply Forall_cons; [unfold is_u32; lia|]); apply Forall_nil|unfold is_u32; lia]|]); destruct Hin
    |vm_compute; discriminate]|]); destruct k; discriminate H.
Lemma closed_by files : (forall k f f', nth_error files k = Some f -> nth_error files (S k) = Some f' -> Forall (fun l => In (removelast (fst l)) (map fst f)) f') -> prefix_closed files.
Proof.
  intros H k f f' E E' g w c Hin. specialize (H k f f' E E'). rewrite Forall_forall in H. specialize (H _ Hin). cbn [fst] in H. rewrite removelast_last in H. exact H.
Qed.
Lemma files1_ok : model_files files1.
Proof.
  split; [|split].
  - files_tac.
  - apply closed_by. intros k f f' H H'. destruct k as [|[|[|k]]]; cbn [nth_error files1] in H, H'; try discriminate; try (injection H as <-; injection H' as <-; repeat (apply Forall_cons; [cbn; tauto|]); apply Forall_nil).
  - cbn. lia.
Qed.
Example C49_nonvacuous : model_files files1 /\ seen_counts files1 [1; 2; 3; 4] = [4; 3; 2; 0].
Proof. split; [exact files1_ok|reflexivity]. Qed.

(** Without the prefixes: the bigram (3, 2), whose prefix 3 is no unigram, is found for
    every unknown first word. *)
Definition files2 : list ngfile := [[([1], 3)]; [([3; 2], 5)]].
Theorem C49_counts_refuted : exists files ixs, files_ok files /\ read_vectors [] files = Ret ixs
  /\ count_of files [4; 2] = 0 /\ Score_counts (NewNGramModel ixs) [4; 2] = Ret [3; 0; 5].
Proof.
  exists files2. eexists. split; [files_tac|]. split; [vm_compute; reflexivity|]. split; [reflexivity|vm_compute; reflexivity].
Qed.
Print Assumptions C49_counts_refuted.

(** ** C50 *)
Lemma exists_zero files g : existsb (Z.eqb 0) (spec_counts files g) = true <-> exists i, (1 <= i <= length g)%nat /\ count32 files (firstn i g) = 0.
Proof.
  unfold spec_counts. rewrite existsb_exists. setoid_rewrite in_map_iff. setoid_rewrite in_seq. split.
  - intros (x & (i & E & Hi) & Hx). exists i. split; [lia|]. unfold count32. fold (wrap32 (count_of files (firstn i g))). lia.
  - intros (i & Hi & E). exists 0. split; [|reflexivity]. exists i. split; [exact E|lia].
Qed.
Definition seen_context (files : list ngfile) (ctx : list Z) : Prop :=
  (forall i, (1 <= i <= length ctx)%nat -> count32 files (firstn i ctx) <> 0)
  /\ exists w c, In (ctx ++ [w], c) (nth (length ctx) files []).
Lemma seen_dec files ctx : {seen_context files ctx} + {~ seen_context files ctx}.
Proof.
  unfold seen_context.
  assert ({forall i, (1 <= i <= length ctx)%nat -> count32 files (firstn i ctx) <> 0} + {exists i, (1 <= i <= length ctx)%nat /\ count32 files (firstn i ctx) = 0}) as [H1|H1].
  { destruct (existsb (Z.eqb 0) (spec_counts files ctx)) eqn:E; [right; apply exists_zero; exact E|left; intros i Hi E'].
    assert (existsb (Z.eqb 0) (spec_counts files ctx) = true) by (apply exists_zero; eauto). congruence. }
  - assert ({exists w c, In (ctx ++ [w], c) (nth (length ctx) files [])} + {~ exists w c, In (ctx ++ [w], c) (nth (length ctx) files [])}) as [H2|H2]; [|left; auto|right; tauto].
    generalize (nth (length ctx) files []) as f. induction f as [|[g c] f [IH|IH]].
    + right. intros (w & c & []).
    + left. destruct IH as (w & c' & IH). exists w, c'. right. exact IH.
    + destruct (list_eq_dec Z.eq_dec (removelast g) ctx) as [Hr|Hr].
      * destruct g as [|x g].
        -- right. intros (w & c' & [E|H]); [destruct ctx; discriminate|apply IH; eauto].
        -- left. exists (last (x :: g) 0), c. left. f_equal. rewrite <- Hr. apply app_removelast_last. discriminate.
      * right. intros (w & c' & [E|H]); [injection E as -> ->; apply Hr; apply removelast_last|apply IH; eauto].
  - right. intros [H _]. destruct H1 as (i & Hi & E). exact (H i Hi E).
Qed.
Lemma spec_counts_last files p : p <> [] -> exists xs, spec_counts files p = xs ++ [wrap32 (count_of files p)].
Proof. intros Hp. destruct (exists_last Hp) as (q & w & ->). exists (spec_counts files q). apply spec_counts_snoc. Qed.
Lemma firstn_ge {A} n (l : list A) : (length l <= n)%nat -> firstn n l = l.
Proof. apply firstn_all2. Qed.

(** Contexts from one word up to one fewer than the order: a scorer is given iff every
    prefix of the context has a count and some n-gram of the files continues it; it then
    scores a word as the whole model scores the extended n-gram if that one has a count,
    as unknown otherwise.  Other lengths are an error. *)
Theorem C50_next_partial : forall flog files ixs, model_files files -> read_vectors [] files = Ret ixs ->
  let m := NewNGramModel ixs in
  forall ctx, Forall is_u32 ctx ->
  ((1 <= length ctx < length files)%nat ->
     (seen_context files ctx -> exists s, Next m ctx = Ret (Some s) /\
        forall w, is_u32 w -> ScoreNext flog s w = if count32 files (ctx ++ [w]) =? 0 then Ret UnknownWordScore else Score flog m (ctx ++ [w]))
     /\ (~ seen_context files ctx -> Next m ctx = Ret None))
  /\ ((length ctx = 0 \/ length files <= length ctx)%nat -> exists e, Next m ctx = Fail e).
Proof.
  intros flog files ixs (H1 & H2 & H3) Er m ctx Hu. destruct (read_ok files H1 H2) as (ixs' & off & E & HI). rewrite Er in E. injection E as <-. split.
  - intros Hlen.
    assert (Next m ctx = (v <- index ixs (zlen ctx) ;; sub <- SubVector v (off ctx) ;; Ret (option_map (fun s => mkScorer (spec_counts files ctx) (off ctx) s) sub))
            \/ Next m ctx = Ret None /\ exists i, (1 <= i <= length ctx)%nat /\ count32 files (firstn i ctx) = 0) as Hnext.
    { unfold Next, m. rewrite (order_eq _ _ _ HI H3). destruct ((zlen files <=? zlen ctx) || (zlen ctx =? 0)) eqn:Eg; [unfold zlen in Eg; lia|]. cbn [indices NewNGramModel].
      rewrite (next_walk ixs ctx _ _ _ (i_walk _ _ _ HI ctx ltac:(lia) Hu)). cbn [bind].
      destruct (existsb (Z.eqb 0) (spec_counts files ctx)) eqn:Ez; [right; split; [reflexivity|apply exists_zero; exact Ez]|left; reflexivity]. }
    assert (forall i, (1 <= i <= length ctx)%nat -> count32 files (firstn i ctx) <> 0 -> present files (firstn i ctx)) as Hpres.
    { intros i Hi Hc. destruct (present_dec files (firstn i ctx)) as [H|H]; [exact H|]. exfalso. apply Hc. unfold count32. rewrite (count_absent files H3 (firstn i ctx)); [reflexivity|rewrite firstn_length; lia|exact H]. }
    destruct (nth_error ixs (length ctx)) as [v|] eqn:Ev; [|apply nth_error_None in Ev; rewrite (i_len _ _ _ HI) in Ev; lia].
    assert (index ixs (zlen ctx) = Ret v) as Eix.
    { unfold index. rewrite (nth_error_nth' ixs v) in Ev by (rewrite (i_len _ _ _ HI); lia).
      destruct ((0 <=? zlen ctx) && (zlen ctx <? zlen ixs)) eqn:Eb; [|unfold zlen in Eb; rewrite (i_len _ _ _ HI) in Eb; lia].
      replace (Z.to_nat (zlen ctx)) with (length ctx) by (unfold zlen; lia). rewrite (nth_error_nth' ixs v) by (rewrite (i_len _ _ _ HI); lia). injection Ev as ->. reflexivity. }
    split.
    + intros (Hc & w0 & c0 & Hin0).
      destruct Hnext as [Hnext|(_ & i & Hi & Ei)]; [|destruct (Hc i Hi Ei)]. rewrite Hnext, Eix. cbn [bind].
      assert (present files ctx) as Hpc by (specialize (Hpres (length ctx) ltac:(lia)); rewrite firstn_all in Hpres; apply Hpres; specialize (Hc (length ctx) ltac:(lia)); rewrite firstn_all in Hc; exact Hc).
      assert (present files (ctx ++ [w0])) as Hpw.
      { unfold present. rewrite app_length. cbn [length]. rewrite Nat.add_1_r. apply in_map_iff. exists (ctx ++ [w0], c0). auto. }
      assert (is_u32 w0) as Hw0.
      { destruct (H1 (length ctx) (nth (length ctx) files [])) as [Hl _]; [apply nth_error_nth'; lia|]. destruct (Hl _ _ Hin0) as (_ & Hf & _). apply Forall_app in Hf. destruct Hf as [_ Hf]. inversion Hf; assumption. }
      destruct (proj1 (sub_ok _ _ _ HI H2 H3 ctx v ltac:(lia) Hu Hpc Ev)) as (sub & Es & Hsub); [exists w0; auto|]. rewrite Es. cbn [bind option_map]. eexists. split; [reflexivity|].
      intros w Hw. unfold ScoreNext. cbn [nGramVector s_context contextCounts]. rewrite Hsub. destruct (vec_get _ _ _ HI H3 ctx w) as (v' & Ev' & Eg'); [lia|exact Hu|exact Hw|]. rewrite Ev in Ev'. injection Ev' as <-. rewrite Eg'. cbn [bind].
      unfold count32. fold (wrap32 (count_of files (ctx ++ [w]))). destruct (wrap32 (count_of files (ctx ++ [w])) =? 0) eqn:Ew; [reflexivity|].
      unfold Score. rewrite (counts_ok _ _ _ HI H3); [|intros Hz; destruct ctx; discriminate|apply Forall_app; split; [exact Hu|constructor; [exact Hw|constructor]]]. cbn [bind].
      rewrite (firstn_ge (length files)) by (rewrite app_length; cbn [length]; lia). rewrite spec_counts_snoc.
      destruct (spec_counts_last files ctx) as (xs & ->); [destruct ctx; [cbn in Hlen; lia|discriminate]|].
      assert (0 < wrap32 (count_of files (ctx ++ [w]))) as Hpos by (unfold wrap32 in *; pose proof (Z.mod_pos_bound (count_of files (ctx ++ [w])) (2 ^ 32)); lia).
      rewrite <- !app_assoc. cbn [app]. rewrite calc_last by exact Hpos. rewrite app_comm_cons, calc_last by exact Hpos. reflexivity.
    + intros Hns. destruct Hnext as [Hnext|[Hnext _]]; [|exact Hnext]. destruct (existsb (Z.eqb 0) (spec_counts files ctx)) eqn:Ez.
      { unfold Next, m. rewrite (order_eq _ _ _ HI H3). destruct ((zlen files <=? zlen ctx) || (zlen ctx =? 0)) eqn:Eg; [unfold zlen in Eg; lia|]. cbn [indices NewNGramModel].
        rewrite (next_walk ixs ctx _ _ _ (i_walk _ _ _ HI ctx ltac:(lia) Hu)). cbn [bind]. rewrite Ez. reflexivity. }
      assert (forall i, (1 <= i <= length ctx)%nat -> count32 files (firstn i ctx) <> 0) as Hc.
      { intros i Hi E'. assert (existsb (Z.eqb 0) (spec_counts files ctx) = true) by (apply exists_zero; eauto). congruence. }
      assert (present files ctx) as Hpc by (specialize (Hpres (length ctx) ltac:(lia)); rewrite firstn_all in Hpres; apply Hpres; specialize (Hc (length ctx) ltac:(lia)); rewrite firstn_all in Hc; exact Hc).
      rewrite Hnext, Eix. cbn [bind]. rewrite (proj2 (sub_ok _ _ _ HI H2 H3 ctx v ltac:(lia) Hu Hpc Ev)); [reflexivity|].
      intros w Hw Hp. apply Hns. split; [exact Hc|]. unfold present in Hp. rewrite app_length in Hp. cbn [length] in Hp. rewrite Nat.add_1_r in Hp. apply in_map_iff in Hp. destruct Hp as ([g c] & Eg & Hin). cbn [fst] in Eg. subst g. eauto.
  - intros Hlen. unfold Next, m. rewrite (order_eq _ _ _ HI H3). destruct ((zlen files <=? zlen ctx) || (zlen ctx =? 0)) eqn:Eg; [eexists; reflexivity|unfold zlen in Eg; lia].
Qed.
Print Assumptions C50_next_partial.
Example C50_nonvacuous : model_files files1 /\ seen_context files1 [1; 1] /\ count32 files1 [1; 1; 2] <> 0 /\ ~ seen_context files1 [2]
  /\ exists ixs, read_vectors [] files1 = Ret ixs.
Proof.
  split; [exact files1_ok|]. split; [|split; [|split]].
  - split; [|exists 2, 1; cbn; auto]. intros i Hi. destruct i as [|[|[|i]]]; cbn in Hi; try lia; vm_compute; discriminate.
  - vm_compute. discriminate.
  - intros [_ (w & c & H)]. cbn in H. destruct H as [H|[H|[]]]; discriminate H.
  - eexists. vm_compute. reflexivity.
Qed.

(** ** C51 *)
(** Sequences of at least order-1 words other than order: the last order-1 words decide.
    Shorter ones: the start symbol is put in front.  Sequences of exactly order words: the
    first order-1 words decide. *)
Theorem C51_recent_partial : forall m n st en seq, 2 <= n <= 255 ->
  let lm := mkLM m n st en in
  (n - 1 <= zlen seq -> zlen seq <> n -> exists old recent, seq = old ++ recent /\ zlen recent = n - 1 /\ LMNext lm seq = Next m recent)
  /\ (zlen seq < n - 1 -> LMNext lm seq = Next m (st :: seq))
  /\ (zlen seq = n -> exists first w, seq = first ++ [w] /\ LMNext lm seq = Next m first).
Proof.
  intros m n st en seq Hn lm. unfold LMNext, lm_context, lm. cbn [lm_order lm_start lm_model]. split; [|split].
  - intros H1 H2. destruct (zlen seq + 1 <? n) eqn:E1; [lia|]. destruct (n <? zlen seq) eqn:E2.
    + exists (firstn (Z.to_nat (zlen seq - n + 1)) seq), (skipn (Z.to_nat (zlen seq - n + 1)) seq). split; [symmetry; apply firstn_skipn|]. split.
      * unfold zlen in *. rewrite skipn_length. lia.
      * unfold slice. destruct ((0 <=? zlen seq - n + 1) && (zlen seq - n + 1 <=? zlen seq) && (zlen seq <=? zlen seq)) eqn:E3; [|lia]. cbn [bind]. f_equal. apply firstn_all2. rewrite skipn_length. unfold zlen. lia.
    + destruct (zlen seq =? n) eqn:E3; [lia|]. exists [], seq. split; [reflexivity|]. split; [lia|reflexivity].
  - intros H1. destruct (zlen seq + 1 <? n) eqn:E1; [reflexivity|lia].
  - intros H1. destruct (zlen seq + 1 <? n) eqn:E1; [lia|]. destruct (n <? zlen seq) eqn:E2; [lia|]. destruct (zlen seq =? n) eqn:E3; [|lia].
    destruct (@exists_last _ seq) as (first & w & ->); [intros ->; change (zlen (@nil Z)) with 0 in *; lia|]. exists first, w. split; [reflexivity|].
    rewrite zlen_app, zlen_cons in H1. change (zlen (@nil Z)) with 0 in H1.
    assert (slice (first ++ [w]) 0 (n - 1) = Ret first) as ->; [|reflexivity]. unfold slice. rewrite zlen_app, zlen_cons. change (zlen (@nil Z)) with 0.
    pose proof (zlen_nonneg first). destruct ((0 <=? 0) && (0 <=? n - 1) && (n - 1 <=? zlen first + (1 + 0))) eqn:E4; [|lia].
    f_equal. change (Z.to_nat 0) with O. cbn [skipn]. replace (Z.to_nat (n - 1 - 0)) with (length first + 0)%nat by (unfold zlen in *; lia). rewrite firstn_app_2. apply app_nil_r.
Qed.
Print Assumptions C51_recent_partial.
Example C51_nonvacuous : 2 <= 3 <= 255 /\ 3 - 1 <= zlen [1; 2; 3; 4] /\ zlen [1; 2; 3; 4] <> 3.
Proof. repeat split; vm_compute; congruence. Qed.

(** A bigram model in which only "a" has continuations.  After "b a", order many words, it
    knows none; after "x b a", it does. *)
Definition files3 : list ngfile := [[([1], 3); ([2], 1)]; [([1; 2], 2)]].
Theorem C51_recent_refuted : exists ixs, model_files files3 /\ read_vectors [] files3 = Ret ixs /\
  let lm := mkLM (NewNGramModel ixs) 2 8 9 in
  LMNext lm [2; 1] = Ret None /\ (exists s, LMNext lm [1; 2; 1] = Ret (Some s)) /\ (exists s, LMNext lm [1] = Ret (Some s)).
Proof.
  eexists. split; [|split; [vm_compute; reflexivity|]].
  - split; [files_tac|]. split; [|cbn; lia]. apply closed_by. intros k f f' H H'. destruct k as [|[|k]]; cbn [nth_error files3] in H, H'; try discriminate; try (injection H as <-; injection H' as <-; repeat (apply Forall_cons; [cbn; tauto|]); apply Forall_nil).
    all: destruct k; discriminate.
  - split; [vm_compute; reflexivity|]. split; eexists; vm_compute; reflexivity.
Qed.
Print Assumptions C51_recent_refuted.

(** ** C63 *)
(** The number of 0.4 factors, as the program multiplies them. *)
Definition discount (k : nat) : f64 := Nat.iter k (fun x => fmul x alpha) (of_int 1).
(** The prefix of j words is the longest one, within the order, with a count: the score is
    the logarithm of its relative frequency to the next shorter prefix (the corpus for one
    word), with one discount per dropped word; no such prefix: the unknown-word score. *)
Theorem C63_score_partial : forall flog files ixs, model_files files -> read_vectors [] files = Ret ixs ->
  let m := NewNGramModel ixs in
  forall g, g <> [] -> Forall is_u32 g ->
  let n := Nat.min (length files) (length g) in
  (forall j, (1 <= j <= n)%nat -> count32 files (firstn j g) <> 0 -> (forall i, (j < i <= n)%nat -> count32 files (firstn i g) = 0) ->
     Score flog m g = Ret (flog (fdiv (fmul (discount (n - j)) (of_int (count32 files (firstn j g))))
       (of_int (if (j =? 1)%nat then count_all (nth 0 files []) mod 2 ^ 32 else count32 files (firstn (j - 1) g))))))
  /\ ((forall i, (1 <= i <= n)%nat -> count32 files (firstn i g) = 0) -> Score flog m g = Ret UnknownWordScore).
Proof.
  intros flog files ixs Hm Er m g Hg Hu n. destruct (C49_counts_partial files Hm) as (ixs' & E & _ & Hsc). rewrite Er in E. injection E as <-. unfold Score, m. rewrite (Hsc g Hg Hu). cbn [bind]. clear Hsc. unfold seen_counts. fold n.
  assert (forall a b, (forall i, (a <= i < a + b)%nat -> count32 files (firstn i g) = 0) -> Forall (fun z => z = 0) (map (fun i => count32 files (firstn i g)) (seq a b))) as Hz.
  { intros a b H. apply Forall_forall. intros x Hx. apply in_map_iff in Hx. destruct Hx as (i & <- & Hi). apply in_seq in Hi. apply H. lia. }
  split.
  - intros j Hj Hc Hzero. replace n with ((j - 1) + (1 + (n - j)))%nat at 1 by lia. rewrite !seq_app, !map_app. cbn [seq map].
    replace (1 + (j - 1))%nat with j by lia. replace (j + 1)%nat with (S j) by lia.
    assert (0 < count32 files (firstn j g)) as Hpos by (unfold count32 in *; pose proof (Z.mod_pos_bound (count_of files (firstn j g)) (2 ^ 32)); lia).
    unfold discount. destruct (Nat.eqb_spec j 1) as [->|Hj1].
    + change (seq 1 (1 - 1)) with (@nil nat). cbn [map app]. rewrite <- (map_length (fun i => count32 files (firstn i g)) (seq 2 (n - 1))) at 2 || idtac.
      pose proof (calc_backoff flog [] (count_all (nth 0 files []) mod 2 ^ 32) (count32 files (firstn 1 g)) (map (fun i => count32 files (firstn i g)) (seq 2 (n - 1))) Hpos) as Hb.
      rewrite map_length, seq_length in Hb. apply Hb. apply Hz. intros i Hi. apply Hzero. lia.
    + replace (j - 1)%nat with ((j - 2) + 1)%nat at 1 by lia. rewrite seq_app, map_app. cbn [seq map]. replace (1 + (j - 2))%nat with (j - 1)%nat by lia.
      pose proof (calc_backoff flog (count_all (nth 0 files []) mod 2 ^ 32 :: map (fun i => count32 files (firstn i g)) (seq 1 (j - 2))) (count32 files (firstn (j - 1) g)) (count32 files (firstn j g)) (map (fun i => count32 files (firstn i g)) (seq (S j) (n - j))) Hpos) as Hb.
      rewrite map_length, seq_length in Hb. rewrite <- Hb by (apply Hz; intros i Hi; apply Hzero; lia). f_equal. cbn [app]. rewrite <- !app_assoc. reflexivity.
  - intros Hzero. apply calc_none. apply Hz. intros i Hi. apply Hzero. lia.
Qed.
Print Assumptions C63_score_partial.
Example C63_nonvacuous : model_files files1 /\ count32 files1 (firstn 1 [1; 3; 2]) <> 0
  /\ (forall i, (1 < i <= 3)%nat -> count32 files1 (firstn i [1; 3; 2]) = 0)
  /\ (forall i, (1 <= i <= 3)%nat -> count32 files1 (firstn i [3; 1; 2]) = 0).
Proof.
  split; [exact files1_ok|]. split; [vm_compute; discriminate|]. split; intros i Hi; destruct i as [|[|[|[|i]]]]; try lia; reflexivity.
Qed.
(** It is not the longest seen suffix: the unseen bigram (b, a) of files3 has the seen suffix
    a, 3 of 4 words, and is scored with the prefix b, 1 of 4. *)
Theorem C63_suffix_refuted : exists ixs, model_files files3 /\ read_vectors [] files3 = Ret ixs /\
  let m := NewNGramModel ixs in
  let of_suffix := fdiv (fmul (fmul (of_int 1) alpha) (of_int 3)) (of_int 4) in
  let of_prefix := fdiv (fmul (fmul (of_int 1) alpha) (of_int 1)) (of_int 4) in
  count_of files3 [2; 1] = 0 /\ count_of files3 [1] = 3 /\ count_all (nth 0 files3 []) = 4 /\
  (forall flog, Score flog m [2; 1] = Ret (flog of_prefix)) /\ flt of_prefix of_suffix = true.
Proof.
  destruct C51_recent_refuted as (ixs & H1 & H2 & _). exists ixs. split; [exact H1|]. split; [exact H2|].
  split; [reflexivity|]. split; [reflexivity|]. split; [reflexivity|]. split; [|vm_compute; reflexivity]. intros flog.
  assert (Forall is_u32 [2; 1]) as Hu by (repeat (apply Forall_cons; [unfold is_u32; lia|]); apply Forall_nil).
  destruct (C63_score_partial flog files3 ixs H1 H2 [2; 1] ltac:(discriminate) Hu) as [Hs _].
  apply (Hs 1%nat); [cbn; lia|vm_compute; discriminate|]. intros i Hi. destruct i as [|[|[|i]]]; cbn in Hi; try lia. reflexivity.
Qed.
Print Assumptions C63_suffix_refuted.

(** ** C67 Sentence score *)
(** [gs]: the runs of n consecutive words of s, in order. *)
Definition runs_of (n : Z) (s : list Z) (gs : list (list Z)) : Prop :=
  Z.of_nat (length gs) = Z.max 0 (zlen s - n + 1)
  /\ forall i g, nth_error gs i = Some g -> exists before after, s = before ++ g ++ after /\ length before = i /\ zlen g = n.
Lemma split_runs s n : 0 <= n -> runs_of n s (splitIntoNGrams s n).
Proof.
  intros Hn. unfold splitIntoNGrams. destruct (zlen s <? n) eqn:E; [split; [cbn [length]; lia|intros [|i] g H; discriminate]|]. split; [rewrite map_length, seq_length; lia|].
  intros i g H. assert (i < length (map (fun i => firstn (Z.to_nat n) (skipn i s)) (seq 0 (Z.to_nat (zlen s - n + 1)))))%nat as Hi by (apply nth_error_Some; rewrite H; discriminate).
  rewrite map_length, seq_length in Hi. rewrite nth_error_map, (nth_error_nth' _ O) in H by (rewrite seq_length; exact Hi). rewrite seq_nth in H by exact Hi. cbn [option_map] in H. rewrite Nat.add_0_l in H. injection H as <-.
  exists (firstn i s), (skipn (Z.to_nat n) (skipn i s)). rewrite firstn_skipn, firstn_skipn. split; [reflexivity|]. unfold zlen in *. rewrite !firstn_length, skipn_length. lia.
Qed.
Lemma score_fold flog m gs : forall xs acc, Forall2 (fun g x => Score flog m g = Ret x) gs xs ->
  fold_left (fun acc g => score <- acc ;; x <- Score flog m g ;; Ret (fadd score x)) gs (Ret acc) = Ret (fold_left fadd xs acc).
Proof. induction gs as [|g gs IH]; intros xs acc H; inversion H as [|? x ? xs' H1 H2]; subst; cbn [fold_left]; [reflexivity|]. cbn [bind]. rewrite H1. cbn [bind]. apply IH. exact H2. Qed.
Lemma score_total flog files ixs g : model_files files -> read_vectors [] files = Ret ixs -> g <> [] -> Forall is_u32 g -> exists x, Score flog (NewNGramModel ixs) g = Ret x.
Proof.
  intros Hm Er Hg Hu. destruct (C63_score_partial flog files ixs Hm Er g Hg Hu) as [H1 H2]. set (n := Nat.min (length files) (length g)) in *. clearbody n.
  assert ((forall i, (1 <= i <= n)%nat -> count32 files (firstn i g) = 0) \/ exists j, (1 <= j <= n)%nat /\ count32 files (firstn j g) <> 0 /\ forall i, (j < i <= n)%nat -> count32 files (firstn i g) = 0) as [Hz|(j & Hj & Hc & Hz)].
  { clear. induction n as [|n [IH|(j & Hj & Hc & Hz)]]; [left; intros i Hi; lia| |].
    - destruct (Z.eq_dec (count32 files (firstn (S n) g)) 0) as [E|E]; [left; intros i Hi; destruct (Nat.eq_dec i (S n)) as [->|]; [exact E|apply IH; lia]|].
      right. exists (S n). split; [lia|]. split; [exact E|intros i Hi; lia].
    - destruct (Z.eq_dec (count32 files (firstn (S n) g)) 0) as [E|E]; right.
      + exists j. split; [lia|]. split; [exact Hc|]. intros i Hi. destruct (Nat.eq_dec i (S n)) as [->|]; [exact E|apply Hz; lia].
      + exists (S n). split; [lia|]. split; [exact E|intros i Hi; lia]. }
  - eexists. apply H2. exact Hz.
  - eexists. apply (H1 j Hj Hc Hz).
Qed.
(** The score of a sequence of words is the sum, from left to right, of the model's scores
    of all runs of order many words of the sequence between the start and end symbols. *)
Theorem C67_sentence_score : forall flog files ixs n st en seq, model_files files -> read_vectors [] files = Ret ixs ->
  1 <= n -> Forall is_u32 (st :: seq ++ [en]) ->
  let lm := mkLM (NewNGramModel ixs) n st en in
  exists gs xs, runs_of n (st :: seq ++ [en]) gs /\ Forall2 (fun g x => Score flog (NewNGramModel ixs) g = Ret x) gs xs
    /\ ScoreWordIDs flog lm seq = Ret (fold_left fadd xs (of_int 0)).
Proof.
  intros flog files ixs n st en seq Hm Er Hn Hu lm. set (s := st :: seq ++ [en]) in *. pose proof (split_runs s n ltac:(lia)) as Hr. exists (splitIntoNGrams s n).
  assert (exists xs, Forall2 (fun g x => Score flog (NewNGramModel ixs) g = Ret x) (splitIntoNGrams s n) xs) as (xs & Hxs).
  { destruct Hr as [_ Hr]. revert Hr. generalize (splitIntoNGrams s n) as gs. intros gs Hr.
    assert (forall g, In g gs -> g <> [] /\ Forall is_u32 g) as Hgs.
    { intros g Hin. apply In_nth_error in Hin. destruct Hin as [i Hi]. destruct (Hr i g Hi) as (b & a & E & _ & Hl). split; [intros ->; change (zlen (@nil Z)) with 0 in Hl; lia|]. rewrite E in Hu. apply Forall_app in Hu. destruct Hu as [_ Hu]. apply Forall_app in Hu. tauto. }
    clear Hr. induction gs as [|g gs IH]; [exists []; constructor|]. destruct IH as (xs & IH); [intros g' Hg'; apply Hgs; right; exact Hg'|].
    destruct (Hgs g (or_introl eq_refl)) as [Hg Hgu]. destruct (score_total flog files ixs g Hm Er Hg Hgu) as (x & Hx). exists (x :: xs). constructor; assumption. }
  exists xs. split; [exact Hr|]. split; [exact Hxs|]. unfold ScoreWordIDs, lm. cbn [lm_model lm_start lm_end lm_order]. fold s. apply score_fold. exact Hxs.
Qed.
Print Assumptions C67_sentence_score.
(** With fewer than order-2 words there is no run: every such sentence has score 0, more
    than any sentence with an unseen word. *)
Theorem C67_short_refuted : forall flog m n st en seq, zlen seq + 2 < n -> ScoreWordIDs flog (mkLM m n st en) seq = Ret (of_int 0).
Proof.
  intros flog m n st en seq H. unfold ScoreWordIDs. cbn [lm_start lm_end lm_order lm_model]. unfold splitIntoNGrams.
  rewrite zlen_cons, zlen_app, zlen_cons. change (zlen (@nil Z)) with 0. destruct (1 + (zlen seq + (1 + 0)) <? n) eqn:E; [reflexivity|lia].
Qed.
Print Assumptions C67_short_refuted.
Example C67_nonvacuous : model_files files1 /\ (exists ixs, read_vectors [] files1 = Ret ixs) /\ Forall is_u32 (1 :: [2; 3] ++ [2])
  /\ runs_of 3 (1 :: [2; 3] ++ [2]) [[1; 2; 3]; [2; 3; 2]].
Proof.
  split; [exact files1_ok|]. split; [eexists; vm_compute; reflexivity|]. split; [repeat (apply Forall_cons; [unfold is_u32; lia|]); apply Forall_nil|].
  apply (split_runs (1 :: [2; 3] ++ [2]) 3). lia.
Qed.
