(** Proofs about the language model's Autocomplete for entries and queries whose n-grams may
    repeat: every schedule. *)
From Coq Require Import ZifyBool Permutation Sorted Lia.
From Verif Require Import Base BaseLemmas GoMap Store Postings PostingsSpec Merger MergerSpec MergerProofs MergerProofs2 MergerAnySpec MergerAny P_MergerLemmas Index IndexSpec IndexProofs P_IndexLemmas SearchAny
  Float64 Heap HeapProofs TopK TopKSpec TopKProofs Suggest SuggestSpec SuggestAnySpec SuggestProofs P_SuggestLemmas Autocomplete AutocompleteSpec AutocompleteProofs AutocompleteAnySpec AutocompleteAny NGram Spell SpellSpec SpellProofs.
Local Open Scope Z_scope.

Lemma get_range (ix : list (option inverted)) x : IndicesGet ix x <> None -> 0 <= x < zlen ix.
Proof. unfold IndicesGet. destruct ((x >=? 0) && (x <? zlen ix)) eqn:E; [intros _; lia|]. congruence. Qed.

Section A.
Context (rb : roaring) (srt : list iter -> list iter).
Context (ix : list (option inverted)) (terms : list term) (score : Z -> res f64) (sc : Z -> f64) (k : Z) (F : Z -> list Z).
Notation n := (zlen terms).
Context (Hn : 0 <= n < 2 ^ 32) (Hk : 1 <= k).
Definition cc (x : Z) : cand := mkCand x (sc x).
Definition PF (b : Z) : list cand := map cc (F b).
Context (HF : forall b iv, IndicesGet ix b = Some iv -> exists q, lsearch rb srt terms score k iv = Ret q /\ Inv q k (PF b)).

(** ** invariant *)
Definition wsize (w : lwst) : Z := match w with LSearch b | LLock b _ | LCollect b _ | LUnlock b | LDone b | LFail b _ => b end.
Definition collected (w : lwst) : bool := match w with LUnlock _ | LDone _ => true | _ => false end.
Definition part (w : lwst) : list cand := if collected w then PF (wsize w) else [].
Definition lok (w : lwst) : Prop :=
  match w with
  | LSearch b => IndicesGet ix b <> None
  | LLock b q | LCollect b q => Inv q k (PF b)
  | LFail _ _ => False
  | _ => True
  end.
Definition sizes_ok (p : lpst) (ws : list lwst) : Prop :=
  NoDup (map wsize ws) /\
  match p with
  | LLoop b => n <= b /\ forall x, In x (map wsize ws) <-> n <= x < b /\ IndicesGet ix x <> None
  | LWait => forall x, In x (map wsize ws) <-> n <= x /\ IndicesGet ix x <> None
  end.
Definition LInv (s : lst) : Prop :=
  sizes_ok (l_prod s) (l_ws s) /\ Forall lok (l_ws s) /\ Inv (l_q s) k (flat_map part (l_ws s)).
Definition lresult (r : list cand) : Prop := exists sizes, NoDup sizes /\ (forall x, In x sizes <-> n <= x /\ IndicesGet ix x <> None) /\
  best_k k (flat_map PF sizes) r.
Definition LGood (p : lproc) : Prop := match p with LRunning s => LInv s | LFinished (Ret r) => lresult r | LFinished _ => False | LCrashed => False end.

Lemma lset_split s i w w' : nth_error (l_ws s) i = Some w -> wsize w' = wsize w -> exists l1 l2, l_ws s = l1 ++ w :: l2 /\ set_nth_opt i w' (l_ws s) = l1 ++ w' :: l2 /\ map wsize (l1 ++ w' :: l2) = map wsize (l_ws s).
Proof.
  intros H E. destruct (set_nth_split w' w i _ H) as (l1 & l2 & E1 & E2). exists l1, l2. split; [exact E1|]. split; [exact E2|]. rewrite E1, !map_app. cbn [map]. rewrite E. reflexivity.
Qed.
Lemma change_w s i w w' q lk : LInv s -> nth_error (l_ws s) i = Some w -> wsize w' = wsize w -> lok w' ->
  (collected w = true -> collected w' = true) ->
  (forall L, Inv (l_q s) k L -> Inv q k (L ++ if collected w' && negb (collected w) then PF (wsize w) else [])) ->
  LInv (mkL (l_prod s) (set_nth_opt i w' (l_ws s)) q lk).
Proof.
  intros (H1 & H2 & HQ) Hw Es Hok Hmono Hq. destruct (lset_split s i w w' Hw Es) as (l1 & l2 & E1 & E2 & E3). unfold LInv. cbn [l_prod l_ws l_q]. rewrite E2. split; [|split].
  - unfold sizes_ok in *. rewrite E3. exact H1.
  - rewrite E1 in H2. apply Forall_app in H2. destruct H2 as [F1 F2]. apply Forall_app. split; [exact F1|]. constructor; [exact Hok|exact (Forall_inv_tail F2)].
  - eapply inv_perm; [|apply Hq; exact HQ]. rewrite E1, !flat_map_app. cbn [flat_map]. rewrite <- app_assoc. apply Permutation_app_head. unfold part at 1 3. rewrite Es.
    destruct (collected w), (collected w'); cbn [andb negb]; rewrite ?app_nil_r; try reflexivity; [discriminate (Hmono eq_refl)|]. cbn [app]. apply Permutation_app_comm.
Qed.
Lemma worker_good s i w p : LInv s -> nth_error (l_ws s) i = Some w -> lexec_worker rb srt ix terms score k s i w = Some p -> LGood p.
Proof.
  intros HI Hw He. assert (lok w) as Hok by (destruct HI as (_ & H2 & _); rewrite Forall_forall in H2; apply H2; eapply nth_error_In; eassumption).
  assert (forall L, Inv (l_q s) k L -> Inv (l_q s) k (L ++ [])) as Hid by (intros L; rewrite app_nil_r; auto).
  destruct w as [b|b items|b items|b|b|b e]; cbn [lexec_worker] in He; cbn [lok] in Hok.
  - destruct (IndicesGet ix b) as [iv|] eqn:Eb; [|congruence]. destruct (HF b iv Eb) as (q & Eq & Hq). rewrite Eq in He. injection He as <-. cbn [LGood]. unfold lset. eapply change_w; try eassumption; try reflexivity; auto.
  - destruct (l_locked s); [discriminate|]. injection He as <-. cbn [LGood]. eapply change_w; try eassumption; try reflexivity; auto.
  - pose proof HI as (_ & _ & HQ). destruct (merge_inv _ _ _ _ _ _ HQ Hok) as (q' & E & _). rewrite E in He. injection He as <-. cbn [LGood].
    eapply change_w; try eassumption; try reflexivity; try exact I; auto. intros L' HL'. destruct (merge_inv _ _ _ _ _ _ HL' Hok) as (q'' & E' & _ & HQ'). rewrite E in E'. injection E' as <-. apply HQ'. lia.
  - injection He as <-. cbn [LGood]. eapply change_w; try eassumption; try reflexivity; auto.
  - discriminate.
  - destruct Hok.
Qed.
Lemma finish_good s : LInv s -> l_prod s = LWait -> forallb lgone (l_ws s) = true -> lresult (fst (GetCandidates (l_q s))).
Proof.
  intros ((Hnd' & Hs) & Hok & HQ) Ep Hg. rewrite Ep in Hs. exists (map wsize (l_ws s)). split; [exact Hnd'|]. split; [exact Hs|].
  assert (flat_map part (l_ws s) = flat_map PF (map wsize (l_ws s))) as <-; [|apply (list_inv _ _ _ HQ)].
  clear - Hok Hg. induction (l_ws s) as [|w ws IH]; [reflexivity|]. cbn [forallb] in Hg. apply andb_prop in Hg. destruct Hg as [Hg1 Hg2]. cbn [flat_map map]. rewrite <- IH; [|exact (Forall_inv_tail Hok)|exact Hg2].
  f_equal. pose proof (Forall_inv Hok) as Hw. destruct w; try discriminate; [reflexivity|destruct Hw].
Qed.
Lemma no_error ws : Forall lok ws -> lfirst_error ws = None.
Proof. induction 1 as [|w ws Hw _ IH]; [reflexivity|]. destruct w; cbn [lfirst_error]; auto. destruct Hw. Qed.
Lemma prod_good s p : LInv s -> lexec_prod ix s = Some p -> LGood p.
Proof.
  intros HI He. unfold lexec_prod in He. destruct (l_prod s) as [b|] eqn:Ep.
  - destruct HI as ((Hnd' & Hs) & Hok & HQ). rewrite Ep in Hs. destruct Hs as [Hb Hs]. destruct (Z.ltb_spec b (zlen ix)) as [Hlt|Hge]; injection He as <-; cbn [LGood]; unfold LInv, sizes_ok; cbn [l_prod l_ws l_q].
    + destruct (IndicesGet ix b) as [iv|] eqn:Eb.
      * split; [split; [|split; [lia|]]|split].
        -- rewrite map_app. cbn [map wsize]. apply (Permutation_NoDup (Permutation_cons_append _ _)). constructor; [|exact Hnd']. rewrite Hs. lia.
        -- intros x. rewrite map_app, in_app_iff, Hs. cbn [map wsize In]. split.
           ++ intros [[H1 H2]|[<-|[]]]; [split; [lia|exact H2]|]. split; [lia|congruence].
           ++ intros [H1 H2]. destruct (Z.eq_dec x b) as [->|]; [right; left; reflexivity|left; split; [lia|exact H2]].
        -- apply Forall_app. split; [exact Hok|]. constructor; [cbn [lok]; congruence|constructor].
        -- rewrite flat_map_app. cbn [flat_map part collected]. rewrite !app_nil_r. exact HQ.
      * split; [split; [exact Hnd'|split; [lia|]]|split; [exact Hok|exact HQ]]. intros x. rewrite Hs. split; intros [H1 H2]; split; try assumption; [lia|]. destruct (Z.eq_dec x b) as [->|]; [congruence|lia].
    + split; [split; [exact Hnd'|]|split; [exact Hok|exact HQ]]. intros x. rewrite Hs. split; intros [H1 H2]; split; try assumption; [lia|]. pose proof (get_range ix x H2). lia.
  - destruct (forallb lgone (l_ws s)) eqn:Eg; [|discriminate]. injection He as <-. rewrite no_error by apply HI. cbn [LGood]. apply finish_good; assumption.
Qed.
Lemma run_lgood : forall sched p p', LGood p -> lrun rb srt ix terms score k sched p = Some p' -> LGood p'.
Proof.
  induction sched as [|c t IH]; intros p p' Hp Hr; cbn [lrun] in Hr; [injection Hr as <-; exact Hp|]. destruct (lexec rb srt ix terms score k c p) as [p1|] eqn:E; [|discriminate]. eapply IH; [|exact Hr].
  destruct p as [s| |]; try discriminate. cbn [LGood] in Hp. destruct c as [|i]; cbn [lexec] in E; [eapply prod_good; eassumption|]. destruct (nth_error (l_ws s) i) eqn:Ew; [|discriminate]. eapply worker_good; eassumption.
Qed.
Lemma start_lgood : LGood (lstart terms k).
Proof.
  unfold lstart, NewTopKQueue. replace (k <? 0) with false by lia. cbn [LGood]. unfold LInv, sizes_ok. cbn [l_prod l_ws l_q map flat_map]. split; [split; [constructor|split; [lia|]]|split; [constructor|]].
  - intros x. cbn [In]. split; [intros []|lia].
  - apply new_inv; [lia|]. unfold NewTopKQueue. replace (k <? 0) with false by lia. reflexivity.
Qed.
End A.


(** ** documents *)
Section B.
Context (rb : roaring) (srt : list iter -> list iter).
Context (ix : list (option inverted)) (docs : list (Z * list term)) (terms : list term) (score : Z -> res f64) (sc : Z -> f64) (k : Z).
Notation n := (zlen terms).
Context (Hdocs : docs_any docs) (Hix : index_any rb ix docs) (Hsrt : sorter_ok srt) (Hn : 0 <= n < 2 ^ 32) (Hk : 1 <= k).
Context (Hsc : forall doc, In doc docs -> score (fst doc) = Ret (sc (fst doc)) /\ sc (fst doc) <> S754_nan).
Definition one_list (b : Z) (X : list Z) : Prop :=
  (forall iv, IndicesGet ix b = Some iv -> exists q, lsearch rb srt terms score k iv = Ret q /\ Inv q k (map (cc sc) X)) /\
  StronglySorted Z.le X /\ (forall x, In x X <-> terms <> [] /\ exists ts, In (x, ts) docs /\ zlen ts = b /\ has_all terms (x, ts) = true) /\
  (forall x ts m, In (x, ts) docs -> (forall t, token_times t ts <= m)%nat -> (times x X <= m)%nat).
Lemma any_u32 x ts : In (x, ts) docs -> is_u32 x.
Proof. intros Hin. destruct Hdocs as (_ & Hu & _). rewrite Forall_forall in Hu. apply (Hu x). apply (in_map fst _ _ Hin). Qed.
Lemma feed_any : forall l q L, Inv q k L -> (forall x m, In (x, m) l -> m = n /\ exists ts, In (x, ts) docs) ->
  exists q', feed (lm_collect score) l (Ret q) = (Ret tt, Ret q') /\ Inv q' k (L ++ map (cc sc) (map fst l)).
Proof.
  induction l as [|[x m] l IH]; intros q L HI Hin.
  - exists q. cbn [map]. rewrite app_nil_r. split; [reflexivity|exact HI].
  - cbn [map feed lm_collect bind]. destruct (Hin x m (or_introl eq_refl)) as (-> & ts & Hx). pose proof (any_u32 x ts Hx) as Hu. destruct (Hsc (x, ts) Hx) as [Es Hv]. cbn [fst] in Es, Hv.
    rewrite position_pack by (try exact Hu; unfold is_u32; lia). rewrite Es. cbn [bind].
    destruct (add_inv q k L (cc sc x) HI Hv) as (q1 & E1 & H1). unfold cc in E1. cbn [Key Sc] in E1. rewrite E1.
    destruct (IH q1 _ H1 ltac:(intros; eapply Hin; right; eassumption)) as (q' & E & H2). exists q'. split; [exact E|]. rewrite <- app_assoc in H2. exact H2.
Qed.
Lemma new_queue : exists q, NewTopKQueue k = Ret q /\ Inv q k [].
Proof. unfold NewTopKQueue. replace (k <? 0) with false by lia. eexists. split; [reflexivity|]. apply new_inv; [exact Hk|]. unfold NewTopKQueue. replace (k <? 0) with false by lia. reflexivity. Qed.
Lemma one_list_ok b : exists X, one_list b X.
Proof.
  assert (forall t, ascending (occurrences docs b t)) as Hasc by (intros t; apply occurrences_ascending; apply Hdocs).
  destruct new_queue as (q0 & Eq0 & HI0).
  assert (terms = [] \/ terms <> []) as [He|Hne] by (destruct terms; [left; reflexivity|right; discriminate]).
  { exists []. split; [|split; [constructor|split; [|intros; cbn; lia]]]; [|intros x; split; [intros []|tauto]]. intros iv _. unfold lsearch. rewrite He, Eq0. exists q0. split; [reflexivity|exact HI0]. }
  assert (1 <= n) as Hn1 by (destruct terms; [contradiction|rewrite zlen_cons; pose proof (zlen_nonneg l); lia]).
  destruct (IndicesGet ix b) as [iv|] eqn:Eb.
  - destruct (search_all_any (lm_collect score) srt rb iv (occurrences docs b) terms (NewTopKQueue k) Hsrt) as (cs & (Hs & Ha1 & Ha2 & Ha3) & Es); [|lia|].
    { intros t _. specialize (Hix b t). unfold index_holds_any in Hix. rewrite Eb in Hix. split; [apply Hasc|exact Hix]. }
    unfold stored_lists in *.
    assert (forall x m, In (x, m) cs -> m = n /\ exists ts, In (x, ts) docs /\ zlen ts = b /\ has_all terms (x, ts) = true) as Hcs.
    { intros x m Hin. destruct (Ha2 x m Hin) as [Hm HT].
      assert (exists t, In x (occurrences docs b t)) as (t & Ht).
      { assert (count x (map (fun t => stored (occurrences docs b t)) terms) <> 0) as Hnz by lia. clear - Hnz Hasc. unfold count in Hnz. induction terms as [|t l IH]; [destruct (Hnz eq_refl)|]. cbn [map filter] in Hnz.
        destruct (existsb (Z.eqb x) (stored (occurrences docs b t))) eqn:E; [|apply IH; exact Hnz]. apply existsb_exists in E. destruct E as (y & Hy & E). apply Z.eqb_eq in E. subst y.
        exists t. apply (stored_In _ _ (proj2 (Hasc t))). exact Hy. }
      apply occurrences_In in Ht. destruct Ht as (ts & Hd1 & Hd2 & _). rewrite (count_docs_any docs b terms x ts Hdocs Hd1 Hd2) in Hm. pose proof (filter_length_le' (fun t => existsb (beqb t) ts) terms) as Hle.
      assert (zlen (filter (fun t => existsb (beqb t) ts) terms) = n) as E by (unfold zlen in *; lia). split; [lia|]. exists ts. split; [exact Hd1|]. split; [exact Hd2|]. apply filter_full in E. exact E. }
    exists (map fst cs). split; [|split; [|split]].
    + intros iv' E. rewrite Eb in E. injection E as <-. unfold lsearch. rewrite Es, Eq0. destruct (feed_any cs q0 [] HI0) as (q' & Ef & Hq').
      { intros x m Hin. destruct (Hcs x m Hin) as (-> & ts & H1 & _). split; [reflexivity|exists ts; exact H1]. }
      rewrite Ef. cbn [wrapped fst snd]. exists q'. split; [reflexivity|exact Hq'].
    + clear - Hs. induction Hs as [|c cs Hs IH Hf]; [constructor|]. cbn [map]. constructor; [exact IH|]. apply Forall_map. exact Hf.
    + intros x. rewrite in_map_iff. split.
      * intros ([y m] & E & Hin). cbn [fst] in E. subst y. split; [exact Hne|]. apply (Hcs x m Hin).
      * intros (_ & ts & Hin & Hc & Hall). pose proof (count_docs_any docs b terms x ts Hdocs Hin Hc) as E. assert (zlen (filter (fun t => existsb (beqb t) ts) terms) = n) as E2 by (apply filter_full; exact Hall). exists (x, n). split; [reflexivity|].
        rewrite <- E2, <- E. apply Ha1; lia.
    + intros x ts m Hin Hm. rewrite <- copies_times. apply Ha3. apply Forall_map, Forall_forall. intros t _. pose proof (stored_times x _ (proj2 (Hasc t))). pose proof (times_occurrences docs b t x ts (proj1 Hdocs) Hin). specialize (Hm t). lia.
  - exists []. split; [congruence|]. split; [constructor|]. split; [|intros; cbn; lia]. intros x. split; [intros []|]. intros (_ & ts & Hin & Hc & Hall). pose proof (has_all_get rb ix docs terms Hix Hn x ts Hne Hin Hall) as H. congruence.
Qed.
(** The completions found: the best of a list of the entries that have all terms and at least
    as many n-grams as the query, each at least once and no more often than it repeats one. *)
Lemma completed_every sched p : lrun rb srt ix terms score k sched (lstart terms k) = Some p ->
  match p with
  | LRunning _ => True
  | LFinished r => exists X l, listed_every terms docs X /\ r = Ret l /\ best_k k (map (cc sc) X) l
  | LCrashed => False
  end.
Proof.
  intros Hr. destruct (choose_upto one_list one_list_ok (length ix)) as (F & HF & HF0).
  assert (forall b iv, IndicesGet ix b = Some iv -> exists q, lsearch rb srt terms score k iv = Ret q /\ Inv q k (PF sc F b)) as HFi.
  { intros b iv E. assert (IndicesGet ix b <> None) as Hne by congruence. apply get_range in Hne. unfold zlen in Hne. destruct (HF b Hne) as (H & _). exact (H iv E). }
  assert (LGood ix terms sc k F p) as HG by (eapply run_lgood; [exact HFi| |exact Hr]; eapply start_lgood; [exact Hk|exact HFi]).
  destruct p as [s|[r| | |]|]; cbn [LGood] in HG; [exact I| |destruct HG..]. destruct HG as (sizes & Hnds & Hsz & Hb).
  destruct (sorted_perm (flat_map F sizes)) as (X & HX & Hp). exists X, r.
  assert (forall b, In b sizes -> one_list b (F b)) as Hone by (intros b Hb'; apply Hsz in Hb'; apply HF; pose proof (get_range ix b (proj2 Hb')) as H; unfold zlen in H; exact H).
  assert (Permutation (flat_map (PF sc F) sizes) (map (cc sc) X)) as Hp2.
  { rewrite Hp. clear. induction sizes as [|b l IH]; [constructor|]. cbn [flat_map]. rewrite map_app, IH. reflexivity. }
  split; [|split; [reflexivity|]].
  - split; [exact HX|]. split.
    + intros x. split.
      * intros Hx. apply (Permutation_in _ Hp), in_flat_map in Hx. destruct Hx as (b & Hb' & Hx). pose proof (proj1 (proj1 (Hsz b) Hb')) as Hbn. apply (Hone b Hb') in Hx. destruct Hx as (Hne & ts & H1 & H3 & H2). split; [exact Hne|]. exists ts. split; [exact H1|]. split; [exact H2|lia].
      * intros (Hne & ts & Hin & Hall & Hle). apply (Permutation_in _ (Permutation_sym Hp)), in_flat_map. exists (zlen ts). pose proof (conj Hle (has_all_get rb ix docs terms Hix Hn x ts Hne Hin Hall)) as Hg. apply Hsz in Hg. split; [exact Hg|]. apply (Hone _ Hg). eauto.
    + intros x ts m Hin Hm. replace (times x X) with (times x (flat_map F sizes)) by (unfold times; symmetry; apply (proj1 (Permutation_count_occ Z.eq_dec _ _) Hp)). clear - Hone Hnds Hin Hm Hdocs.
      assert (forall l, (forall b, In b l -> In b sizes) -> ~ In (zlen ts) l -> times x (flat_map F l) = 0%nat) as Hz.
      { intros l Hl Hni. unfold times. apply count_occ_not_In. intros Hx. apply in_flat_map in Hx. destruct Hx as (b & Hb & Hx). apply (Hone b (Hl b Hb)) in Hx. destruct Hx as (_ & ts' & H1 & H2 & _). rewrite (docs_any_unique docs x ts ts' Hdocs Hin H1) in Hni. subst b. contradiction. }
      assert (forall l, (forall b, In b l -> In b sizes) -> NoDup l -> (times x (flat_map F l) <= m)%nat) as Hall.
      { induction l as [|b l IH]; intros Hl Hn'; [cbn; lia|]. inversion_clear Hn'. cbn [flat_map]. unfold times. rewrite count_occ_app. fold (times x (F b)) (times x (flat_map F l)). destruct (Z.eq_dec b (zlen ts)) as [->|E].
        - rewrite (Hz l); [|intros; apply Hl; right; assumption|assumption]. destruct (Hone _ (Hl _ (or_introl eq_refl))) as (_ & _ & _ & Ht). specialize (Ht x ts m Hin Hm). lia.
        - assert (times x (F b) = 0%nat) as ->; [|apply IH; auto; intros; apply Hl; right; assumption]. specialize (Hz [b]). cbn [flat_map] in Hz. rewrite app_nil_r in Hz. apply Hz; [intros c [<-|[]]; apply Hl; left; reflexivity|intros [E'|[]]; congruence]. }
      apply Hall; auto.
  - destruct Hb as (B1 & B2 & rest & Bp & B3). split; [|split; [exact B2|exists rest; split; [|exact B3]]].
    + rewrite <- (Permutation_length Hp2). exact B1.
    + rewrite <- Hp2. exact Bp.
Qed.
End B.
