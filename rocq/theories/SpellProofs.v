(** Proofs about the language model's Autocomplete: every schedule. *)
From Coq Require Import ZifyBool Permutation Sorted Lia.
From Verif Require Import Base BaseLemmas GoMap Store Postings PostingsSpec Merger MergerSpec MergerProofs MergerProofs2 P_MergerLemmas Index IndexSpec IndexProofs P_IndexLemmas
  Float64 Heap HeapProofs TopK TopKSpec TopKProofs Suggest SuggestSpec SuggestProofs P_SuggestLemmas AutocompleteSpec AutocompleteProofs NGram Spell SpellSpec.
Local Open Scope Z_scope.

Section A.
Context (rb : roaring) (srt : list iter -> list iter).
Context (ix : list (option inverted)) (docs : list (Z * list term)) (terms : list term) (score : Z -> res f64) (sc : Z -> f64) (k : Z).
Notation n := (zlen terms).
Context (Hdocs : docs_ok docs) (Hix : index_of rb ix docs) (Hsrt : sorter_ok srt) (Hn : 1 <= n < 2 ^ 32) (Hnd : NoDup terms) (Hk : 1 <= k).
Context (Hsc : forall doc, In doc docs -> score (fst doc) = Ret (sc (fst doc)) /\ sc (fst doc) <> S754_nan).
Notation G := (AutocompleteProofs.G docs terms).
Notation part_of := (map (completion_of sc)).

Lemma feed_lm : forall l q L, Inv q k L -> (forall doc, In doc l -> In doc docs) ->
  exists q', feed (lm_collect score) (map (fun doc => (fst doc, n)) l) (Ret q) = (Ret tt, Ret q') /\ Inv q' k (L ++ part_of l).
Proof.
  induction l as [|x l IH]; intros q L HI Hin.
  - exists q. cbn [map]. rewrite app_nil_r. split; [reflexivity|exact HI].
  - cbn [map feed lm_collect bind]. pose proof (Hin x (or_introl eq_refl)) as Hx. pose proof (doc_u32 docs Hdocs x Hx) as Hu. destruct (Hsc x Hx) as [Es Hv].
    rewrite position_pack by (try exact Hu; unfold is_u32; lia). rewrite Es. cbn [bind].
    destruct (add_inv q k L (completion_of sc x) HI Hv) as (q1 & E1 & H1). unfold completion_of in E1. cbn [Key Sc] in E1. rewrite E1.
    destruct (IH q1 _ H1 ltac:(intros; apply Hin; right; assumption)) as (q' & E & H2). exists q'. split; [exact E|]. rewrite <- app_assoc in H2. exact H2.
Qed.
Lemma lsearch_ok b iv : IndicesGet ix b = Some iv -> exists q, lsearch rb srt terms score k iv = Ret q /\ Inv q k (part_of (G b)).
Proof.
  intros Hb. unfold lsearch. destruct (search_all (lm_collect score) srt rb iv (posting_of docs b) terms (NewTopKQueue k) Hsrt) as (cs & Ha & Es).
  - intros t _. specialize (Hix b t). unfold index_holds in Hix. rewrite Hb in Hix. exact Hix.
  - exact Hn.
  - assert (cs = map (fun doc => (fst doc, n)) (G b)) as ->.
    { apply (is_answer_unique _ _ _ _ Ha). split.
      + pose proof (sorted_sub docs Hdocs (fun doc => (zlen (snd doc) =? b) && has_all terms doc)) as Hs. fold (G b) in Hs. clear - Hs. induction (G b) as [|x l IH]; [constructor|]. cbn [map] in *. inversion_clear Hs. constructor; [auto|].
        apply Forall_forall. intros y Hy. apply in_map_iff in Hy. destruct Hy as (z & <- & Hz). rewrite Forall_forall in H0. cbn [fst]. apply H0. apply in_map. exact Hz.
      + intros x c. rewrite in_map_iff. split.
        * intros ([y ts] & E & Hin). cbn [fst] in E. injection E as -> <-. unfold AutocompleteProofs.G in Hin. apply filter_In in Hin. destruct Hin as [Hin E]. cbn [snd] in E. apply andb_prop in E. destruct E as [E1 E2].
          rewrite (count_docs docs b terms x ts Hdocs Hin ltac:(lia)). apply filter_full in E2. cbn [snd] in E2. lia.
        * intros (-> & H1 & H2). assert (exists ts, In (x, ts) docs /\ zlen ts = b) as (ts & Hin & Hc).
          { assert (count x (map (posting_of docs b) terms) <> 0) as Hnz by lia. clear - Hnz. unfold count in Hnz. induction terms as [|t l IH]; [destruct (Hnz eq_refl)|]. cbn [map filter] in Hnz.
            destruct (existsb (Z.eqb x) (posting_of docs b t)) eqn:E; [|apply IH; exact Hnz]. apply existsb_exists in E. destruct E as (y & Hy & E). apply Z.eqb_eq in E. subst y.
            apply posting_of_In in Hy. destruct Hy as (ts & H1 & H2 & _). eauto. }
          rewrite (count_docs docs b terms x ts Hdocs Hin Hc) in *. pose proof (filter_length_le' (fun t => existsb (beqb t) ts) terms).
          assert (zlen (filter (fun t => existsb (beqb t) ts) terms) = n) as E by (unfold zlen in *; lia). exists (x, ts). cbn [fst]. split; [congruence|].
          apply filter_In. split; [exact Hin|]. apply filter_full in E. unfold has_all. cbn [snd]. rewrite E. lia. }
    rewrite Es. unfold NewTopKQueue. replace (k <? 0) with false by lia.
    assert (Inv (mkQueue k []) k []) as H0 by (apply new_inv; [exact Hk|unfold NewTopKQueue; replace (k <? 0) with false by lia; reflexivity]).
    destruct (feed_lm (G b) _ _ H0) as (q & Eq & Hq). { intros doc Hd. apply (G_in docs terms Hn b). exact Hd. }
    exists q. rewrite Eq. cbn [wrapped fst snd]. split; [reflexivity|]. exact Hq.
Qed.

(** ** invariant *)
Definition wsize (w : lwst) : Z := match w with LSearch b | LLock b _ | LCollect b _ | LUnlock b | LDone b | LFail b _ => b end.
Definition collected (w : lwst) : bool := match w with LUnlock _ | LDone _ => true | _ => false end.
Definition part (w : lwst) : list cand := if collected w then part_of (G (wsize w)) else [].
Definition lok (w : lwst) : Prop :=
  match w with
  | LSearch b => IndicesGet ix b <> None
  | LLock b q | LCollect b q => Inv q k (part_of (G b))
  | LFail _ _ => False
  | _ => True
  end.
Definition sizes_ok (p : lpst) (ws : list lwst) : Prop :=
  NoDup (map wsize ws) /\
  match p with
  | LLoop b => n <= b /\ forall x, In x (map wsize ws) <-> n <= x < b /\ IndicesGet ix x <> None
  | LWait => forall x, In x (map wsize ws) <-> n <= x /\ IndicesGet ix x <> None
  end.
Definition LInv (s : lst) : Prop :=
  sizes_ok (l_prod s) (l_ws s) /\ Forall lok (l_ws s) /\ Inv (l_q s) k (flat_map part (l_ws s)).
Definition lresult (r : list cand) : Prop := best_k k (completions sc terms docs) r.
Definition LGood (p : lproc) : Prop := match p with LRunning s => LInv s | LFinished (Ret r) => lresult r | LFinished _ => False | LCrashed => False end.

Lemma lset_split s i w w' : nth_error (l_ws s) i = Some w -> wsize w' = wsize w -> exists l1 l2, l_ws s = l1 ++ w :: l2 /\ set_nth_opt i w' (l_ws s) = l1 ++ w' :: l2 /\ map wsize (l1 ++ w' :: l2) = map wsize (l_ws s).
Proof.
  intros H E. destruct (set_nth_split w' w i _ H) as (l1 & l2 & E1 & E2). exists l1, l2. split; [exact E1|]. split; [exact E2|]. rewrite E1, !map_app. cbn [map]. rewrite E. reflexivity.
Qed.
Lemma change_w s i w w' q lk : LInv s -> nth_error (l_ws s) i = Some w -> wsize w' = wsize w -> lok w' ->
  (collected w = true -> collected w' = true) ->
  (forall L, Inv (l_q s) k L -> Inv q k (L ++ if collected w' && negb (collected w) then part_of (G (wsize w)) else [])) ->
  LInv (mkL (l_prod s) (set_nth_opt i w' (l_ws s)) q lk).
Proof.
  intros (H1 & H2 & HQ) Hw Es Hok Hmono Hq. destruct (lset_split s i w w' Hw Es) as (l1 & l2 & E1 & E2 & E3). unfold LInv. cbn [l_prod l_ws l_q]. rewrite E2. split; [|split].
  - unfold sizes_ok in *. rewrite E3. exact H1.
  - rewrite E1 in H2. apply Forall_app in H2. destruct H2 as [F1 F2]. apply Forall_app. split; [exact F1|]. constructor; [exact Hok|exact (Forall_inv_tail F2)].
  - eapply inv_perm; [|apply Hq; exact HQ]. rewrite E1, !flat_map_app. cbn [flat_map]. rewrite <- app_assoc. apply Permutation_app_head. unfold part at 1 3. rewrite Es.
    destruct (collected w), (collected w'); cbn [andb negb]; rewrite ?app_nil_r; try reflexivity; [discriminate (Hmono eq_refl)|]. cbn [app]. apply Permutation_app_comm.
Qed.
Lemma worker_good s i w p : LInv s -> nth_error (l_ws s) i = Some w -> lexec_worker rb srt ix terms score k s i w = Some p -> LGood p.
Proof.
  intros HI Hw He. assert (lok w) as Hok by (destruct HI as (_ & H2 & _); rewrite Forall_forall in H2; apply H2; eapply nth_error_In; eassumption).
  assert (forall L, Inv (l_q s) k L -> Inv (l_q s) k (L ++ [])) as Hid by (intros L; rewrite app_nil_r; auto).
  destruct w as [b|b items|b items|b|b|b e]; cbn [lexec_worker] in He; cbn [lok] in Hok.
  - destruct (IndicesGet ix b) as [iv|] eqn:Eb; [|congruence]. destruct (lsearch_ok b iv Eb) as (q & Eq & Hq). rewrite Eq in He. injection He as <-. cbn [LGood]. unfold lset. eapply change_w; try eassumption; try reflexivity; auto.
  - destruct (l_locked s); [discriminate|]. injection He as <-. cbn [LGood]. eapply change_w; try eassumption; try reflexivity; auto.
  - pose proof HI as (_ & _ & HQ). destruct (merge_inv _ _ _ _ _ _ HQ Hok) as (q' & E & _). rewrite E in He. injection He as <-. cbn [LGood].
    eapply change_w; try eassumption; try reflexivity; try exact I; auto. intros L' HL'. destruct (merge_inv _ _ _ _ _ _ HL' Hok) as (q'' & E' & _ & HQ'). rewrite E in E'. injection E' as <-. apply HQ'. lia.
  - injection He as <-. cbn [LGood]. eapply change_w; try eassumption; try reflexivity; auto.
  - discriminate.
  - destruct Hok.
Qed.
Lemma finish_good s : LInv s -> l_prod s = LWait -> forallb lgone (l_ws s) = true -> lresult (fst (GetCandidates (l_q s))).
Proof.
  intros ((Hnd' & Hs) & Hok & HQ) Ep Hg. rewrite Ep in Hs. unfold lresult.
  assert (Permutation (flat_map part (l_ws s)) (completions sc terms docs)) as HpL.
  { assert (flat_map part (l_ws s) = part_of (flat_map G (map wsize (l_ws s)))) as ->.
    { clear - Hok Hg. induction (l_ws s) as [|w ws IH]; [reflexivity|]. cbn [forallb] in Hg. apply andb_prop in Hg. destruct Hg as [Hg1 Hg2]. cbn [flat_map map]. rewrite map_app, <- IH; [|exact (Forall_inv_tail Hok)|exact Hg2].
      f_equal. pose proof (Forall_inv Hok) as Hw. destruct w; try discriminate; [reflexivity|destruct Hw]. }
    unfold completions. apply Permutation_map. unfold AutocompleteProofs.G. rewrite <- (filter_group (fun doc => zlen (snd doc)) (fun _ doc => has_all terms doc) docs (map wsize (l_ws s)) Hnd').
    erewrite filter_ext_in'; [reflexivity|]. intros doc Hin. cbn beta. destruct (has_all terms doc) eqn:Ea; [|rewrite andb_false_r; reflexivity].
    rewrite andb_true_r. apply existsb_exists. exists (zlen (snd doc)). split; [apply Hs; eapply has_all_size; eassumption|apply Z.eqb_refl]. }
  apply (list_inv _ _ _ (inv_perm _ _ _ _ HpL HQ)).
Qed.
Lemma no_error ws : Forall lok ws -> lfirst_error ws = None.
Proof. induction 1 as [|w ws Hw _ IH]; [reflexivity|]. destruct w; cbn [lfirst_error]; auto. destruct Hw. Qed.
Lemma prod_good s p : LInv s -> lexec_prod ix s = Some p -> LGood p.
Proof.
  intros HI He. unfold lexec_prod in He. destruct (l_prod s) as [b|] eqn:Ep.
  - destruct HI as ((Hnd' & Hs) & Hok & HQ). rewrite Ep in Hs. destruct Hs as [Hb Hs]. destruct (Z.ltb_spec b (zlen ix)) as [Hlt|Hge]; injection He as <-; cbn [LGood]; unfold LInv, sizes_ok; cbn [l_prod l_ws l_q].
    + destruct (IndicesGet ix b) as [iv|] eqn:Eb.
      * split; [split; [|split; [lia|]]|split].
        -- rewrite map_app. cbn [map wsize]. apply (Permutation_NoDup (Permutation_cons_append _ _)). constructor; [|exact Hnd']. rewrite Hs. lia.
        -- intros x. rewrite map_app, in_app_iff, Hs. cbn [map wsize In]. split.
           ++ intros [[H1 H2]|[<-|[]]]; [split; [lia|exact H2]|]. split; [lia|congruence].
           ++ intros [H1 H2]. destruct (Z.eq_dec x b) as [->|]; [right; left; reflexivity|left; split; [lia|exact H2]].
        -- apply Forall_app. split; [exact Hok|]. constructor; [cbn [lok]; congruence|constructor].
        -- rewrite flat_map_app. cbn [flat_map part collected]. rewrite !app_nil_r. exact HQ.
      * split; [split; [exact Hnd'|split; [lia|]]|split; [exact Hok|exact HQ]]. intros x. rewrite Hs. split; intros [H1 H2]; split; try assumption; [lia|]. destruct (Z.eq_dec x b) as [->|]; [congruence|lia].
    + split; [split; [exact Hnd'|]|split; [exact Hok|exact HQ]]. intros x. rewrite Hs. split; intros [H1 H2]; split; try assumption; [lia|]. pose proof (get_range ix x H2). lia.
  - destruct (forallb lgone (l_ws s)) eqn:Eg; [|discriminate]. injection He as <-. rewrite no_error by apply HI. cbn [LGood]. apply finish_good; assumption.
Qed.
Lemma run_lgood : forall sched p p', LGood p -> lrun rb srt ix terms score k sched p = Some p' -> LGood p'.
Proof.
  induction sched as [|c t IH]; intros p p' Hp Hr; cbn [lrun] in Hr; [injection Hr as <-; exact Hp|]. destruct (lexec rb srt ix terms score k c p) as [p1|] eqn:E; [|discriminate]. eapply IH; [|exact Hr].
  destruct p as [s| |]; try discriminate. cbn [LGood] in Hp. destruct c as [|i]; cbn [lexec] in E; [eapply prod_good; eassumption|]. destruct (nth_error (l_ws s) i) eqn:Ew; [|discriminate]. eapply worker_good; eassumption.
Qed.
Lemma start_lgood : LGood (lstart terms k).
Proof.
  unfold lstart, NewTopKQueue. replace (k <? 0) with false by lia. cbn [LGood]. unfold LInv, sizes_ok. cbn [l_prod l_ws l_q map flat_map]. split; [split; [constructor|split; [lia|]]|split; [constructor|]].
  - intros x. cbn [In]. split; [intros []|lia].
  - apply new_inv; [lia|]. unfold NewTopKQueue. replace (k <? 0) with false by lia. reflexivity.
Qed.
End A.

(** ** steps, lock, progress: any index *)
Definition lholder (w : lwst) : bool := match w with LCollect _ _ | LUnlock _ => true | _ => false end.
Definition weight (w : lwst) : Z := match w with LSearch _ => 4 | LLock _ _ => 3 | LCollect _ _ => 2 | LUnlock _ => 1 | _ => 0 end.
Definition wsum (ws : list lwst) : Z := fold_right (fun w n => weight w + n) 0 ws.
Section B.
Context (rb : roaring) (srt : list iter -> list iter) (ix : list (option inverted)) (terms : list term) (score : Z -> res f64) (k : Z).
Definition llock_ok (s : lst) : Prop := zlen (filter lholder (l_ws s)) = if l_locked s then 1 else 0.
Definition lmu (p : lproc) : Z :=
  match p with
  | LRunning s => wsum (l_ws s) + match l_prod s with LLoop b => 5 * Z.max 0 (zlen ix - b) + 2 | LWait => 1 end
  | _ => 0
  end.
Lemma wsum_app a b : wsum (a ++ b) = wsum a + wsum b.
Proof. unfold wsum. induction a; cbn [app fold_right]; lia. Qed.
Lemma wsum_nonneg ws : 0 <= wsum ws.
Proof. induction ws as [|w ws IH]; [cbn; lia|]. change (wsum (w :: ws)) with (weight w + wsum ws). destruct w; cbn [weight]; lia. Qed.
Lemma lset_eff i w w' ws : nth_error ws i = Some w ->
  zlen (filter lholder (set_nth_opt i w' ws)) = zlen (filter lholder ws) - (if lholder w then 1 else 0) + (if lholder w' then 1 else 0) /\
  wsum (set_nth_opt i w' ws) = wsum ws - weight w + weight w'.
Proof.
  intros H. destruct (set_nth_split w' w i ws H) as (l1 & l2 & -> & ->). rewrite !filter_app, !wsum_app. cbn [filter]. rewrite !zlen_app'. change (wsum (w :: l2)) with (weight w + wsum l2). change (wsum (w' :: l2)) with (weight w' + wsum l2).
  destruct (lholder w), (lholder w'); rewrite ?zlen_cons; lia.
Qed.
Lemma lstep_eff c p p' : lexec rb srt ix terms score k c p = Some p' ->
  lmu p' < lmu p /\ (match p with LRunning s => llock_ok s | _ => True end -> match p' with LRunning s => llock_ok s | _ => True end).
Proof.
  intros He. destruct p as [s| |]; try discriminate. pose proof (wsum_nonneg (l_ws s)) as Hw0. destruct c as [|i]; cbn [lexec] in He.
  - unfold lexec_prod in He. cbn [lmu]. destruct (l_prod s) as [b|] eqn:Ep.
    + destruct (Z.ltb_spec b (zlen ix)); injection He as <-; cbn [lmu l_prod l_ws]; unfold llock_ok; cbn [l_ws l_locked].
      * destruct (IndicesGet ix b); rewrite ?wsum_app, ?filter_app, ?zlen_app'; cbn [wsum fold_right weight filter lholder]; change (zlen (@nil lwst)) with 0; split; intros; lia.
      * split; [lia|auto].
    + destruct (forallb lgone (l_ws s)); [|discriminate]. injection He as <-. cbn [lmu]. split; [lia|auto].
  - destruct (nth_error (l_ws s) i) as [w|] eqn:Ew; [|discriminate].
    assert (lholder w = true -> llock_ok s -> l_locked s = true) as Hh.
    { intros Hh HL. unfold llock_ok in HL. apply nth_error_In in Ew. destruct (l_locked s); [reflexivity|]. assert (In w (filter lholder (l_ws s))) as Hi by (apply filter_In; auto).
      destruct (filter lholder (l_ws s)) as [|x0 r0]; [destruct Hi|]. rewrite zlen_cons in HL. pose proof (zlen_nonneg r0). lia. }
    assert (0 < wsum (l_ws s) + match l_prod s with LLoop b => 5 * Z.max 0 (zlen ix - b) + 2 | LWait => 1 end) as Hpos by (destruct (l_prod s); lia).
    destruct w as [b|b items|b items|b|b|b e]; cbn [lexec_worker] in He.
    + destruct (IndicesGet ix b); [|injection He as <-; cbn [lmu]; auto]. destruct (lsearch _ _ _ _ _ _) as [items|e| |]; injection He as <-; cbn [lmu]; auto; unfold lset, llock_ok; cbn [l_ws l_prod l_locked].
      * destruct (lset_eff i _ (LLock b items) _ Ew) as [-> ->]. cbn [lholder weight]. split; intros; lia.
      * destruct (lset_eff i _ (LFail b e) _ Ew) as [-> ->]. cbn [lholder weight]. split; intros; lia.
    + destruct (l_locked s) eqn:El; [discriminate|]. injection He as <-. cbn [lmu l_prod l_ws]. unfold llock_ok. cbn [l_ws l_locked]. destruct (lset_eff i _ (LCollect b items) _ Ew) as [-> ->]. rewrite El. cbn [lholder weight]. split; intros; lia.
    + destruct (Merge _ _); injection He as <-; cbn [lmu l_prod l_ws]; auto. unfold llock_ok. cbn [l_ws l_locked]. destruct (lset_eff i _ (LUnlock b) _ Ew) as [-> ->]. cbn [lholder weight]. split; intros; lia.
    + injection He as <-. cbn [lmu l_prod l_ws]. unfold llock_ok in *. cbn [l_ws l_locked]. destruct (lset_eff i _ (LDone b) _ Ew) as [-> ->]. cbn [lholder weight] in *. split; [lia|]. intros HL. rewrite (Hh eq_refl HL) in HL. lia.
    + discriminate.
    + discriminate.
Qed.
Lemma lmu_nonneg p : 0 <= lmu p.
Proof. destruct p as [s| |]; cbn [lmu]; try lia. pose proof (wsum_nonneg (l_ws s)). destruct (l_prod s); lia. Qed.
Lemma lrun_bounded : forall sched p p', lrun rb srt ix terms score k sched p = Some p' -> zlen sched + lmu p' <= lmu p.
Proof.
  induction sched as [|c t IH]; intros p p' Hr; cbn [lrun] in Hr; [injection Hr as <-; change (zlen (@nil lchoice)) with 0; lia|]. destruct (lexec rb srt ix terms score k c p) as [p1|] eqn:E; [|discriminate].
  apply IH in Hr. apply lstep_eff in E. rewrite zlen_cons. lia.
Qed.
Lemma lrun_lock : forall sched p p', match p with LRunning s => llock_ok s | _ => True end -> lrun rb srt ix terms score k sched p = Some p' -> match p' with LRunning s => llock_ok s | _ => True end.
Proof.
  induction sched as [|c t IH]; intros p p' Hp Hr; cbn [lrun] in Hr; [injection Hr as <-; exact Hp|]. destruct (lexec rb srt ix terms score k c p) as [p1|] eqn:E; [|discriminate].
  eapply IH; [|exact Hr]. apply lstep_eff in E. tauto.
Qed.
Lemma lprogress s : llock_ok s -> exists c p, lexec rb srt ix terms score k c (LRunning s) = Some p.
Proof.
  intros HL. destruct (l_prod s) as [b|] eqn:Ep.
  { exists LProd. cbn [lexec]. unfold lexec_prod. rewrite Ep. destruct (b <? zlen ix); eauto. }
  destruct (forallb lgone (l_ws s)) eqn:Eg; [exists LProd; cbn [lexec]; unfold lexec_prod; rewrite Ep, Eg; eauto|].
  assert (exists i w, nth_error (l_ws s) i = Some w /\ lgone w = false /\ (l_locked s = true -> lholder w = true)) as (i & w & Hi & Hg & Hh).
  { unfold llock_ok in HL. destruct (l_locked s).
    - assert (exists w, In w (filter lholder (l_ws s))) as (w & Hw) by (destruct (filter lholder (l_ws s)) as [|w l]; [change (zlen (@nil lwst)) with 0 in HL; lia|]; exists w; left; reflexivity).
      apply filter_In in Hw. destruct Hw as [Hw Eh]. apply In_nth_error in Hw. destruct Hw as (i & Hi). exists i, w. split; [exact Hi|]. split; [destruct w; try discriminate; reflexivity|auto].
    - assert (exists w, In w (l_ws s) /\ lgone w = false) as (w & Hw & Eg').
      { clear - Eg. induction (l_ws s) as [|w l IH]; [discriminate|]. cbn [forallb] in Eg. destruct (lgone w) eqn:E; [|exists w; split; [left; reflexivity|exact E]]. destruct (IH Eg) as (w' & H1 & H2). exists w'. split; [right; exact H1|exact H2]. }
      apply In_nth_error in Hw. destruct Hw as (i & Hi). exists i, w. split; [exact Hi|]. split; [exact Eg'|discriminate]. }
  exists (LWork i). cbn [lexec]. rewrite Hi. destruct w as [b|b items|b items|b|b|b e]; cbn [lexec_worker]; try discriminate; eauto.
  - destruct (IndicesGet ix b); [|eauto]. destruct (lsearch _ _ _ _ _ _); eauto.
  - destruct (l_locked s); [discriminate (Hh eq_refl)|eauto].
  - destruct (Merge _ _); eauto.
Qed.
End B.
