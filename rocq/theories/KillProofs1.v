(** Lemmas for C97: an index whose document list is cut short. *)
From Coq Require Import String ZifyBool Lia.
From Verif Require Import Base BaseLemmas GoMap Store Postings Merger Index IndexProofs Float64 Metric TopK Suggest Autocomplete P_Errors.
Local Open Scope Z_scope.
Local Notation length := List.length.

(** The same tables over a beginning of the document list. *)
Definition cut_of (ix1 ix : list (option inverted)) : Prop :=
  exists tabs docs rest, ix1 = map (option_map (mkInv docs)) tabs /\ ix = map (option_map (mkInv (docs ++ rest))) tabs.
Definition cut_iv (iv1 iv : inverted) : Prop := exists rest, iv_table iv1 = iv_table iv /\ iv_docs iv = iv_docs iv1 ++ rest.
Lemma cut_len ix1 ix : cut_of ix1 ix -> zlen ix1 = zlen ix.
Proof. intros (tabs & docs & rest & -> & ->). unfold zlen. rewrite !map_length. reflexivity. Qed.
Lemma cut_get ix1 ix b : cut_of ix1 ix -> (IndicesGet ix1 b = None /\ IndicesGet ix b = None) \/ exists iv1 iv, IndicesGet ix1 b = Some iv1 /\ IndicesGet ix b = Some iv /\ cut_iv iv1 iv.
Proof.
  intros Hc. pose proof (cut_len _ _ Hc) as Hl. unfold IndicesGet. rewrite Hl. destruct ((b >=? 0) && (b <? zlen ix)); [|left; auto]. destruct Hc as (tabs & docs & rest & -> & ->).
  rewrite !nth_map_option.
  destruct (match nth_error tabs (Z.to_nat b) with Some o => o | None => None end) as [t|]; [right|left; auto]. cbn [option_map]. eexists. eexists. split; [reflexivity|]. split; [reflexivity|]. exists rest. auto.
Qed.
Lemma cut_slice b r off n : Slice (NewBytesInput b) off n = (Fail ErrOutOfRange, NewBytesInput b) \/ fst (Slice (NewBytesInput b) off n) = fst (Slice (NewBytesInput (b ++ r)) off n).
Proof.
  unfold Slice. cbn [NewBytesInput ibuf]. destruct ((n <? 0) || (off <? 0) || (zlen b <? wrapi64 (off + n))) eqn:E; [left; reflexivity|right].
  assert (zlen (b ++ r) = zlen b + zlen r) as Hz by (unfold zlen; rewrite app_length; lia). pose proof (zlen_nonneg r) as Hr.
  replace ((n <? 0) || (off <? 0) || (zlen (b ++ r) <? wrapi64 (off + n))) with false by lia.
  unfold slice. destruct ((0 <=? off) && (off <=? wrapi64 (off + n)) && (wrapi64 (off + n) <=? zlen b)) eqn:E1.
  - replace ((0 <=? off) && (off <=? wrapi64 (off + n)) && (wrapi64 (off + n) <=? zlen (b ++ r))) with true by lia. cbn [fst].
    assert (firstn (Z.to_nat (wrapi64 (off + n) - off)) (skipn (Z.to_nat off) (b ++ r)) = firstn (Z.to_nat (wrapi64 (off + n) - off)) (skipn (Z.to_nat off) b)) as E2; [|unfold bytes in *; rewrite E2; reflexivity].
    rewrite skipn_app, firstn_app. replace (Z.to_nat (wrapi64 (off + n) - off) - length (skipn (Z.to_nat off) b))%nat with O; [cbn [firstn]; apply app_nil_r|]. rewrite skipn_length. unfold zlen in *. lia.
  - replace ((0 <=? off) && (off <=? wrapi64 (off + n)) && (wrapi64 (off + n) <=? zlen (b ++ r))) with false by lia. reflexivity.
Qed.
Lemma cut_iget iv1 iv t : cut_iv iv1 iv -> (exists e, IndexGet iv1 t = Fail e) \/ IndexGet iv1 t = IndexGet iv t.
Proof.
  intros (rest & Ht & Hd). unfold IndexGet. rewrite Ht, Hd. destruct (mget beqb (iv_table iv) t) as [[[size position] len]|]; [|right; reflexivity].
  destruct (cut_slice (iv_docs iv1) rest position size) as [E|E]; [left; rewrite E; eauto|right].
  destruct (Slice (NewBytesInput (iv_docs iv1)) position size) as [a x], (Slice (NewBytesInput (iv_docs iv1 ++ rest)) position size) as [a' x']. cbn [fst] in E. subst a'. reflexivity.
Qed.
Lemma cut_has iv1 iv t : cut_iv iv1 iv -> IndexHas iv1 t = IndexHas iv t.
Proof. intros (rest & Ht & Hd). unfold IndexHas. rewrite Ht. reflexivity. Qed.
Lemma cut_filter iv1 iv terms : cut_iv iv1 iv -> forall T k, filterTerms iv1 terms T k = filterTerms iv terms T k.
Proof. intros Hc. induction terms as [|t ts IH]; intros T k; [reflexivity|]. cbn [filterTerms]. rewrite (cut_has _ _ t Hc), !IH. reflexivity. Qed.
Lemma cut_open rb iv1 iv terms : cut_iv iv1 iv -> (exists e, open_lists rb iv1 terms = Fail e) \/ open_lists rb iv1 terms = open_lists rb iv terms.
Proof.
  intros Hc. induction terms as [|t ts IH]; [right; reflexivity|]. cbn [open_lists]. destruct (cut_iget _ _ t Hc) as [(e & ->)|E]; [left; eauto|]. rewrite E.
  destruct (IndexGet iv t) as [[[size r]|]|e| |]; [|right; reflexivity..]. destruct (openPosting rb r size) as [it|e| |]; [|right; reflexivity..].
  destruct IH as [(e & ->)| ->]; [left; eexists; reflexivity|right; reflexivity].
Qed.
Lemma cut_search {St} rb (merge : list iter -> Z -> St -> res unit * St) iv1 iv terms T s : cut_iv iv1 iv ->
  (exists e, Search rb merge iv1 terms T s = (Fail e, s)) \/ Search rb merge iv1 terms T s = Search rb merge iv terms T s.
Proof.
  intros Hc. unfold Search. cbv zeta. rewrite (cut_filter _ _ terms Hc). destruct (zlen _ <? T); [right; reflexivity|]. destruct (cut_open rb _ _ (filterTerms iv terms T 0) Hc) as [(e & ->)| ->]; [left; eauto|right; reflexivity].
Qed.

(** ** Suggest *)
Section Suggest.
Context (rb : roaring) (srt : list iter -> list iter) (ix1 ix : list (option inverted)) (tokens : list term) (m : metric) (alpha : f64) (k : Z).
Context (Hc : cut_of ix1 ix) (q0 : queue) (Hk : NewTopKQueue k = Ret q0).
Notation run1 := (run rb srt ix1 tokens m alpha k).
Notation run := (run rb srt ix tokens m alpha k).
Notation exec1 := (exec rb srt ix1 tokens m alpha k).
Notation exec := (exec rb srt ix tokens m alpha k).
Lemma cut_worker b T iv1 iv : cut_iv iv1 iv -> (exists e, worker_search rb srt tokens m k b T iv1 = Fail e) \/ worker_search rb srt tokens m k b T iv1 = worker_search rb srt tokens m k b T iv.
Proof.
  intros Hi. unfold worker_search. destruct (cut_search rb (CPMerge (fuzzy_collect m (sizeA tokens) b) srt) iv1 iv tokens T (NewTopKQueue k) Hi) as [(e & ->)| ->]; [left; rewrite Hk; eauto|right; reflexivity].
Qed.
(* the workers that failed are at their search in the whole index, and stay there *)
Inductive wrel : wst -> wst -> Prop := wrel_same w : wrel w w | wrel_failed e b T : wrel (WFail e) (WSearch b T).
Definition srel (s1 s : st) : Prop := s_ch s1 = s_ch s /\ s_prod s1 = s_prod s /\ Forall2 wrel (s_ws s1) (s_ws s) /\ s_glob s1 = s_glob s /\ s_sim s1 = s_sim s /\ s_locked s1 = s_locked s.
Definition has_failed (s : st) : Prop := exists i e, nth_error (s_ws s) i = Some (WFail e).
Inductive prel : proc -> proc -> Prop :=
| prel_run s1 s : srel s1 s -> prel (Running s1) (Running s)
| prel_end r : prel (Finished r) (Finished r)
| prel_error e s : prel (Finished (Fail e)) (Running s)
| prel_crash : prel Crashed Crashed.
Lemma Forall2_set {A B} (R : A -> B -> Prop) i x y : forall l l', Forall2 R l l' -> R x y -> Forall2 R (set_nth_opt i x l) (set_nth_opt i y l').
Proof. induction i as [|i IH]; intros l l' HF HR; destruct HF as [|a b l l' Hab HF]; cbn [set_nth_opt]; try constructor; auto. Qed.
Lemma Forall2_set_l {A B} (R : A -> B -> Prop) i x y : forall l l', Forall2 R l l' -> nth_error l' i = Some y -> R x y -> Forall2 R (set_nth_opt i x l) l'.
Proof. induction i as [|i IH]; intros l l' HF He HR; destruct HF as [|a b l l' Hab HF]; cbn [set_nth_opt nth_error] in *; try constructor; try discriminate; auto. injection He as ->. exact HR. Qed.
Lemma Forall2_nth_l {A B} (R : A -> B -> Prop) i x : forall l l', Forall2 R l l' -> nth_error l i = Some x -> exists y, nth_error l' i = Some y /\ R x y.
Proof. induction i as [|i IH]; intros l l' HF He; destruct HF as [|a b l l' Hab HF]; cbn [nth_error] in *; try discriminate; [injection He as ->; eauto|eauto]. Qed.
Lemma first_same l l' : Forall2 wrel l l' -> first_error l = None -> l = l'.
Proof. induction 1 as [|a b l l' Hab HF IH]; intros H; [reflexivity|]. destruct Hab as [w|e b T]; [|discriminate H]. f_equal. apply IH. destruct w; try exact H. discriminate H. Qed.
Lemma gone_some l l' : Forall2 wrel l l' -> forall e, first_error l = Some e -> exists e', first_error l = Some e'.
Proof. intros _ e ->. eauto. Qed.

Lemma cut_step c p1 p p1' : prel p1 p -> exec1 c p1 = Some p1' -> exists sched p', run sched p = Some p' /\ prel p1' p'.
Proof.
  intros Hp E. destruct Hp as [s1 s Hs|r|e s|]; [|destruct c; discriminate E..]. destruct Hs as (E1 & E2 & HF & E4 & E5 & E6).
  assert (forall p', exec c (Running s) = Some p' -> prel p1' p' -> exists sched p', run sched (Running s) = Some p' /\ prel p1' p') as Hone.
  { intros p' Ep Hp. exists [c], p'. cbn [Suggest.run]. rewrite Ep. auto. }
  destruct c as [|i]; cbn [Suggest.exec] in E, Hone.
  - unfold exec_prod, send, goto, chan_cap, bMax in E, Hone. rewrite <- E2, <- E1 in Hone. rewrite (cut_len _ _ Hc) in E. destruct (s_prod s1) as [a b|a b|a b|] eqn:Ep.
    + destruct ((bMin tokens m alpha <=? a) || _); injection E as <-; (eapply Hone; [reflexivity|]; constructor; repeat split; assumption || (cbn; rewrite ?E1; auto)).
    + destruct (_ <=? a); [destruct (_ <? _)|]; try discriminate E; injection E as <-; (eapply Hone; [reflexivity|]; constructor; repeat split; assumption || (cbn; rewrite ?E1; auto)).
    + destruct (b <=? _); [destruct (zlen _ <? _)|]; try discriminate E; injection E as <-; (eapply Hone; [reflexivity|]; constructor; repeat split; assumption || (cbn; rewrite ?E1; auto)).
    + destruct (forallb gone (s_ws s1)) eqn:Eg; [|discriminate E]. injection E as <-. destruct (first_error (s_ws s1)) as [e|] eqn:Ef.
      * exists [], (Running s). split; [reflexivity|]. constructor.
      * pose proof (first_same _ _ HF Ef) as Ew. rewrite <- Ew, Eg, Ef, <- E4 in Hone. eapply Hone; [reflexivity|]. constructor.
  - destruct (nth_error (s_ws s1) i) as [w1|] eqn:En; [|discriminate E]. destruct (Forall2_nth_l _ _ _ _ _ HF En) as (w & En' & Hw). rewrite En' in Hone. destruct Hw as [w|e b T]; [|discriminate E].
    destruct w as [|b|b T|b q|b q| | | |e]; cbn [exec_worker] in E, Hone; try discriminate E.
    + rewrite <- E1, <- E2 in Hone. destruct (s_ch s1) as [|b ch] eqn:Ech.
      * destruct (s_prod s1) eqn:Epr; try discriminate E. injection E as <-. eapply Hone; [reflexivity|]. constructor. unfold set_w. repeat split; cbn; try congruence. apply Forall2_set; [exact HF|constructor].
      * injection E as <-. eapply Hone; [reflexivity|]. constructor. repeat split; cbn; try congruence. apply Forall2_set; [exact HF|constructor].
    + cbv zeta in E, Hone. rewrite <- E5 in Hone. destruct (_ || _).
      * injection E as <-. eapply Hone; [reflexivity|]. constructor. unfold set_w. repeat split; cbn; try congruence. apply Forall2_set; [exact HF|constructor].
      * destruct (cut_get _ _ b Hc) as [[G1 G2]|(iv1 & iv & G1 & G2 & Hi)]; rewrite G1 in E; rewrite G2 in Hone; injection E as <-; (eapply Hone; [reflexivity|]; constructor; unfold set_w; repeat split; cbn; try congruence; apply Forall2_set; [exact HF|constructor]).
    + destruct (cut_get _ _ b Hc) as [[G1 G2]|(iv1 & iv & G1 & G2 & Hi)]; rewrite G1 in E; rewrite G2 in Hone; [injection E as <-; eapply Hone; [reflexivity|constructor]|].
      destruct (cut_worker b T iv1 iv Hi) as [(e & Hf)|Hf]; rewrite Hf in E.
      * injection E as <-. exists [], (Running s). split; [reflexivity|]. constructor. unfold set_w. repeat split; cbn; try congruence. eapply Forall2_set_l; [exact HF|exact En'|constructor].
      * destruct (worker_search rb srt tokens m k b T iv) as [q|e| |]; injection E as <-; (eapply Hone; [reflexivity|]); constructor; unfold set_w; repeat split; cbn; try congruence; apply Forall2_set; solve [exact HF|constructor].
    + rewrite <- E6 in Hone. destruct (s_locked s1); [discriminate E|]. injection E as <-. eapply Hone; [reflexivity|]. constructor. repeat split; cbn; try congruence. apply Forall2_set; [exact HF|constructor].
    + rewrite <- E4 in Hone. destruct (Merge (s_glob s1) q); injection E as <-; (eapply Hone; [reflexivity|]); constructor; repeat split; cbn; try congruence; apply Forall2_set; solve [exact HF|constructor].
    + rewrite <- E4, <- E5 in Hone. destruct (ManagerLowestScore (s_glob s1)); injection E as <-; (eapply Hone; [reflexivity|]); constructor; repeat split; cbn; try congruence; apply Forall2_set; solve [exact HF|constructor].
    + injection E as <-. eapply Hone; [reflexivity|]. constructor. repeat split; cbn; try congruence. apply Forall2_set; [exact HF|constructor].
Qed.
Lemma cut_run sched : forall p1 p p1', prel p1 p -> run1 sched p1 = Some p1' -> exists sched' p', run sched' p = Some p' /\ prel p1' p'.
Proof.
  induction sched as [|c sched IH]; intros p1 p p1' Hp E; [injection E as <-; exists [], p; auto|]. cbn [Suggest.run] in E. destruct (exec1 c p1) as [p2|] eqn:Ec; [|discriminate E].
  destruct (cut_step c p1 p p2 Hp Ec) as (s1 & p' & R1 & Hp'). destruct (IH _ _ _ Hp' E) as (s2 & p'' & R2 & Hp''). exists (s1 ++ s2), p''. split; [|exact Hp''].
  rewrite (run_join rb srt ix tokens m alpha k _ _ _ _ R1). exact R2.
Qed.
(* with the same schedule, as long as no search fails *)
Lemma cut_same sched : forall p r, run1 sched p = Some (Finished r) -> (exists e, r = Fail e) \/ run sched p = Some (Finished r).
Proof.
  induction sched as [|c sched IH]; intros p r E; [right; exact E|]. cbn [Suggest.run] in E |- *. destruct (exec1 c p) as [p1|] eqn:Ec; [|discriminate E].
  assert (exec c p = Some p1 \/ exists s i e, p1 = Running s /\ nth_error (s_ws s) i = Some (WFail e)) as [H|(s & i & e & -> & H)]; [|rewrite H; apply IH, E|left; eapply finish_ws; eassumption].
  destruct p as [s|r0|]; [|destruct c; discriminate Ec..]. destruct c as [|i]; cbn [Suggest.exec] in Ec |- *.
  - left. rewrite <- Ec. unfold exec_prod, send, goto, chan_cap, bMax. rewrite (cut_len _ _ Hc). reflexivity.
  - destruct (nth_error (s_ws s) i) as [w|] eqn:En; [|discriminate Ec]. destruct w as [|b|b T|b q|b q| | | |e]; cbn [exec_worker] in Ec |- *; try (left; exact Ec).
    + left. rewrite <- Ec. destruct (cut_get _ _ b Hc) as [[G1 G2]|(iv1 & iv & G1 & G2 & Hi)]; rewrite G1, G2; reflexivity.
    + destruct (cut_get _ _ b Hc) as [[G1 G2]|(iv1 & iv & G1 & G2 & Hi)]; rewrite G1 in Ec; rewrite G2; [left; exact Ec|]. destruct (cut_worker b T iv1 iv Hi) as [(e & Hf)|Hf]; rewrite Hf in Ec; [right|left; exact Ec].
      injection Ec as <-. eexists. exists i, e. split; [reflexivity|]. cbn [set_w s_ws]. rewrite set_nth_opt_nth, Nat.eqb_refl. replace (i <? length (s_ws s))%nat with true; [reflexivity|]. symmetry. apply Nat.ltb_lt. apply nth_error_Some. rewrite En. discriminate.
Qed.
End Suggest.
Lemma cut_start ix1 ix tokens m alpha k : cut_of ix1 ix -> start ix1 tokens m alpha k = start ix tokens m alpha k.
Proof. intros Hc. unfold start, chan_cap, bMax. rewrite (cut_len _ _ Hc). reflexivity. Qed.
Lemma srel_refl s : srel s s.
Proof. repeat split. induction (s_ws s); constructor; [constructor|assumption]. Qed.
Lemma prel_refl p : prel p p.
Proof. destruct p; constructor. apply srel_refl. Qed.

(** ** Autocomplete *)
Section Autocomplete.
Context (rb : roaring) (srt : list iter -> list iter) (ix1 ix : list (option inverted)) (terms : list term) (limit : Z).
Context (Hc : cut_of ix1 ix).
Notation arun1 := (arun rb srt ix1 terms limit).
Notation arun := (arun rb srt ix terms limit).
Notation aexec1 := (aexec rb srt ix1 terms limit).
Notation aexec := (aexec rb srt ix terms limit).
Lemma cut_asearch iv1 iv : cut_iv iv1 iv -> (exists e, asearch rb srt terms limit iv1 = Fail e) \/ asearch rb srt terms limit iv1 = asearch rb srt terms limit iv.
Proof.
  intros Hi. unfold asearch. destruct (cut_search rb (CPMerge (firstk_collect limit) srt) iv1 iv terms (zlen terms) [] Hi) as [(e & ->)| ->]; [left; eauto|right; reflexivity].
Qed.
Inductive awrel : awst -> awst -> Prop := awrel_same w : awrel w w | awrel_failed e b : awrel (AFail b e) (ASearch b).
Inductive aprel : aproc -> aproc -> Prop :=
| aprel_run s1 s : a_prod s1 = a_prod s -> Forall2 awrel (a_ws s1) (a_ws s) -> a_q s1 = a_q s -> a_locked s1 = a_locked s -> aprel (ARunning s1) (ARunning s)
| aprel_end r : aprel (AFinished r) (AFinished r)
| aprel_error e s : aprel (AFinished (Fail e)) (ARunning s)
| aprel_crash : aprel ACrashed ACrashed.
Lemma afirst_same l l' : Forall2 awrel l l' -> afirst_error l = None -> l = l'.
Proof. induction 1 as [|a b l l' Hab HF IH]; intros H; [reflexivity|]. destruct Hab as [w|e b]; [|discriminate H]. f_equal. apply IH. destruct w; try exact H. discriminate H. Qed.
Lemma arun_join a : forall b p p1, arun a p = Some p1 -> arun (a ++ b) p = arun b p1.
Proof. induction a as [|c a IH]; intros b p p1 E; cbn [Autocomplete.arun app] in *; [injection E as ->; reflexivity|]. destruct (aexec c p); [|discriminate]. apply IH, E. Qed.
Lemma acut_step c p1 p p1' : aprel p1 p -> aexec1 c p1 = Some p1' -> exists sched p', arun sched p = Some p' /\ aprel p1' p'.
Proof.
  intros Hp E. destruct Hp as [s1 s E2 HF E4 E6|r|e s|]; [|destruct c; discriminate E..].
  assert (forall p', aexec c (ARunning s) = Some p' -> aprel p1' p' -> exists sched p', arun sched (ARunning s) = Some p' /\ aprel p1' p') as Hone.
  { intros p' Ep Hp. exists [c], p'. cbn [Autocomplete.arun]. rewrite Ep. auto. }
  destruct c as [|i]; cbn [Autocomplete.aexec] in E, Hone.
  - unfold aexec_prod in E, Hone. rewrite <- E2 in Hone. rewrite (cut_len _ _ Hc) in E. destruct (a_prod s1) as [b|] eqn:Ep.
    + destruct (b <? zlen ix); injection E as <-; (eapply Hone; [reflexivity|]); constructor; cbn; try congruence.
      destruct (cut_get _ _ b Hc) as [[G1 G2]|(iv1 & iv & G1 & G2 & Hi)]; rewrite G1, G2; [exact HF|]. apply Forall2_app; [exact HF|]. constructor; [constructor|constructor].
    + destruct (forallb agone (a_ws s1)) eqn:Eg; [|discriminate E]. injection E as <-. destruct (afirst_error (a_ws s1)) as [e|] eqn:Ef.
      * exists [], (ARunning s). split; [reflexivity|]. constructor.
      * pose proof (afirst_same _ _ HF Ef) as Ew. rewrite <- Ew, Eg, Ef, <- E4 in Hone. eapply Hone; [reflexivity|]. constructor.
  - destruct (nth_error (a_ws s1) i) as [w1|] eqn:En; [|discriminate E]. destruct (Forall2_nth_l _ _ _ _ _ HF En) as (w & En' & Hw). rewrite En' in Hone. destruct Hw as [w|e b]; [|discriminate E].
    destruct w as [b|b q|b q|b|b|b e]; cbn [aexec_worker] in E, Hone; try discriminate E.
    + destruct (cut_get _ _ b Hc) as [[G1 G2]|(iv1 & iv & G1 & G2 & Hi)]; rewrite G1 in E; rewrite G2 in Hone; [injection E as <-; eapply Hone; [reflexivity|constructor]|].
      destruct (cut_asearch iv1 iv Hi) as [(e & Hf)|Hf]; rewrite Hf in E.
      * injection E as <-. exists [], (ARunning s). split; [reflexivity|]. constructor; cbn; try congruence. eapply Forall2_set_l; [exact HF|exact En'|constructor].
      * destruct (asearch rb srt terms limit iv) as [q|e| |]; injection E as <-; (eapply Hone; [reflexivity|]); constructor; cbn; try congruence; apply Forall2_set; solve [exact HF|constructor].
    + rewrite <- E6 in Hone. destruct (a_locked s1); [discriminate E|]. injection E as <-. eapply Hone; [reflexivity|]. constructor; cbn; try congruence. apply Forall2_set; [exact HF|constructor].
    + rewrite <- E4 in Hone. destruct (manager_collect (a_q s1) q); injection E as <-; (eapply Hone; [reflexivity|]); constructor; cbn; try congruence; apply Forall2_set; solve [exact HF|constructor].
    + injection E as <-. eapply Hone; [reflexivity|]. constructor; cbn; try congruence. apply Forall2_set; [exact HF|constructor].
Qed.
Lemma acut_run sched : forall p1 p p1', aprel p1 p -> arun1 sched p1 = Some p1' -> exists sched' p', arun sched' p = Some p' /\ aprel p1' p'.
Proof.
  induction sched as [|c sched IH]; intros p1 p p1' Hp E; [injection E as <-; exists [], p; auto|]. cbn [Autocomplete.arun] in E. destruct (aexec1 c p1) as [p2|] eqn:Ec; [|discriminate E].
  destruct (acut_step c p1 p p2 Hp Ec) as (s1 & p' & R1 & Hp'). destruct (IH _ _ _ Hp' E) as (s2 & p'' & R2 & Hp''). exists (s1 ++ s2), p''. split; [|exact Hp''].
  rewrite (arun_join _ _ _ _ R1). exact R2.
Qed.
(* a worker that has failed stays so; the call returns an error *)
Lemma afail_stays c s s' i b e : aexec1 c (ARunning s) = Some (ARunning s') -> nth_error (a_ws s) i = Some (AFail b e) -> nth_error (a_ws s') i = Some (AFail b e).
Proof.
  intros E H. assert (i < length (a_ws s))%nat as Hlen by (apply nth_error_Some; congruence). destruct c as [|j]; cbn [Autocomplete.aexec] in E.
  - unfold aexec_prod in E. destruct (a_prod s) as [x|]; [destruct (_ <? _); injection E as <-; cbn [a_ws]; [destruct (IndicesGet ix1 x); [rewrite nth_error_app1 by exact Hlen|]|]; exact H|destruct (forallb _ _); discriminate E].
  - destruct (nth_error (a_ws s) j) as [w|] eqn:En; [|discriminate E].
    assert (forall w', (forall b0 e0, w <> AFail b0 e0) -> nth_error (set_nth_opt j w' (a_ws s)) i = Some (AFail b e)) as Hset.
    { intros w' Hw. rewrite set_nth_opt_nth. destruct (Nat.eqb_spec i j) as [->|Hij]; [exfalso; apply (Hw b e); congruence|exact H]. }
    destruct w as [x|x q|x q|x|x|x e0]; cbn [aexec_worker] in E; try discriminate E.
    + destruct (IndicesGet ix1 x) as [iv|]; [|discriminate E]. destruct (asearch rb srt terms limit iv); try discriminate E; injection E as <-; apply Hset; discriminate.
    + destruct (a_locked s); [discriminate E|]. injection E as <-. apply Hset. discriminate.
    + destruct (manager_collect (a_q s) q); try discriminate E. injection E as <-. apply Hset. discriminate.
    + injection E as <-. apply Hset. discriminate.
Qed.
Lemma afinish_ws sched : forall s r i b e, nth_error (a_ws s) i = Some (AFail b e) -> arun1 sched (ARunning s) = Some (AFinished r) -> exists e', r = Fail e'.
Proof.
  induction sched as [|c sched IH]; intros s r i b e H E; [discriminate|]. cbn [Autocomplete.arun] in E. destruct (aexec1 c (ARunning s)) as [p|] eqn:Ec; [|discriminate]. destruct p as [s'|r'|].
  - apply (IH s' r i b e); [exact (afail_stays c s s' i b e Ec H)|exact E].
  - assert (r' = r) as -> by (destruct sched as [|c0 sched0]; [injection E as ->; reflexivity|destruct c0; discriminate E]). destruct c as [|j]; cbn [Autocomplete.aexec] in Ec.
    + unfold aexec_prod in Ec. destruct (a_prod s) as [x|]; [destruct (_ <? _); discriminate Ec|]. destruct (forallb _ _); [|discriminate Ec]. injection Ec as <-.
      destruct (afirst_error (a_ws s)) as [e'|] eqn:Ef; [exists e'; reflexivity|]. exfalso. exact (aerror_none _ Ef i b e H).
    + destruct (nth_error (a_ws s) j) as [w|]; [|discriminate Ec]. destruct w as [x|x q|x q|x|x|x e0]; cbn [aexec_worker] in Ec; try discriminate Ec.
      * destruct (IndicesGet ix1 x) as [iv|]; [|discriminate Ec]. destruct (asearch rb srt terms limit iv); discriminate Ec.
      * destruct (a_locked s); discriminate Ec.
      * destruct (manager_collect (a_q s) q); discriminate Ec.
  - destruct sched as [|c0 sched0]; [discriminate E|destruct c0; discriminate E].
Qed.
Lemma acut_same sched : forall p r, arun1 sched p = Some (AFinished r) -> (exists e, r = Fail e) \/ arun sched p = Some (AFinished r).
Proof.
  induction sched as [|c sched IH]; intros p r E; [right; exact E|]. cbn [Autocomplete.arun] in E |- *. destruct (aexec1 c p) as [p1|] eqn:Ec; [|discriminate E].
  assert (aexec c p = Some p1 \/ exists s i b e, p1 = ARunning s /\ nth_error (a_ws s) i = Some (AFail b e)) as [H|(s & i & b & e & -> & H)]; [|rewrite H; apply IH, E|left; eapply afinish_ws; eassumption].
  destruct p as [s|r0|]; [|destruct c; discriminate Ec..]. destruct c as [|i]; cbn [Autocomplete.aexec] in Ec |- *.
  - left. rewrite <- Ec. unfold aexec_prod. rewrite (cut_len _ _ Hc). destruct (a_prod s) as [b|]; [|reflexivity]. destruct (cut_get _ _ b Hc) as [[G1 G2]|(iv1 & iv & G1 & G2 & Hi)]; rewrite G1, G2; reflexivity.
  - destruct (nth_error (a_ws s) i) as [w|] eqn:En; [|discriminate Ec]. destruct w as [b|b q|b q|b|b|b e]; cbn [aexec_worker] in Ec |- *; try (left; exact Ec).
    destruct (cut_get _ _ b Hc) as [[G1 G2]|(iv1 & iv & G1 & G2 & Hi)]; rewrite G1 in Ec; rewrite G2; [left; exact Ec|]. destruct (cut_asearch iv1 iv Hi) as [(e & Hf)|Hf]; rewrite Hf in Ec; [right|left; exact Ec].
    injection Ec as <-. eexists. exists i, b, e. split; [reflexivity|]. cbn [aset a_ws]. rewrite set_nth_opt_nth, Nat.eqb_refl. replace (i <? length (a_ws s))%nat with true; [reflexivity|]. symmetry. apply Nat.ltb_lt. apply nth_error_Some. rewrite En. discriminate.
Qed.
End Autocomplete.
Lemma aprel_refl p : aprel p p.
Proof. destruct p as [s| |]; constructor; try reflexivity. induction (a_ws s); constructor; [constructor|assumption]. Qed.
