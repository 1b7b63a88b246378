(** C92 A failed search is not taken for a complete one. *)
From Coq Require Import String.
From Verif Require Import Base BaseLemmas GoMap Store Postings Merger Index Float64 Heap TopK Metric Suggest Autocomplete Spell.
From Verif Require Import P_PostingsLemmas.
From Verif Require IndexProofs SuggestProofs AutocompleteProofs SpellProofs.
Local Open Scope Z_scope.
Local Notation length := List.length.

Section Suggest.
Context (rb : roaring) (srt : list iter -> list iter) (ix : list (option inverted)) (tokens : list term) (d : metric) (alpha : f64) (k : Z).
Notation search iv b T := (Search rb (CPMerge (fuzzy_collect d (zlen tokens) b) srt) iv tokens T (NewTopKQueue k)).
Notation exec := (exec rb srt ix tokens d alpha k).
Notation run := (run rb srt ix tokens d alpha k).
Notation wsearch := (worker_search rb srt tokens d k).
Lemma worker_failed b T iv e : wsearch b T iv = Fail e -> exists e0, fst (search iv b T) = Fail e0 /\ e = ErrWrapped e0 \/ exists u, fst (search iv b T) = Ret u /\ snd (search iv b T) = Fail e.
Proof.
  unfold worker_search, sizeA. destruct (Search _ _ iv tokens T _) as [[u|e1| |] [q|e2| |]]; cbn [fst snd]; intros E; try discriminate E; injection E as <-.
  - exists e2. right. exists u. auto.
  - exists e1. left. auto.
Qed.
Lemma fail_stays c s s' i e : exec c (Running s) = Some (Running s') -> nth_error (s_ws s) i = Some (WFail e) -> nth_error (s_ws s') i = Some (WFail e).
Proof.
  destruct c as [|j]; cbn [Suggest.exec].
  - intros E H. assert (s_ws s' = s_ws s) as ->; [|exact H]. unfold exec_prod, send, goto in E.
    destruct (s_prod s) as [a b|a b|a b|]; [destruct (_ || _)|destruct (_ <=? _); [destruct (_ <? _)|]|destruct (_ <=? _); [destruct (_ <? _)|]|destruct (forallb _ _)]; try discriminate E; injection E as <-; reflexivity.
  - destruct (nth_error (s_ws s) j) as [w|] eqn:Ej; [|discriminate]. intros E H. assert (i <> j) as Hne. { intros ->. rewrite Ej in H. injection H as ->. discriminate E. }
    assert (exists w', s_ws s' = set_nth_opt j w' (s_ws s)) as (w' & ->).
    { unfold exec_worker, set_w in E. destruct w as [|b|b T|b q|b q| | | |e'].
      - destruct (s_ch s); [destruct (s_prod s); try discriminate E; injection E as <-; eexists; reflexivity|injection E as <-; eexists; reflexivity].
      - destruct (_ || _); [injection E as <-; eexists; reflexivity|]. destruct (IndicesGet ix b); injection E as <-; eexists; reflexivity.
      - destruct (IndicesGet ix b); [|discriminate E]. destruct (worker_search _ _ _ _ _ _ _ _); try discriminate E; injection E as <-; eexists; reflexivity.
      - destruct (s_locked s); [discriminate E|]. injection E as <-. eexists. reflexivity.
      - destruct (Merge _ _); try discriminate E. injection E as <-. eexists. reflexivity.
      - destruct (ManagerLowestScore _); try discriminate E. injection E as <-. eexists. reflexivity.
      - injection E as <-. eexists. reflexivity.
      - discriminate E.
      - discriminate E. }
    destruct (SuggestProofs.set_nth_split w' w j _ Ej) as (l1 & l2 & E1 & ->). rewrite E1 in H. destruct (Nat.lt_trichotomy i (length l1)) as [Hl|[Hl|Hl]].
    + rewrite nth_error_app1 in * by lia. exact H.
    + exfalso. assert (nth_error (s_ws s) i = Some w) as H' by (rewrite E1, nth_error_app2, Hl, Nat.sub_diag by lia; reflexivity). rewrite E1, H in H'. injection H' as <-. rewrite E1, nth_error_app2 in Ej by (destruct (le_lt_dec (length l1) j); [assumption|exfalso; discriminate E]). discriminate E.
    + rewrite nth_error_app2 in * by lia. destruct (i - length l1)%nat eqn:En; [lia|]. exact H.
Qed.
Lemma run_app a : forall b p p', run (a ++ b) p = Some p' -> exists p1, run a p = Some p1 /\ run b p1 = Some p'.
Proof. induction a as [|c a IH]; intros b p p' E; [exists p; auto|]. cbn [app Suggest.run] in *. destruct (exec c p) as [p1|]; [|discriminate]. apply IH. exact E. Qed.
Lemma run_join a : forall b p p1, run a p = Some p1 -> run (a ++ b) p = run b p1.
Proof. induction a as [|c a IH]; intros b p p1 E; [injection E as ->; reflexivity|]. cbn [app Suggest.run] in *. destruct (exec c p) as [p2|]; [|discriminate]. apply IH. exact E. Qed.
Lemma first_some ws e : first_error ws = Some e -> exists i, nth_error ws i = Some (WFail e).
Proof. induction ws as [|w ws IH]; [discriminate|]. destruct w; cbn [first_error]; intros E; try (destruct (IH E) as (i & Hi); exists (S i); exact Hi). injection E as <-. exists 0%nat. reflexivity. Qed.
Lemma first_none ws : first_error ws = None -> forall i e, nth_error ws i <> Some (WFail e).
Proof. induction ws as [|w ws IH]; intros E i e; [destruct i; discriminate|]. destruct i as [|i]; [destruct w; discriminate|]. destruct w; cbn [first_error] in E; try (exact (IH E i e)). discriminate E. Qed.
Lemma finish_ws sched : forall s r i e, nth_error (s_ws s) i = Some (WFail e) -> run sched (Running s) = Some (Finished r) -> exists e', r = Fail e'.
Proof.
  induction sched as [|c sched IH]; intros s r i e H E; [discriminate|]. cbn [Suggest.run] in E. destruct (exec c (Running s)) as [p|] eqn:Ec; [|discriminate]. destruct p as [s'|r'|].
  - apply (IH s' r i e); [exact (fail_stays c s s' i e Ec H)|exact E].
  - assert (r' = r) as -> by (destruct sched as [|c0 sched0]; [injection E as ->; reflexivity|destruct c0; discriminate E]). destruct c as [|j]; cbn [Suggest.exec] in Ec.
    + unfold exec_prod, send, goto in Ec. destruct (s_prod s) as [a b|a b|a b|]; [destruct (_ || _); discriminate Ec|destruct (_ <=? _); [destruct (_ <? _)|]; discriminate Ec|destruct (_ <=? _); [destruct (_ <? _)|]; discriminate Ec|].
      destruct (forallb _ _); [|discriminate Ec]. injection Ec as <-. destruct (first_error (s_ws s)) as [e'|] eqn:Ef; [exists e'; reflexivity|]. exfalso. exact (first_none _ Ef i e H).
    + destruct (nth_error (s_ws s) j) as [w|]; [|discriminate Ec]. unfold exec_worker in Ec. destruct w as [|b|b T|b q|b q| | | |e'].
      * destruct (s_ch s); [destruct (s_prod s)|]; discriminate Ec.
      * cbv zeta in Ec. destruct (_ || _); [discriminate Ec|]. destruct (IndicesGet ix b); discriminate Ec.
      * destruct (IndicesGet ix b); [|discriminate Ec]. destruct (worker_search _ _ _ _ _ _ _ _); discriminate Ec.
      * destruct (s_locked s); discriminate Ec.
      * destruct (Merge _ _); discriminate Ec.
      * destruct (ManagerLowestScore _); discriminate Ec.
      * discriminate Ec.
      * discriminate Ec.
      * discriminate Ec.
  - destruct sched as [|c0 sched0]; [discriminate E|destruct c0; discriminate E].
Qed.
Lemma new_fail c s s' i e : exec c (Running s) = Some (Running s') -> nth_error (s_ws s') i = Some (WFail e) ->
  nth_error (s_ws s) i = Some (WFail e) \/ exists b T iv, c = CWork i /\ nth_error (s_ws s) i = Some (WSearch b T) /\ IndicesGet ix b = Some iv /\ wsearch b T iv = Fail e.
Proof.
  destruct c as [|j]; cbn [Suggest.exec].
  - intros E H. left. assert (s_ws s' = s_ws s) as <-; [|exact H]. unfold exec_prod, send, goto in E.
    destruct (s_prod s) as [a b|a b|a b|]; [destruct (_ || _)|destruct (_ <=? _); [destruct (_ <? _)|]|destruct (_ <=? _); [destruct (_ <? _)|]|destruct (forallb _ _)]; try discriminate E; injection E as <-; reflexivity.
  - destruct (nth_error (s_ws s) j) as [w|] eqn:Ej; [|discriminate]. intros E H.
    assert (exists w', s_ws s' = set_nth_opt j w' (s_ws s) /\ (forall e', w' = WFail e' -> exists b T iv, w = WSearch b T /\ IndicesGet ix b = Some iv /\ wsearch b T iv = Fail e')) as (w' & Es & Hw).
    { unfold exec_worker, set_w in E. destruct w as [|b|b T|b q|b q| | | |e'].
      - destruct (s_ch s); [destruct (s_prod s); try discriminate E; injection E as <-; eexists; (split; [reflexivity|discriminate])|injection E as <-; eexists; (split; [reflexivity|discriminate])].
      - destruct (_ || _); [injection E as <-; eexists; (split; [reflexivity|discriminate])|]. destruct (IndicesGet ix b); injection E as <-; eexists; (split; [reflexivity|discriminate]).
      - destruct (IndicesGet ix b) as [iv|] eqn:Ei; [|discriminate E]. destruct (worker_search _ _ _ _ _ _ _ _) as [q|e1| |] eqn:Ew; try discriminate E; injection E as <-; eexists; (split; [reflexivity|]); intros e' He; [discriminate He|]. injection He as <-. exists b, T, iv. auto.
      - destruct (s_locked s); [discriminate E|]. injection E as <-. eexists; (split; [reflexivity|discriminate]).
      - destruct (Merge _ _); try discriminate E. injection E as <-. eexists; (split; [reflexivity|discriminate]).
      - destruct (ManagerLowestScore _); try discriminate E. injection E as <-. eexists; (split; [reflexivity|discriminate]).
      - injection E as <-. eexists; (split; [reflexivity|discriminate]).
      - discriminate E.
      - discriminate E. }
    rewrite Es, IndexProofs.set_nth_opt_nth in H. destruct (Nat.eq_dec i j) as [->|Hne].
    + right. assert (w' = WFail e) as Hw'. { revert H. destruct (Nat.eqb_spec j j); [|congruence]. destruct (j <? length (s_ws s))%nat; intros H; congruence. }
      destruct (Hw e Hw') as (b & T & iv & -> & Hi & Hs). exists b, T, iv. auto.
    + left. revert H. destruct (Nat.eqb_spec i j); [congruence|]. destruct (Nat.eqb_spec j i); [congruence|]. auto.
Qed.
End Suggest.

Section Auto.
Context (rb : roaring) (srt : list iter -> list iter) (ix : list (option inverted)) (terms : list term) (limit : Z).
Notation exec := (aexec rb srt ix terms limit).
Notation run := (arun rb srt ix terms limit).
Notation search := (asearch rb srt terms limit).
Notation wsize := AutocompleteProofs.wsize.
Definition abound (p : apst) : Z := match p with ALoop b => b | AWait => Z.max (zlen terms) (zlen ix) end.
(* what a goroutine that has searched found *)
Definition aw_ok (w : awst) : Prop :=
  match w with
  | ASearch _ => True
  | AFail b e => exists iv, IndicesGet ix b = Some iv /\ search iv = Fail e
  | ALock b _ | ACollect b _ | AUnlock b | ADone b => exists iv items, IndicesGet ix b = Some iv /\ search iv = Ret items
  end.
Definition ainv (s : ast) : Prop :=
  zlen terms <= abound (a_prod s) /\
  (forall b iv, zlen terms <= b < abound (a_prod s) -> IndicesGet ix b = Some iv -> exists i w, nth_error (a_ws s) i = Some w /\ wsize w = b) /\
  (forall i w, nth_error (a_ws s) i = Some w -> aw_ok w /\ zlen terms <= wsize w).
Lemma ainv_set s s' j w w' : ainv s -> a_prod s' = a_prod s -> a_ws s' = set_nth_opt j w' (a_ws s) -> nth_error (a_ws s) j = Some w -> wsize w' = wsize w -> aw_ok w' -> ainv s'.
Proof.
  intros (H0 & H1 & H2) Ep Ew Ej Esz Hok. assert (j < length (a_ws s))%nat as Hj by (apply nth_error_Some; rewrite Ej; discriminate). unfold ainv. rewrite Ep, Ew. split; [exact H0|]. split.
  - intros b iv Hb Hi. destruct (H1 b iv Hb Hi) as (i & x & Hx & Hs). destruct (Nat.eq_dec i j) as [->|Hne].
    + exists j, w'. rewrite IndexProofs.set_nth_opt_nth, Nat.eqb_refl. replace (j <? length (a_ws s))%nat with true by (symmetry; apply Nat.ltb_lt; exact Hj). split; [reflexivity|]. congruence.
    + exists i, x. rewrite IndexProofs.set_nth_opt_nth. destruct (Nat.eqb_spec i j); [congruence|]. auto.
  - intros i x Hx. rewrite IndexProofs.set_nth_opt_nth in Hx. destruct (Nat.eqb_spec i j) as [->|].
    + replace (j <? length (a_ws s))%nat with true in Hx by (symmetry; apply Nat.ltb_lt; exact Hj). injection Hx as <-. split; [exact Hok|]. rewrite Esz. exact (proj2 (H2 j w Ej)).
    + exact (H2 i x Hx).
Qed.
Lemma ainv_step c s s' : ainv s -> exec c (ARunning s) = Some (ARunning s') -> ainv s'.
Proof.
  intros Hi E. destruct c as [|j]; cbn [aexec] in E.
  - unfold aexec_prod in E. destruct (a_prod s) as [b|] eqn:Ep; [|destruct (forallb _ _); discriminate E]. destruct Hi as (H0 & H1 & H2). rewrite Ep in H0, H1. cbn [abound] in H0, H1. destruct (b <? zlen ix) eqn:Eb; injection E as <-.
    + unfold ainv. cbn [a_prod a_ws abound]. split; [lia|]. split.
      * intros b' iv Hb' Hx. destruct (Z.eq_dec b' b) as [->|Hne].
        -- rewrite Hx. exists (length (a_ws s)), (ASearch b). rewrite nth_error_app2, Nat.sub_diag by lia. auto.
        -- destruct (H1 b' iv ltac:(lia) Hx) as (i & w & Hw & Hs). exists i, w. split; [|exact Hs]. destruct (IndicesGet ix b); [|exact Hw]. rewrite nth_error_app1; [exact Hw|]. apply nth_error_Some. rewrite Hw. discriminate.
      * intros i w Hw. destruct (IndicesGet ix b) eqn:Ex; [|exact (H2 i w Hw)]. destruct (Nat.lt_ge_cases i (length (a_ws s))) as [Hl|Hl].
        -- rewrite nth_error_app1 in Hw by exact Hl. exact (H2 i w Hw).
        -- rewrite nth_error_app2 in Hw by exact Hl. destruct (i - length (a_ws s))%nat as [|[|n]]; [|discriminate|discriminate]. injection Hw as <-. split; [exact I|]. cbn [AutocompleteProofs.wsize]. lia.
    + unfold ainv. cbn [a_prod a_ws abound]. split; [lia|]. split; [|exact H2]. intros b' iv Hb' Hx. apply (H1 b' iv); [|exact Hx]. unfold IndicesGet in Hx. destruct ((b' >=? 0) && (b' <? zlen ix)) eqn:E'; [lia|discriminate].
  - destruct (nth_error (a_ws s) j) as [w|] eqn:Ej; [|discriminate]. destruct (proj2 (proj2 Hi) j w Ej) as [Hok _]. unfold aexec_worker, aset in E. destruct w as [b|b items|b items|b|b|b e].
    + destruct (IndicesGet ix b) as [iv|] eqn:Ex; [|discriminate E]. destruct (asearch rb srt terms limit iv) as [items|e| |] eqn:Es; try discriminate E; injection E as <-; (eapply ainv_set; [exact Hi|reflexivity|reflexivity|exact Ej|reflexivity|]); cbn [aw_ok]; eauto.
    + destruct (a_locked s); [discriminate E|]. injection E as <-. eapply ainv_set; [exact Hi|reflexivity|reflexivity|exact Ej|reflexivity|exact Hok].
    + destruct (manager_collect _ _); try discriminate E. injection E as <-. eapply ainv_set; [exact Hi|reflexivity|reflexivity|exact Ej|reflexivity|exact Hok].
    + injection E as <-. eapply ainv_set; [exact Hi|reflexivity|reflexivity|exact Ej|reflexivity|exact Hok].
    + discriminate E.
    + discriminate E.
Qed.
Lemma aerror_some ws e : afirst_error ws = Some e -> exists i b, nth_error ws i = Some (AFail b e).
Proof. induction ws as [|w ws IH]; [discriminate|]. destruct w; cbn [afirst_error]; intros E; try (destruct (IH E) as (i & b' & Hi); exists (S i), b'; exact Hi). injection E as <-. exists 0%nat. eexists. reflexivity. Qed.
Lemma aerror_none ws : afirst_error ws = None -> forall i b e, nth_error ws i <> Some (AFail b e).
Proof. induction ws as [|w ws IH]; intros E i b' e; [destruct i; discriminate|]. destruct i as [|i]; [destruct w; discriminate|]. destruct w; cbn [afirst_error] in E; try (exact (IH E i b' e)). discriminate E. Qed.
Lemma afinish sched : forall s r, ainv s -> run sched (ARunning s) = Some (AFinished r) ->
  match r with
  | Ret _ => forall b iv, zlen terms <= b -> IndicesGet ix b = Some iv -> exists items, search iv = Ret items
  | Fail e => exists b iv, zlen terms <= b /\ IndicesGet ix b = Some iv /\ search iv = Fail e
  | _ => False
  end.
Proof.
  induction sched as [|c sched IH]; intros s r Hi E; [discriminate|]. cbn [arun] in E. destruct (exec c (ARunning s)) as [p|] eqn:Ec; [|discriminate]. destruct p as [s'|r'|].
  - exact (IH s' r (ainv_step c s s' Hi Ec) E).
  - assert (r' = r) as -> by (destruct sched as [|c0 sched0]; [injection E as ->; reflexivity|destruct c0; discriminate E]). destruct c as [|j]; cbn [aexec] in Ec.
    + unfold aexec_prod in Ec. destruct (a_prod s) as [b|] eqn:Ep; [destruct (b <? zlen ix); discriminate Ec|]. destruct (forallb agone (a_ws s)) eqn:Eg; [|discriminate Ec]. injection Ec as <-. destruct Hi as (H0 & H1 & H2). rewrite Ep in H1. cbn [abound] in H1.
      destruct (afirst_error (a_ws s)) as [e|] eqn:Ef.
      * destruct (aerror_some _ _ Ef) as (i & b & Hb). destruct (H2 i _ Hb) as [(iv & Hx & Hs) Hz]. exists b, iv. auto.
      * intros b iv Hb Hx. assert (b < zlen ix) as Hlt by (unfold IndicesGet in Hx; destruct ((b >=? 0) && (b <? zlen ix)) eqn:E'; [lia|discriminate]).
        destruct (H1 b iv ltac:(lia) Hx) as (i & w & Hw & Hs). rewrite forallb_forall in Eg. specialize (Eg w (nth_error_In _ _ Hw)). destruct (H2 i w Hw) as [Hok _]. destruct w as [b1|b1 it|b1 it|b1|b1|b1 e]; try discriminate Eg.
        -- cbn [AutocompleteProofs.wsize] in Hs. subst b1. destruct Hok as (iv' & items & Hx' & Hs'). exists items. congruence.
        -- exfalso. exact (aerror_none _ Ef i b1 e Hw).
    + destruct (nth_error (a_ws s) j) as [w|]; [|discriminate Ec]. unfold aexec_worker in Ec. destruct w as [b|b items|b items|b|b|b e].
      * destruct (IndicesGet ix b); [|discriminate Ec]. destruct (asearch _ _ _ _ _); discriminate Ec.
      * destruct (a_locked s); discriminate Ec.
      * destruct (manager_collect _ _); discriminate Ec.
      * discriminate Ec.
      * discriminate Ec.
      * discriminate Ec.
  - destruct sched as [|c0 sched0]; [discriminate E|destruct c0; discriminate E].
Qed.
Lemma astart_inv s : astart terms limit = ARunning s -> ainv s.
Proof. unfold astart. destruct (NewTopKQueue limit); try discriminate. intros E. injection E as <-. split; [cbn; lia|]. split; [cbn [a_prod abound]; intros; lia|]. intros [|i] w Hw; discriminate Hw. Qed.
End Auto.

Section LM.
Context (rb : roaring) (srt : list iter -> list iter) (ix : list (option inverted)) (terms : list term) (score : Z -> res f64) (limit : Z).
Notation exec := (lexec rb srt ix terms score limit).
Notation run := (lrun rb srt ix terms score limit).
Notation search := (lsearch rb srt terms score limit).
Notation wsize := SpellProofs.wsize.
Definition lbound (p : lpst) : Z := match p with LLoop b => b | LWait => Z.max (zlen terms) (zlen ix) end.
(* what a goroutine that has searched found *)
Definition lw_ok (w : lwst) : Prop :=
  match w with
  | LSearch _ => True
  | LFail b e => exists iv, IndicesGet ix b = Some iv /\ search iv = Fail e
  | LLock b _ | LCollect b _ | LUnlock b | LDone b => exists iv items, IndicesGet ix b = Some iv /\ search iv = Ret items
  end.
Definition linv (s : lst) : Prop :=
  zlen terms <= lbound (l_prod s) /\
  (forall b iv, zlen terms <= b < lbound (l_prod s) -> IndicesGet ix b = Some iv -> exists i w, nth_error (l_ws s) i = Some w /\ wsize w = b) /\
  (forall i w, nth_error (l_ws s) i = Some w -> lw_ok w /\ zlen terms <= wsize w).
Lemma linv_set s s' j w w' : linv s -> l_prod s' = l_prod s -> l_ws s' = set_nth_opt j w' (l_ws s) -> nth_error (l_ws s) j = Some w -> wsize w' = wsize w -> lw_ok w' -> linv s'.
Proof.
  intros (H0 & H1 & H2) Ep Ew Ej Esz Hok. assert (j < length (l_ws s))%nat as Hj by (apply nth_error_Some; rewrite Ej; discriminate). unfold linv. rewrite Ep, Ew. split; [exact H0|]. split.
  - intros b iv Hb Hi. destruct (H1 b iv Hb Hi) as (i & x & Hx & Hs). destruct (Nat.eq_dec i j) as [->|Hne].
    + exists j, w'. rewrite IndexProofs.set_nth_opt_nth, Nat.eqb_refl. replace (j <? length (l_ws s))%nat with true by (symmetry; apply Nat.ltb_lt; exact Hj). split; [reflexivity|]. congruence.
    + exists i, x. rewrite IndexProofs.set_nth_opt_nth. destruct (Nat.eqb_spec i j); [congruence|]. auto.
  - intros i x Hx. rewrite IndexProofs.set_nth_opt_nth in Hx. destruct (Nat.eqb_spec i j) as [->|].
    + replace (j <? length (l_ws s))%nat with true in Hx by (symmetry; apply Nat.ltb_lt; exact Hj). injection Hx as <-. split; [exact Hok|]. rewrite Esz. exact (proj2 (H2 j w Ej)).
    + exact (H2 i x Hx).
Qed.
Lemma linv_step c s s' : linv s -> exec c (LRunning s) = Some (LRunning s') -> linv s'.
Proof.
  intros Hi E. destruct c as [|j]; cbn [lexec] in E.
  - unfold lexec_prod in E. destruct (l_prod s) as [b|] eqn:Ep; [|destruct (forallb _ _); discriminate E]. destruct Hi as (H0 & H1 & H2). rewrite Ep in H0, H1. cbn [lbound] in H0, H1. destruct (b <? zlen ix) eqn:Eb; injection E as <-.
    + unfold linv. cbn [l_prod l_ws lbound]. split; [lia|]. split.
      * intros b' iv Hb' Hx. destruct (Z.eq_dec b' b) as [->|Hne].
        -- rewrite Hx. exists (length (l_ws s)), (LSearch b). rewrite nth_error_app2, Nat.sub_diag by lia. auto.
        -- destruct (H1 b' iv ltac:(lia) Hx) as (i & w & Hw & Hs). exists i, w. split; [|exact Hs]. destruct (IndicesGet ix b); [|exact Hw]. rewrite nth_error_app1; [exact Hw|]. apply nth_error_Some. rewrite Hw. discriminate.
      * intros i w Hw. destruct (IndicesGet ix b) eqn:Ex; [|exact (H2 i w Hw)]. destruct (Nat.lt_ge_cases i (length (l_ws s))) as [Hl|Hl].
        -- rewrite nth_error_app1 in Hw by exact Hl. exact (H2 i w Hw).
        -- rewrite nth_error_app2 in Hw by exact Hl. destruct (i - length (l_ws s))%nat as [|[|n]]; [|discriminate|discriminate]. injection Hw as <-. split; [exact I|]. cbn [SpellProofs.wsize]. lia.
    + unfold linv. cbn [l_prod l_ws lbound]. split; [lia|]. split; [|exact H2]. intros b' iv Hb' Hx. apply (H1 b' iv); [|exact Hx]. unfold IndicesGet in Hx. destruct ((b' >=? 0) && (b' <? zlen ix)) eqn:E'; [lia|discriminate].
  - destruct (nth_error (l_ws s) j) as [w|] eqn:Ej; [|discriminate]. destruct (proj2 (proj2 Hi) j w Ej) as [Hok _]. unfold lexec_worker, lset in E. destruct w as [b|b items|b items|b|b|b e].
    + destruct (IndicesGet ix b) as [iv|] eqn:Ex; [|discriminate E]. destruct (lsearch rb srt terms score limit iv) as [items|e| |] eqn:Es; try discriminate E; injection E as <-; (eapply linv_set; [exact Hi|reflexivity|reflexivity|exact Ej|reflexivity|]); cbn [lw_ok]; eauto.
    + destruct (l_locked s); [discriminate E|]. injection E as <-. eapply linv_set; [exact Hi|reflexivity|reflexivity|exact Ej|reflexivity|exact Hok].
    + destruct (Merge _ _); try discriminate E. injection E as <-. eapply linv_set; [exact Hi|reflexivity|reflexivity|exact Ej|reflexivity|exact Hok].
    + injection E as <-. eapply linv_set; [exact Hi|reflexivity|reflexivity|exact Ej|reflexivity|exact Hok].
    + discriminate E.
    + discriminate E.
Qed.
Lemma lerror_some ws e : lfirst_error ws = Some e -> exists i b, nth_error ws i = Some (LFail b e).
Proof. induction ws as [|w ws IH]; [discriminate|]. destruct w; cbn [lfirst_error]; intros E; try (destruct (IH E) as (i & b' & Hi); exists (S i), b'; exact Hi). injection E as <-. exists 0%nat. eexists. reflexivity. Qed.
Lemma lerror_none ws : lfirst_error ws = None -> forall i b e, nth_error ws i <> Some (LFail b e).
Proof. induction ws as [|w ws IH]; intros E i b' e; [destruct i; discriminate|]. destruct i as [|i]; [destruct w; discriminate|]. destruct w; cbn [lfirst_error] in E; try (exact (IH E i b' e)). discriminate E. Qed.
Lemma lfinish sched : forall s r, linv s -> run sched (LRunning s) = Some (LFinished r) ->
  match r with
  | Ret _ => forall b iv, zlen terms <= b -> IndicesGet ix b = Some iv -> exists items, search iv = Ret items
  | Fail e => exists b iv, zlen terms <= b /\ IndicesGet ix b = Some iv /\ search iv = Fail e
  | _ => False
  end.
Proof.
  induction sched as [|c sched IH]; intros s r Hi E; [discriminate|]. cbn [lrun] in E. destruct (exec c (LRunning s)) as [p|] eqn:Ec; [|discriminate]. destruct p as [s'|r'|].
  - exact (IH s' r (linv_step c s s' Hi Ec) E).
  - assert (r' = r) as -> by (destruct sched as [|c0 sched0]; [injection E as ->; reflexivity|destruct c0; discriminate E]). destruct c as [|j]; cbn [lexec] in Ec.
    + unfold lexec_prod in Ec. destruct (l_prod s) as [b|] eqn:Ep; [destruct (b <? zlen ix); discriminate Ec|]. destruct (forallb lgone (l_ws s)) eqn:Eg; [|discriminate Ec]. injection Ec as <-. destruct Hi as (H0 & H1 & H2). rewrite Ep in H1. cbn [lbound] in H1.
      destruct (lfirst_error (l_ws s)) as [e|] eqn:Ef.
      * destruct (lerror_some _ _ Ef) as (i & b & Hb). destruct (H2 i _ Hb) as [(iv & Hx & Hs) Hz]. exists b, iv. auto.
      * intros b iv Hb Hx. assert (b < zlen ix) as Hlt by (unfold IndicesGet in Hx; destruct ((b >=? 0) && (b <? zlen ix)) eqn:E'; [lia|discriminate]).
        destruct (H1 b iv ltac:(lia) Hx) as (i & w & Hw & Hs). rewrite forallb_forall in Eg. specialize (Eg w (nth_error_In _ _ Hw)). destruct (H2 i w Hw) as [Hok _]. destruct w as [b1|b1 it|b1 it|b1|b1|b1 e]; try discriminate Eg.
        -- cbn [SpellProofs.wsize] in Hs. subst b1. destruct Hok as (iv' & items & Hx' & Hs'). exists items. congruence.
        -- exfalso. exact (lerror_none _ Ef i b1 e Hw).
    + destruct (nth_error (l_ws s) j) as [w|]; [|discriminate Ec]. unfold lexec_worker in Ec. destruct w as [b|b items|b items|b|b|b e].
      * destruct (IndicesGet ix b); [|discriminate Ec]. destruct (lsearch _ _ _ _ _ _); discriminate Ec.
      * destruct (l_locked s); discriminate Ec.
      * destruct (Merge _ _); discriminate Ec.
      * discriminate Ec.
      * discriminate Ec.
      * discriminate Ec.
  - destruct sched as [|c0 sched0]; [discriminate E|destruct c0; discriminate E].
Qed.
Lemma lstart_inv s : lstart terms limit = LRunning s -> linv s.
Proof. unfold lstart. destruct (NewTopKQueue limit); try discriminate. intros E. injection E as <-. split; [cbn; lia|]. split; [cbn [l_prod lbound]; intros; lia|]. intros [|i] w Hw; discriminate Hw. Qed.
End LM.

(** Fuzzy search: whatever the index is, an answer without an error means that every search of
    an index that was made succeeded; an error is that of a search that was made. *)
Theorem C92_suggest : forall rb srt ix tokens d alpha k sched r,
  let search := fun iv b T => Search rb (CPMerge (fuzzy_collect d (zlen tokens) b) srt) iv tokens T (NewTopKQueue k) in
  let made := fun b T iv => exists before i after s, sched = before ++ CWork i :: after /\
    run rb srt ix tokens d alpha k before (start ix tokens d alpha k) = Some (Running s) /\ nth_error (s_ws s) i = Some (WSearch b T) /\ IndicesGet ix b = Some iv in
  run rb srt ix tokens d alpha k sched (start ix tokens d alpha k) = Some (Finished r) ->
  ((exists l, r = Ret l) /\ forall b T iv, made b T iv -> exists u q, search iv b T = (Ret u, Ret q)) \/
  ((exists e, r = Fail e) /\ exists b T iv, made b T iv /\ forall u q, search iv b T <> (Ret u, Ret q)).
Proof.
  intros rb srt ix tokens d alpha k sched r search made E.
  assert (forall b T iv, made b T iv -> (exists u q, search iv b T = (Ret u, Ret q)) \/ ((forall u q, search iv b T <> (Ret u, Ret q)) /\ exists e, r = Fail e)) as Hmade.
  { intros b T iv (before & i & after & s & -> & Eb & Hw & Hi). rewrite (run_join _ _ _ _ _ _ _ _ _ _ _ Eb) in E. cbn [run exec] in E. rewrite Hw in E. cbn [exec_worker] in E. rewrite Hi in E. unfold search.
    unfold worker_search, sizeA in E. destruct (Search _ _ iv tokens T _) as [[u|e1| |] [q|e2| |]]; try (destruct after as [|c0 after0]; [discriminate E|destruct c0; discriminate E]).
    - left. eauto.
    - right. split; [discriminate|]. apply (finish_ws rb srt ix tokens d alpha k after _ r i e2) in E; [exact E|]. cbn [set_w s_ws]. rewrite IndexProofs.set_nth_opt_nth, Nat.eqb_refl. replace (i <? length (s_ws s))%nat with true; [reflexivity|]. symmetry. apply Nat.ltb_lt. apply nth_error_Some. rewrite Hw. discriminate.
    - right. split; [discriminate|]. apply (finish_ws rb srt ix tokens d alpha k after _ r i (ErrWrapped e1)) in E; [exact E|]. cbn [set_w s_ws]. rewrite IndexProofs.set_nth_opt_nth, Nat.eqb_refl. replace (i <? length (s_ws s))%nat with true; [reflexivity|]. symmetry. apply Nat.ltb_lt. apply nth_error_Some. rewrite Hw. discriminate. }
  assert (forall n s, (n <= length sched)%nat -> run rb srt ix tokens d alpha k (firstn n sched) (start ix tokens d alpha k) = Some (Running s) -> forall i e, nth_error (s_ws s) i = Some (WFail e) -> exists b T iv, made b T iv /\ worker_search rb srt tokens d k b T iv = Fail e) as Hinv.
  { induction n as [|n IH]; intros s Hn Er i e Hf.
    - cbn [firstn run] in Er. unfold start in Er. destruct (zlen tokens =? 0); [discriminate|]. destruct (_ || _); [discriminate|]. destruct (NewTopKQueue k); try discriminate. injection Er as <-. cbn [s_ws] in Hf. apply nth_error_In, repeat_spec in Hf. discriminate.
    - destruct (nth_error sched n) as [c|] eqn:Ec; [|apply nth_error_None in Ec; lia]. assert (sched = firstn n sched ++ c :: skipn (S n) sched) as Es. { destruct (nth_error_split _ _ Ec) as (l1 & l2 & -> & <-). rewrite firstn_app, firstn_all, Nat.sub_diag. cbn [firstn]. rewrite app_nil_r. f_equal. f_equal. replace (S (length l1)) with (length l1 + 1)%nat by lia. rewrite skipn_app, skipn_all2 by lia. replace (length l1 + 1 - length l1)%nat with 1%nat by lia. reflexivity. }
      assert (firstn (S n) sched = firstn n sched ++ [c]) as Ef. { rewrite Es at 1. replace (S n) with (length (firstn n sched) + 1)%nat by (rewrite firstn_length; lia). rewrite firstn_app_2. reflexivity. }
      rewrite Ef in Er. destruct (run_app _ _ _ _ _ _ _ _ _ _ _ Er) as (p1 & E1 & E2). cbn [run] in E2. destruct (exec rb srt ix tokens d alpha k c p1) as [p2|] eqn:Ex; [|discriminate]. injection E2 as ->. destruct p1 as [s1| |]; [|discriminate Ex|discriminate Ex].
      destruct (new_fail rb srt ix tokens d alpha k c s1 s i e Ex Hf) as [Hold|(b & T & iv & -> & Hw & Hi & Hs)].
      + exact (IH s1 ltac:(lia) E1 i e Hold).
      + exists b, T, iv. split; [|exact Hs]. exists (firstn n sched), i, (skipn (S n) sched), s1. auto. }
  (* the last step *)
  assert (r = Ret [] /\ (forall b T iv, ~ made b T iv) \/ exists n s, (n <= length sched)%nat /\ run rb srt ix tokens d alpha k (firstn n sched) (start ix tokens d alpha k) = Some (Running s) /\ r = match first_error (s_ws s) with Some e => Fail e | None => Ret (fst (GetCandidates (s_glob s))) end) as Hlast.
  { destruct (rev sched) as [|c rs] eqn:Erv.
    - assert (sched = []) as -> by (rewrite <- (rev_involutive sched), Erv; reflexivity). left. cbn [run] in E. injection E as E. split; [unfold start in E; destruct (zlen tokens =? 0); [injection E as <-; reflexivity|destruct (_ || _); [discriminate|destruct (NewTopKQueue k); discriminate]]|]. intros b T iv (before & i & after & s & Hs & _). destruct before; discriminate Hs.
    - right. assert (sched = rev rs ++ [c]) as Es by (rewrite <- (rev_involutive sched), Erv; reflexivity). exists (length (rev rs)). rewrite Es in E. destruct (run_app _ _ _ _ _ _ _ _ _ _ _ E) as (p1 & E1 & E2). cbn [run] in E2. destruct (exec rb srt ix tokens d alpha k c p1) as [p2|] eqn:Ex; [|discriminate]. injection E2 as ->.
      destruct p1 as [s1| |]; [|discriminate Ex|discriminate Ex]. exists s1. split; [rewrite Es, app_length; lia|]. split; [rewrite Es, firstn_app, firstn_all, Nat.sub_diag; cbn [firstn]; rewrite app_nil_r; exact E1|].
      destruct c as [|j]; cbn [exec] in Ex.
      + unfold exec_prod, send, goto in Ex. destruct (s_prod s1) as [a b|a b|a b|]; [destruct (_ || _); discriminate Ex|destruct (_ <=? _); [destruct (_ <? _)|]; discriminate Ex|destruct (_ <=? _); [destruct (_ <? _)|]; discriminate Ex|]. destruct (forallb _ _); [|discriminate Ex]. injection Ex as <-. reflexivity.
      + exfalso. destruct (nth_error (s_ws s1) j) as [w|]; [|discriminate Ex]. unfold exec_worker in Ex. destruct w as [|b|b T|b q|b q| | | |e'].
        * destruct (s_ch s1); [destruct (s_prod s1)|]; discriminate Ex.
        * cbv zeta in Ex. destruct (_ || _); [discriminate Ex|]. destruct (IndicesGet ix b); discriminate Ex.
        * destruct (IndicesGet ix b); [|discriminate Ex]. destruct (worker_search _ _ _ _ _ _ _ _); discriminate Ex.
        * destruct (s_locked s1); discriminate Ex.
        * destruct (Merge _ _); discriminate Ex.
        * destruct (ManagerLowestScore _); discriminate Ex.
        * discriminate Ex.
        * discriminate Ex.
        * discriminate Ex. }
  destruct Hlast as [[-> Hno]|(n & s & Hn & Er & ->)]; [left; split; [eauto|]; intros b T iv H; exfalso; exact (Hno b T iv H)|]. destruct (first_error (s_ws s)) as [e|] eqn:Ef.
  - right. split; [eauto|]. destruct (first_some _ _ Ef) as (i & Hi). destruct (Hinv n s Hn Er i e Hi) as (b & T & iv & Hm & Hs). exists b, T, iv. split; [exact Hm|]. intros u q Hq. unfold worker_search, sizeA in Hs. unfold search in Hq. rewrite Hq in Hs. discriminate.
  - left. split; [eauto|]. intros b T iv Hm. destruct (Hmade b T iv Hm) as [H|[_ [e H]]]; [exact H|discriminate].
Qed.
Print Assumptions C92_suggest.
(** Autocompletion searches every index with as many terms as the query or more: it answers
    exactly if all these searches succeed, and an error is that of one of them. *)
Theorem C92_autocomplete : forall rb srt ix terms limit sched r,
  let search := fun iv => fst (Search rb (CPMerge (firstk_collect limit) srt) iv terms (zlen terms) []) in
  arun rb srt ix terms limit sched (astart terms limit) = Some (AFinished r) ->
  ((exists l, r = Ret l) /\ forall b iv, zlen terms <= b -> IndicesGet ix b = Some iv -> exists u, search iv = Ret u) \/
  exists b iv e, zlen terms <= b /\ IndicesGet ix b = Some iv /\ search iv = Fail e /\ r = Fail (ErrWrapped e).
Proof.
  intros rb srt ix terms limit sched r search E. destruct (astart terms limit) as [s|r0|] eqn:Es; [|unfold astart in Es; destruct (NewTopKQueue limit); discriminate Es|destruct sched as [|c0 sched0]; [discriminate E|destruct c0; discriminate E]].
  pose proof (afinish rb srt ix terms limit sched s r (astart_inv rb srt ix terms limit s Es) E) as H. destruct r as [l|e| |]; [left|right|contradiction|contradiction].
  - split; [eauto|]. intros b iv Hb Hi. destruct (H b iv Hb Hi) as (items & Hs). unfold asearch in Hs. unfold search. destruct (Search _ _ iv terms _ _) as [[u|e1| |] x]; try discriminate Hs. exists u. reflexivity.
  - destruct H as (b & iv & Hb & Hi & Hs). exists b, iv. unfold asearch in Hs. unfold search. destruct (Search _ _ iv terms _ _) as [[u|e1| |] x]; try discriminate Hs. injection Hs as <-. exists e1. auto.
Qed.
Print Assumptions C92_autocomplete.
(** The same for the spellchecker's completions, ranked by the language model. *)
Theorem C92_completions : forall rb srt ix terms score topK sched r,
  let search := fun iv => Search rb (CPMerge (lm_collect score) srt) iv terms (zlen terms) (NewTopKQueue topK) in
  lrun rb srt ix terms score topK sched (lstart terms topK) = Some (LFinished r) ->
  ((exists l, r = Ret l) /\ forall b iv, zlen terms <= b -> IndicesGet ix b = Some iv -> exists u q, search iv = (Ret u, Ret q)) \/
  ((exists e, r = Fail e) /\ exists b iv, zlen terms <= b /\ IndicesGet ix b = Some iv /\ forall u q, search iv <> (Ret u, Ret q)).
Proof.
  intros rb srt ix terms score topK sched r search E. destruct (lstart terms topK) as [s|r0|] eqn:Es; [|unfold lstart in Es; destruct (NewTopKQueue topK); discriminate Es|destruct sched as [|c0 sched0]; [discriminate E|destruct c0; discriminate E]].
  pose proof (lfinish rb srt ix terms score topK sched s r (lstart_inv rb srt ix terms score topK s Es) E) as H. destruct r as [l|e| |]; [left|right|contradiction|contradiction].
  - split; [eauto|]. intros b iv Hb Hi. destruct (H b iv Hb Hi) as (items & Hs). unfold lsearch in Hs. unfold search. destruct (Search _ _ iv terms _ _) as [[u|e1| |] [q|e2| |]]; try discriminate Hs. eauto.
  - split; [eauto|]. destruct H as (b & iv & Hb & Hi & Hs). exists b, iv. split; [exact Hb|]. split; [exact Hi|]. intros u q Hq. unfold search in Hq. unfold lsearch in Hs. rewrite Hq in Hs. discriminate.
Qed.
Print Assumptions C92_completions.

(** Runs over a damaged index (a posting list cut short) and over one that is whole: the
    hypotheses are met both ways. *)
Fixpoint greedy92 (step : choice -> proc -> option proc) (fuel : nat) (p : proc) : list choice :=
  match fuel with
  | O => []
  | S f =>
      match find (fun c => match step c p with Some _ => true | None => false end) (map CWork (seq 0 5) ++ [CProd]) with
      | Some c => c :: match step c p with Some p' => greedy92 step f p' | None => [] end
      | None => []
      end
  end.
Fixpoint agreedy92 (step : achoice -> aproc -> option aproc) (fuel : nat) (p : aproc) : list achoice :=
  match fuel with
  | O => []
  | S f =>
      match find (fun c => match step c p with Some _ => true | None => false end) (map AWork (seq 0 5) ++ [AProd]) with
      | Some c => c :: match step c p with Some p' => agreedy92 step f p' | None => [] end
      | None => []
      end
  end.
Definition ix92 (len : Z) : list (option inverted) := [None; Some (mkInv [2] [(bs "a", (1, 0, 1))]); Some (mkInv [3] [(bs "a", (1, 0, len)); (bs "b", (1, 0, 1))])].
Definition verdict92 (p : option proc) : option bool := match p with Some (Finished (Ret _)) => Some true | Some (Finished (Fail _)) => Some false | _ => None end.
Definition averdict92 (p : option aproc) : option bool := match p with Some (AFinished (Ret _)) => Some true | Some (AFinished (Fail _)) => Some false | _ => None end.
Definition half92 : f64 := fdiv (of_int 1) (of_int 2).
Definition sched92 (len : Z) : list choice := greedy92 (exec rb4 (fun l => l) (ix92 len) [bs "a"] Jaccard half92 3) 60 (start (ix92 len) [bs "a"] Jaccard half92 3).
Definition asched92 (len : Z) : list achoice := agreedy92 (aexec rb4 (fun l => l) (ix92 len) [bs "a"] 3) 60 (astart [bs "a"] 3).
Example C92_nonvacuous :
  verdict92 (run rb4 (fun l => l) (ix92 1) [bs "a"] Jaccard half92 3 (sched92 1) (start (ix92 1) [bs "a"] Jaccard half92 3)) = Some true /\
  verdict92 (run rb4 (fun l => l) (ix92 2) [bs "a"] Jaccard half92 3 (sched92 2) (start (ix92 2) [bs "a"] Jaccard half92 3)) = Some false /\
  averdict92 (arun rb4 (fun l => l) (ix92 1) [bs "a"] 3 (asched92 1) (astart [bs "a"] 3)) = Some true /\
  averdict92 (arun rb4 (fun l => l) (ix92 2) [bs "a"] 3 (asched92 2) (astart [bs "a"] 3)) = Some false.
Proof. split; [|split; [|split]]; vm_compute; reflexivity. Qed.
