(** Proofs about writing to a disk that fails: the files of a language model. *)
From Coq Require Import String ZifyBool.
From Verif Require Import Base BaseLemmas GoMap Store StoreSpec Compression Postings Merger CountTrie Float64 Decimal NGram Mph NGramStore GoogleNGram Index WriteFaults WriteFaultsProofs WriteFaultsProofs2.
Local Open Scope Z_scope.
Local Notation length := List.length.

(** ** Two walks over one trie *)
Section Walks.
Context (ord : list Z -> list (Z * node) -> list (Z * node)) {S1 S2 : Type} (f1 : S1 -> sentence -> Z -> option err * S1) (f2 : S2 -> sentence -> Z -> option err * S2).
Context (R B : S1 -> S2 -> Prop).
Hypothesis Hstep : forall s1 s2 gr c s1', R s1 s2 -> f1 s1 gr c = (None, s1') -> (exists s2', f2 s2 gr c = (None, s2') /\ R s1' s2') \/ (exists e s2', f2 s2 gr c = (Some e, s2') /\ B s1' s2').
Hypothesis Hbad : forall s1 s2 gr c s1', B s1 s2 -> f1 s1 gr c = (None, s1') -> B s1' s2.

Definition one {S} (w : S -> sentence -> Z -> option err * S) f h (ids : list Z) depth (acc : res sentence * S) (wc : Z * node) : res sentence * S :=
  let '(r, st) := acc in
  match r with
  | Ret p => match (tok <- mapFromUint32 h (fst wc) ;; set_path p depth tok) with
             | Ret p' => iterate ord w f h (ids ++ [fst wc]) (depth + 1) p' (snd wc) st
             | Fail e => (Fail e, st) | Panic => (Panic, st) | NoFuel => (NoFuel, st)
             end
  | _ => (r, st)
  end.
Lemma iterate_eq {S} (w : S -> sentence -> Z -> option err * S) f h ids depth path n s : iterate ord w (Datatypes.S f) h ids depth path n s =
  let '(e, s1) := if 0 <? ncount n then w s (firstn (Z.to_nat depth) path) (ncount n) else (None, s) in
  match e with Some e => (Fail e, s1) | None => fold_left (one w f h ids depth) (ord ids (children n)) (Ret path, s1) end.
Proof. reflexivity. Qed.
Lemma one_stuck {S} (w : S -> sentence -> Z -> option err * S) f h ids depth l : forall r st, (forall p, r <> Ret p) -> fold_left (one w f h ids depth) l (r, st) = (r, st).
Proof. induction l as [|x l IH]; intros r st H; [reflexivity|]. cbn [fold_left]. replace (one w f h ids depth (r, st) x) with (r, st); [apply IH, H|]. destruct r; [destruct (H a eq_refl)|reflexivity..]. Qed.

Lemma walk_bad s2 : forall f h ids depth path n s1 p s1', B s1 s2 -> iterate ord f1 f h ids depth path n s1 = (Ret p, s1') -> B s1' s2.
Proof.
  induction f as [|f IH]; intros h ids depth path n s1 p s1' Hb H; [discriminate|]. rewrite iterate_eq in H.
  assert (forall l path s, B s s2 -> fold_left (one f1 f h ids depth) l (Ret path, s) = (Ret p, s1') -> B s1' s2) as Hl.
  { induction l as [|x l IHl]; intros path' s Hs E; cbn [fold_left] in E; [injection E as <- <-; exact Hs|]. cbn [one] in E. destruct (tok <- mapFromUint32 h (fst x) ;; set_path path' depth tok) as [p'| | |]; [|rewrite one_stuck in E by discriminate; discriminate..].
    destruct (iterate ord f1 f h (ids ++ [fst x]) (depth + 1) p' (snd x) s) as [[p''| | |] s''] eqn:Ei; [|rewrite one_stuck in E by discriminate; discriminate..]. exact (IHl _ _ (IH _ _ _ _ _ _ _ _ Hs Ei) E). }
  destruct (0 <? ncount n); [|exact (Hl _ _ _ Hb H)]. destruct (f1 s1 (firstn (Z.to_nat depth) path) (ncount n)) as [[e|] s'] eqn:Ef; [discriminate|]. exact (Hl _ _ _ (Hbad _ _ _ _ _ Hb Ef) H).
Qed.
Lemma fold_bad t f h ids depth p s1' : forall l path s, B s t -> fold_left (one f1 f h ids depth) l (Ret path, s) = (Ret p, s1') -> B s1' t.
Proof.
  induction l as [|x l IHl]; intros path' s Hs E; cbn [fold_left] in E; [injection E as <- <-; exact Hs|]. cbn [one] in E. destruct (tok <- mapFromUint32 h (fst x) ;; set_path path' depth tok) as [p'| | |]; [|rewrite one_stuck in E by discriminate; discriminate..].
  destruct (iterate ord f1 f h (ids ++ [fst x]) (depth + 1) p' (snd x) s) as [[p''| | |] s''] eqn:Ei; [|rewrite one_stuck in E by discriminate; discriminate..]. exact (IHl _ _ (walk_bad t _ _ _ _ _ _ _ _ _ Hs Ei) E).
Qed.
Lemma walk_sim : forall f h ids depth path n s1 s2 p s1', R s1 s2 -> iterate ord f1 f h ids depth path n s1 = (Ret p, s1') ->
  (exists s2', iterate ord f2 f h ids depth path n s2 = (Ret p, s2') /\ R s1' s2') \/ (exists e s2', iterate ord f2 f h ids depth path n s2 = (Fail e, s2') /\ B s1' s2').
Proof.
  induction f as [|f IH]; intros h ids depth path n s1 s2 p s1' Hr H; [discriminate|]. rewrite iterate_eq in H. rewrite iterate_eq.
  assert (forall l path s t, R s t -> fold_left (one f1 f h ids depth) l (Ret path, s) = (Ret p, s1') ->
    (exists s2', fold_left (one f2 f h ids depth) l (Ret path, t) = (Ret p, s2') /\ R s1' s2') \/ (exists e s2', fold_left (one f2 f h ids depth) l (Ret path, t) = (Fail e, s2') /\ B s1' s2')) as Hl.
  { induction l as [|x l IHl]; intros path' s t Hs E; cbn [fold_left] in E |- *; [injection E as <- <-; left; exists t; split; [reflexivity|exact Hs]|]. cbn [one] in E |- *.
    destruct (tok <- mapFromUint32 h (fst x) ;; set_path path' depth tok) as [p'| | |]; [|rewrite one_stuck in E by discriminate; discriminate..].
    destruct (iterate ord f1 f h (ids ++ [fst x]) (depth + 1) p' (snd x) s) as [[p''| | |] s''] eqn:Ei; [|rewrite one_stuck in E by discriminate; discriminate..].
    destruct (IH _ _ _ _ _ _ t _ _ Hs Ei) as [(t' & Et & Ht)|(e & t' & Et & Ht)]; rewrite Et; [exact (IHl _ _ _ Ht E)|]. right. exists e, t'. rewrite one_stuck by discriminate. split; [reflexivity|].
    exact (fold_bad t' _ _ _ _ _ _ _ _ _ Ht E). }
  destruct (0 <? ncount n); [|exact (Hl _ _ _ _ Hr H)]. destruct (f1 s1 (firstn (Z.to_nat depth) path) (ncount n)) as [[e|] s'] eqn:Ef; [discriminate|].
  destruct (Hstep _ _ _ _ _ Hr Ef) as [(t' & -> & Ht)|(e & t' & -> & Ht)]; [exact (Hl _ _ _ _ Ht H)|]. right. exists e, t'. split; [reflexivity|]. exact (fold_bad t' _ _ _ _ _ _ _ _ _ Ht H).
Qed.
End Walks.

Section Machine.
Context (M : machine) (pieces : bytes -> list bytes).

(** ** The n-gram files *)
Section NGrams.
Context (w0 : world) (names : list string) (Hnd : NoDup names).
Notation h0 := (length (w_outs w0)).
(* the first outputs are closed, in the sense that nothing is in their buffers *)
Definition open_at (outs : list bytes) (w : world) : Prop :=
  length outs = length names /\ (forall x, ~ In x names -> w_files w x = w_files w0 x) /\ calls_good w0 w /\
  forall i x o, nth_error names i = Some x -> nth_error outs i = Some o ->
    exists b c, nth_error (w_outs w) (h0 + i) = Some b /\ b_name b = x /\ b_err b = false /\ zlen (b_buf b) <= bufSize /\ w_files w x = Some c /\ c ++ b_buf b = o.
Definition spoilt (outs : list bytes) (w : world) : Prop :=
  length outs = length names /\ (forall x, ~ In x names -> w_files w x = w_files w0 x) /\ calls_bad w0 w /\
  forall i x o, nth_error names i = Some x -> nth_error outs i = Some o -> w_files w x = w_files w0 x \/ exists c rest, w_files w x = Some c /\ c ++ rest = o.

Lemma nth_error_inj i j x : nth_error names i = Some x -> nth_error names j = Some x -> i = j.
Proof. intros Hi Hj. apply (proj1 (NoDup_nth_error names) Hnd); [apply nth_error_Some; congruence|congruence]. Qed.
Lemma append_at_len outs : forall k b, length (append_at outs k b) = length outs.
Proof. induction outs as [|o os IH]; intros [|k] b; cbn; auto. Qed.
Lemma append_at_nth outs : forall k b j, nth_error (append_at outs k b) j = if Nat.eqb j k then option_map (fun o => o ++ b) (nth_error outs j) else nth_error outs j.
Proof. induction outs as [|o os IH]; intros [|k] b [|j]; cbn; try reflexivity; [destruct (Nat.eqb j k); reflexivity|apply IH]. Qed.

(* a step on output i *)
Lemma step_open outs w i x o w' s : open_at outs w -> nth_error names i = Some x -> nth_error outs i = Some o -> ok_step (h0 + i) w w' s -> open_at (append_at outs i s) w'.
Proof.
  intros (Hl & Hf & Hg & Hi) Ex Eo (n & c & bf & c' & bf' & (b & S1 & S2 & S3 & S4 & S5 & S6 & S7 & S8) & L & Q & G). destruct (Hi _ _ _ Ex Eo) as (b0 & c0 & E0 & N0 & _ & _ & F0 & Q0).
  rewrite S1 in E0. injection E0 as <-. assert (n = x) as -> by congruence. assert (c0 = c) as -> by congruence. subst bf.
  split; [rewrite append_at_len; exact Hl|]. split; [intros y Hy; rewrite S8; [apply Hf, Hy|intros ->; apply Hy; eapply nth_error_In; exact Ex]|]. split; [exact (good_trans _ _ _ Hg G)|].
  intros j y oj Ey Ej. rewrite append_at_nth in Ej. destruct (Nat.eqb_spec j i) as [->|Hji].
  - rewrite Eo in Ej. cbn in Ej. injection Ej as <-. rewrite Ex in Ey. injection Ey as <-. exists (mkBuf x bf' false), c'. cbn. rewrite S5, (set_nth_same _ _ _ _ S1). split; [reflexivity|]. split; [reflexivity|]. split; [reflexivity|]. split; [exact L|]. split; [exact S7|]. rewrite Q, app_assoc. f_equal. exact Q0.
  - destruct (Hi _ _ _ Ey Ej) as (bj & cj & Ebj & Nj & Erj & Lj & Fj & Qj). exists bj, cj. rewrite S5, set_nth_else by lia. split; [exact Ebj|]. split; [exact Nj|]. split; [exact Erj|]. split; [exact Lj|]. split; [|exact Qj]. rewrite S8; [exact Fj|]. intros ->. apply Hji. eapply nth_error_inj; eassumption.
Qed.
Lemma step_spoilt outs w i x o w' n c bf c' bf' s : open_at outs w -> nth_error names i = Some x -> nth_error outs i = Some o -> step (h0 + i) w w' n c bf c' bf' true -> (exists rest, c' ++ rest = c ++ bf ++ s) -> calls_bad w w' -> spoilt (append_at outs i s) w'.
Proof.
  intros (Hl & Hf & Hg & Hi) Ex Eo (b & S1 & S2 & S3 & S4 & S5 & S6 & S7 & S8) (rest & Q) G. destruct (Hi _ _ _ Ex Eo) as (b0 & c0 & E0 & N0 & _ & _ & F0 & Q0).
  rewrite S1 in E0. injection E0 as <-. assert (n = x) as -> by congruence. assert (c0 = c) as -> by congruence. subst bf.
  split; [rewrite append_at_len; exact Hl|]. split; [intros y Hy; rewrite S8; [apply Hf, Hy|intros ->; apply Hy; eapply nth_error_In; exact Ex]|]. split; [exact (good_bad _ _ _ Hg G)|].
  intros j y oj Ey Ej. right. rewrite append_at_nth in Ej. destruct (Nat.eqb_spec j i) as [->|Hji].
  - rewrite Eo in Ej. cbn in Ej. injection Ej as <-. rewrite Ex in Ey. injection Ey as <-. exists c', rest. split; [exact S7|]. rewrite Q, app_assoc. f_equal. exact Q0.
  - destruct (Hi _ _ _ Ey Ej) as (bj & cj & Ebj & Nj & Erj & Lj & Fj & Qj). exists cj, (b_buf bj). split; [|exact Qj]. rewrite S8; [exact Fj|]. intros ->. apply Hji. eapply nth_error_inj; eassumption.
Qed.
Lemma open_ready outs w i x : open_at outs w -> nth_error names i = Some x -> ready (h0 + i) w.
Proof.
  intros (Hl & _ & _ & Hi) Ex. destruct (nth_error outs i) as [o|] eqn:Eo.
  - destruct (Hi _ _ _ Ex Eo) as (b & c & E & N & Er & L & F & _). exists b, c. rewrite N. auto.
  - exfalso. apply nth_error_None in Eo. assert (i < length names)%nat by (apply nth_error_Some; congruence). lia.
Qed.

Notation hs := (seq h0 (length names)).
Lemma line_step outs w gr c outs' : open_at outs w -> write_ngram outs gr c = (None, outs') ->
  (exists w', ngram_to M hs w gr c = (None, w') /\ open_at outs' w') \/ (exists e w', ngram_to M hs w gr c = (Some e, w') /\ spoilt outs' w').
Proof.
  intros Ho. unfold write_ngram, ngram_to. destruct gr as [|t gr]; [intros H; injection H as <-; left; exists w; split; [reflexivity|exact Ho]|].
  set (g := t :: gr) in *. destruct (Nat.leb_spec (length g) (length outs)) as [Hle|]; [|discriminate]. intros H. injection H as <-. set (i := (length g - 1)%nat).
  assert (length g <> 0)%nat as Hg0 by (unfold g; cbn; lia). pose proof Ho as (Hl & _).
  destruct (nth_error names i) as [x|] eqn:Ex; [|exfalso; apply nth_error_None in Ex; lia]. destruct (nth_error outs i) as [o|] eqn:Eo; [|exfalso; apply nth_error_None in Eo; lia].
  assert (nth_error hs i = Some (h0 + i)%nat) as ->. { rewrite (nth_error_nth' hs 0%nat) by (rewrite seq_length; lia). rewrite seq_nth by lia. reflexivity. }
  destruct (out_write_does M (h0 + i) (ngram_line g c) w (open_ready _ _ _ _ Ho Ex)) as [(w' & E & S)|(e & w' & E & (n & cc & bf & c' & bf' & S & Q & G))]; rewrite E; [left|right].
  - exists w'. split; [reflexivity|]. eapply step_open; eassumption.
  - eexists _, w'. split; [reflexivity|]. eapply step_spoilt; eassumption.
Qed.
Lemma line_bad outs w gr c outs' : spoilt outs w -> write_ngram outs gr c = (None, outs') -> spoilt outs' w.
Proof.
  intros (Hl & Hf & Hb & Hi). unfold write_ngram. destruct gr as [|t gr]; [intros H; injection H as <-; split; [exact Hl|auto]|]. set (g := t :: gr) in *. destruct (Nat.leb_spec (length g) (length outs)) as [Hle|]; [|discriminate]. intros H. assert (outs' = append_at outs (length g - 1) (ngram_line g c)) as -> by congruence. clear H.
  split; [rewrite append_at_len; exact Hl|]. split; [exact Hf|]. split; [exact Hb|]. intros j y oj Ey Ej. rewrite append_at_nth in Ej. destruct (Nat.eq_dec j (length g - 1)) as [->|Hji]; [rewrite Nat.eqb_refl in Ej|rewrite (proj2 (Nat.eqb_neq _ _) Hji) in Ej; exact (Hi _ _ _ Ey Ej)].
  destruct (nth_error outs (length g - 1)) as [o|] eqn:Eo; [|discriminate Ej]. cbn in Ej. injection Ej as <-. destruct (Hi _ _ _ Ey Eo) as [H|(c0 & rest & H & Q)]; [left; exact H|right]. exists c0, (rest ++ ngram_line g c). split; [exact H|]. rewrite app_assoc, Q. reflexivity.
Qed.

Lemma create_all_spec : forall ns done w, names = done ++ ns -> length (w_outs w) = (h0 + length done)%nat ->
  (forall x, ~ In x done -> w_files w x = w_files w0 x) -> calls_good w0 w ->
  (forall i x, nth_error done i = Some x -> nth_error (w_outs w) (h0 + i) = Some (mkBuf x [] false) /\ w_files w x = Some []) ->
  (exists w', create_all M ns w = (Ret (seq (h0 + length done) (length ns)), w') /\ open_at (repeat [] (length names)) w') \/
  (exists e w', create_all M ns w = (Fail e, w') /\ calls_bad w0 w' /\ (forall x, ~ In x names -> w_files w' x = w_files w0 x) /\ forall x, In x names -> w_files w' x = w_files w0 x \/ w_files w' x = Some []).
Proof.
  induction ns as [|n ns IH]; intros done w En Hlen Hfr Hg Hd.
  - left. exists w. split; [reflexivity|]. rewrite app_nil_r in En. split; [apply repeat_length|]. split; [rewrite En; exact Hfr|]. split; [exact Hg|].
    intros i x o Ex Eo. rewrite En in Ex. apply nth_error_In, repeat_spec in Eo. subst o. destruct (Hd i x Ex) as [E F]. exists (mkBuf x [] false), []. cbn. split; [exact E|]. split; [reflexivity|]. split; [reflexivity|]. split; [unfold bufSize; lia|]. split; [exact F|reflexivity].
  - cbn [create_all]. unfold ibind, wrap_err. destruct (create_spec M n w) as [(w1 & E1 & R1 & F1 & O1 & G1)|(e & w1 & E1 & F1 & O1 & G1)]; rewrite E1; cbv beta iota.
    + assert (~ In n done) as Hn. { rewrite En in Hnd. apply NoDup_remove_2 in Hnd. intros Hi. apply Hnd, in_app_iff. left. exact Hi. }
      destruct (IH (done ++ [n]) w1) as [(w' & E & Ho)|(e & w' & E & Hb & Hx & Hy)].
      * rewrite <- app_assoc. exact En.
      * rewrite O1, !app_length. cbn. lia.
      * intros x Hx. rewrite F1. unfold fset. destruct (String.eqb_spec x n) as [->|]; [exfalso; apply Hx, in_app_iff; right; left; reflexivity|]. apply Hfr. intros Hi. apply Hx, in_app_iff. left. exact Hi.
      * exact (good_trans _ _ _ Hg G1).
      * intros i x Ex. destruct (Nat.lt_ge_cases i (length done)) as [Hi|Hi].
        -- rewrite nth_error_app1 in Ex by exact Hi. destruct (Hd i x Ex) as [E F]. rewrite O1, nth_error_app1 by lia. split; [exact E|]. rewrite F1. unfold fset. destruct (String.eqb_spec x n) as [->|]; [exfalso; apply Hn; eapply nth_error_In; exact Ex|exact F].
        -- rewrite nth_error_app2 in Ex by exact Hi. destruct (i - length done)%nat as [|j] eqn:Ej; [|destruct j; discriminate]. cbn in Ex. injection Ex as <-. assert (i = length done) as -> by lia.
           rewrite O1, nth_error_app2, Hlen, Nat.sub_diag by lia. split; [reflexivity|]. rewrite F1. unfold fset. rewrite String.eqb_refl. reflexivity.
      * left. unfold ibind. rewrite E. exists w'. rewrite app_length. cbn [length]. split; [|exact Ho]. cbn [seq lift]. rewrite Hlen. replace (S (h0 + length done)) with (h0 + (length done + 1))%nat by lia. reflexivity.
      * right. exists e, w'. unfold ibind. rewrite E. auto.
    + right. exists (ErrWrapped e), w1. split; [reflexivity|]. split; [exact (good_bad _ _ _ Hg G1)|]. rewrite F1. split.
      * intros x Hx. apply Hfr. intros Hi. apply Hx. rewrite En. apply in_app_iff. left. exact Hi.
      * intros x Hx. destruct (in_dec String.string_dec x done) as [Hi|Hi]; [right|left; exact (Hfr x Hi)]. apply In_nth_error in Hi. destruct Hi as [i Hi]. apply (Hd i x Hi).
Qed.
(* [k] outputs are closed already *)
Lemma close_all_spec outs : forall m k w, (k + m = length names)%nat -> open_at outs w -> (forall i x, (i < k)%nat -> nth_error names i = Some x -> w_files w x = nth_error outs i) ->
  (exists w', close_all M (seq (h0 + k) m) w = (Ret tt, w') /\ calls_good w0 w' /\ (forall x, ~ In x names -> w_files w' x = w_files w0 x) /\ forall i x, nth_error names i = Some x -> w_files w' x = nth_error outs i) \/
  (exists e w', close_all M (seq (h0 + k) m) w = (Fail e, w') /\ spoilt outs w').
Proof.
  induction m as [|m IH]; intros k w Hkm Ho Hk.
  - left. exists w. split; [reflexivity|]. destruct Ho as (Hl & Hf & Hg & _). split; [exact Hg|]. split; [exact Hf|]. intros i x Ex. apply Hk; [|exact Ex]. assert (i < length names)%nat by (apply nth_error_Some; congruence). lia.
  - cbn [seq close_all]. pose proof Ho as (Hl & Hf & Hg & Hi). destruct (nth_error names k) as [x|] eqn:Ex; [|exfalso; apply nth_error_None in Ex; lia]. destruct (nth_error outs k) as [o|] eqn:Eo; [|exfalso; apply nth_error_None in Eo; lia].
    assert (append_at outs k [] = outs) as Hsame.
    { clear. revert k. induction outs as [|o os IH]; intros [|k]; cbn; try reflexivity; [rewrite app_nil_r; reflexivity|f_equal; apply IH]. }
    unfold ibind, wrap_err. destruct (out_close_spec M (h0 + k) w (open_ready _ _ _ _ Ho Ex)) as (n & c & bf & c' & bf' & [(w1 & E1 & S1 & G1)|(e & w1 & E1 & S1 & Q1 & G1)]); rewrite E1; cbv beta iota.
    + pose proof (step_open outs w k x o w1 [] Ho Ex Eo) as Ho1. rewrite Hsame in Ho1. specialize (Ho1 ltac:(exists n, c, bf, (c ++ bf), []; split; [exact S1|]; split; [unfold bufSize; cbn; lia|]; split; [rewrite !app_nil_r; reflexivity|exact G1])).
      replace (S (h0 + k)) with (h0 + S k)%nat by lia. apply IH; [lia|exact Ho1|]. intros i y Hik Ey.
      destruct S1 as (b & S1 & S2 & S3 & S4 & S5 & S6 & S7 & S8). destruct (Hi _ _ _ Ex Eo) as (b0 & c0 & E0 & N0 & _ & _ & F0 & Q0). rewrite S1 in E0. injection E0 as <-. assert (n = x) as -> by congruence. assert (c0 = c) as -> by congruence.
      destruct (Nat.eq_dec i k) as [->|Hne].
      * rewrite Ex in Ey. injection Ey as <-. rewrite S7, Eo. f_equal. rewrite <- S3. exact Q0.
      * rewrite S8; [apply Hk; [lia|exact Ey]|]. intros ->. apply Hne. eapply nth_error_inj; eassumption.
    + right. exists (ErrWrapped e), w1. split; [reflexivity|]. rewrite <- Hsame. eapply (step_spoilt outs w k x o w1 n c bf c' bf' []); try eassumption. destruct Q1 as [rest Q1]. exists rest. rewrite app_nil_r. exact Q1.
Qed.
Lemma ngrams_faults ord t outs : WriteNGrams ord (zlen names) t = Ret outs ->
  exists r w', ngrams_to M ord names t w0 = (r, w') /\ (forall x, ~ In x names -> w_files w' x = w_files w0 x) /\
    ((r = Ret tt /\ calls_good w0 w' /\ forall i x, nth_error names i = Some x -> w_files w' x = nth_error outs i) \/
     ((exists e, r = Fail e) /\ calls_bad w0 w' /\ forall i x o, nth_error names i = Some x -> nth_error outs i = Some o -> w_files w' x = w_files w0 x \/ exists c rest, w_files w' x = Some c /\ c ++ rest = o)).
Proof.
  unfold WriteNGrams, ngrams_to, ibind at 1. unfold zlen. rewrite Nat2Z.id. intros Hw.
  destruct (create_all_spec names [] w0 eq_refl ltac:(cbn; lia) ltac:(reflexivity) (good_refl _) ltac:(intros [|i] x E; discriminate)) as [(w1 & E1 & Ho)|(e & w1 & E1 & Hb & Hx & Hy)]; cbn [length] in E1; rewrite ?Nat.add_0_r in E1; rewrite E1; cbv beta iota.
  2: { exists (Fail e), w1. split; [reflexivity|]. split; [exact Hx|]. right. split; [eexists; reflexivity|]. split; [exact Hb|]. intros i x o Ex Eo. destruct (Hy x (nth_error_In _ _ Ex)) as [H|H]; [left; exact H|right; exists [], o; split; [exact H|reflexivity]]. }
  assert (forall outs' w, Walk ord write_ngram t (repeat [] (length names)) = (Ret tt, outs') -> open_at (repeat [] (length names)) w ->
    (exists w', Walk ord (ngram_to M hs) t w = (Ret tt, w') /\ open_at outs' w') \/ (exists e w', Walk ord (ngram_to M hs) t w = (Fail e, w') /\ spoilt outs' w')) as Hwalk.
  { intros outs' w. unfold Walk. destruct (t_depth t =? 0); [intros H; injection H as <-; left; exists w; auto|].
    destruct (iterate ord write_ngram _ _ _ _ _ _ (repeat [] (length names))) as [[p| | |] s'] eqn:Ei; try discriminate. intros H Hop. injection H as <-.
    destruct (walk_sim ord write_ngram (ngram_to M hs) open_at spoilt (fun s1 s2 gr c s1' Hr => line_step s1 s2 gr c s1' Hr) (fun s1 s2 gr c s1' Hr => line_bad s1 s2 gr c s1' Hr) _ _ _ _ _ _ _ w _ _ Hop Ei) as [(w' & E & Hr)|(e & w' & E & Hr)]; rewrite E; [left; exists w'|right; exists e, w']; auto. }
  destruct (Walk ord write_ngram t (repeat [] (length names))) as [[[]| | |] outs'] eqn:Ew; try discriminate. injection Hw as ->. unfold ibind.
  destruct (Hwalk outs w1 eq_refl Ho) as [(w2 & E2 & Ho2)|(e & w2 & E2 & Hs)]; rewrite E2; cbv beta iota.
  - destruct (close_all_spec outs (length names) 0 w2 eq_refl Ho2 ltac:(intros; lia)) as [(w3 & E3 & G3 & F3 & C3)|(e & w3 & E3 & Hs)]; rewrite Nat.add_0_r in E3; rewrite E3.
    + exists (Ret tt), w3. split; [reflexivity|]. split; [exact F3|]. left. auto.
    + destruct Hs as (_ & Hf & Hb & Hi). exists (Fail e), w3. split; [reflexivity|]. split; [exact Hf|]. right. split; [eexists; reflexivity|]. auto.
  - destruct Hs as (_ & Hf & Hb & Hi). exists (Fail e), w2. split; [reflexivity|]. split; [exact Hf|]. right. split; [eexists; reflexivity|]. auto.
Qed.
End NGrams.

(** ** The binary file *)
Lemma binary_faults name m t out w0 : StoreBinary m t [] = Ret out ->
  exists r w', binary_to M name m t w0 = (r, w') /\ (forall x, x <> name -> w_files w' x = w_files w0 x) /\
    ((r = Ret tt /\ calls_good w0 w' /\ w_files w' name = Some out) \/
     ((exists e, r = Fail e) /\ calls_bad w0 w' /\ (w_files w' name = w_files w0 name \/ exists c rest, w_files w' name = Some c /\ c ++ rest = out))).
Proof.
  intros Hs. unfold StoreBinary in Hs. destruct (StoreModel m []) as [[n1 o1]| | |] eqn:Em; try discriminate. cbn [bind] in Hs. destruct (StoreMph t o1) as [[n2 o2]| | |] eqn:Et; try discriminate. cbn [bind] in Hs. injection Hs as ->.
  unfold binary_to, ibind at 1. unfold wrap_err at 1. destruct (create_spec M name w0) as [(w1 & E1 & R1 & F1 & O1 & G1)|(e & w1 & E1 & F1 & O1 & G1)]; rewrite E1; cbv beta iota.
  2: { exists (Fail (ErrWrapped e)), w1. split; [reflexivity|]. split; [intros x _; rewrite F1; reflexivity|]. right. split; [eexists; reflexivity|]. split; [exact G1|]. left. rewrite F1. reflexivity. }
  set (h := length (w_outs w0)) in *.
  destruct (model_does M h _ _ _ _ Em) as (s1 & -> & D1). destruct (table_does M h _ _ _ _ Et) as (s2 & -> & D2). cbn [app] in *.
  assert (does h (ibind (wrap_err (model_to M h m)) (fun _ => wrap_err (table_to M h t))) n2 (s1 ++ s2)) as D by (eapply does_bind; apply does_wrap; eassumption).
  assert (forall (p : Z -> io unit) w, ibind (wrap_err (model_to M h m)) (fun _ => ibind (wrap_err (table_to M h t)) p) w = ibind (ibind (wrap_err (model_to M h m)) (fun _ => wrap_err (table_to M h t))) p w) as Hassoc.
  { intros p w. unfold ibind. destruct (wrap_err (model_to M h m) w) as [[a| | |] w']; reflexivity. }
  rewrite Hassoc. unfold ibind at 1.
  assert (forall w2 n c bf c' bf' e', step h w1 w2 n c bf c' bf' e' -> n = name /\ c = [] /\ bf = [] /\ forall x, x <> name -> w_files w2 x = w_files w0 x) as Hone.
  { intros w2 n c bf c' bf' e' (b & S1 & S2 & S3 & S4 & S5 & S6 & S7 & S8). rewrite O1 in S1. unfold h in S1. rewrite nth_error_app2, Nat.sub_diag in S1 by lia. injection S1 as <-. cbn [b_name b_buf] in *. subst n bf. split; [reflexivity|].
    split; [rewrite F1 in S6; unfold fset in S6; rewrite String.eqb_refl in S6; congruence|]. split; [reflexivity|]. intros x Hx. rewrite (S8 x Hx), F1. unfold fset. destruct (String.eqb_spec x name); [contradiction|reflexivity]. }
  destruct (D w1 R1) as [(w2 & E2 & S2)|(e & w2 & E2 & (n & c & bf & c2 & bf2 & S2 & (rest & Q2) & G2))]; rewrite E2; cbv beta iota.
  - pose proof (ok_ready _ _ _ _ S2) as R2. destruct S2 as (n & c & bf & c2 & bf2 & S2 & L2 & Q2 & G2).
    destruct (out_close_spec M h w2 R2) as (n3 & c3 & bf3 & c3' & bf3' & [(w3 & E3 & S3 & G3)|(e & w3 & E3 & S3 & (rest & Q3) & G3)]); unfold wrap_err; rewrite E3; destruct (step_trans _ _ _ _ _ _ _ _ _ _ _ _ _ _ _ S2 S3) as (-> & -> & -> & S23); destruct (Hone _ _ _ _ _ _ _ S23) as (-> & -> & -> & Hf); cbn [app] in Q2.
    + exists (Ret tt), w3. split; [reflexivity|]. split; [exact Hf|]. left. split; [reflexivity|]. split; [exact (good_trans _ _ _ G1 (good_trans _ _ _ G2 G3))|]. rewrite <- Q2. destruct S23 as (b & _ & _ & _ & _ & _ & _ & S7 & _). exact S7.
    + exists (Fail (ErrWrapped e)), w3. split; [reflexivity|]. split; [exact Hf|]. right. split; [eexists; reflexivity|]. split; [exact (good_bad _ _ _ G1 (good_bad _ _ _ G2 G3))|]. right. exists c3', rest. destruct S23 as (b & _ & _ & _ & _ & _ & _ & S7 & _). split; [exact S7|]. rewrite Q3. exact Q2.
  - destruct (Hone _ _ _ _ _ _ _ S2) as (-> & -> & -> & Hf). cbn [app] in Q2. exists (Fail e), w2. split; [reflexivity|]. split; [exact Hf|]. right. split; [eexists; reflexivity|]. split; [exact (good_bad _ _ _ G1 G2)|]. right. exists c2, rest. destruct S2 as (b & _ & _ & _ & _ & _ & _ & S7 & _). split; [exact S7|exact Q2].
Qed.
End Machine.
