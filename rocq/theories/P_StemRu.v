(** C75: the Russian stemmer. *)
From Coq Require Import Lia.
From Verif Require Import Base BaseLemmas Text TextProofs TextProofs2 AnalysisSpec VGram VGramSpec VGramProofs VGramProofs3 GoMap Snowball StemRu StemSpec StemProofs StemRuProofs StemFwdProofs StemRuProofs2.
Local Open Scope Z_scope.

(** [out] is what stemming the token [w] leaves, whatever the environment was used for before *)
Definition stemmed (w out : bytes) : Prop := forall e0, exists e, Stem (SetCurrent w e0) = Ret (true, e) /\ cur e = out.

Lemma stemmed_new w e : Stem (NewEnv w) = Ret (true, e) -> stemmed w (cur e).
Proof. intros H e0. exists e. split; [exact H|reflexivity]. Qed.
Lemma stemmed_unique w a b : stemmed w a -> stemmed w b -> a = b.
Proof. intros Ha Hb. destruct (Ha (NewEnv [])) as (e & H1 & <-), (Hb (NewEnv [])) as (e' & H2 & <-). rewrite H1 in H2. injection H2 as <-. reflexivity. Qed.

(** the relation of the specification is a function *)
Definition det (R : bytes -> bytes -> Prop) : Prop := forall w a b, R w a -> R w b -> a = b.
Lemma app_len_eq (p s p' s' : bytes) : p ++ s = p' ++ s' -> length s = length s' -> p = p' /\ s = s'.
Proof.
  intros H E. assert (length p = length p') as Hl by (apply (f_equal (@length _)) in H; rewrite !app_length in H; lia).
  revert p' H Hl. induction p as [|x p IH]; intros [|y p'] H Hl; try discriminate; [split; [reflexivity|exact H]|].
  injection H as -> H. destruct (IH p' H ltac:(cbn in Hl; lia)) as (-> & ->). split; reflexivity.
Qed.
Lemma takes_off_det es s s' w p p' : takes_off es s w p -> takes_off es s' w p' -> p = p' /\ s = s'.
Proof.
  intros (H1 & H2 & H3) (K1 & K2 & K3). apply app_len_eq; [congruence|]. specialize (H3 s' K2 (ex_intro _ p' K1)). specialize (K3 s H2 (ex_intro _ p H1)). lia.
Qed.
Lemma removes_det es : det (removes es). Proof. intros w a b (s & H) (s' & K). exact (proj1 (takes_off_det _ _ _ _ _ _ H K)). Qed.
Lemma removes2_det g1 g2 : det (removes2 g1 g2). Proof. intros w a b (s & H & _) (s' & K & _). exact (proj1 (takes_off_det _ _ _ _ _ _ H K)). Qed.
Lemma or_else_det (R S : bytes -> bytes -> Prop) : det R -> det S -> det (or_else R S).
Proof. intros HR HS w a b [H|(H & H')] [K|(K & K')]; [exact (HR w a b H K)|exfalso; apply K; eauto|exfalso; apply H; eauto|exact (HS w a b H' K')]. Qed.
Lemma eq_det : det (@eq bytes). Proof. intros w a b <- <-. reflexivity. Qed.
Lemma optional_det (R : bytes -> bytes -> Prop) : det R -> det (optional R). Proof. intros H. apply or_else_det; [exact H|exact eq_det]. Qed.
Lemma and_then_det (R S : bytes -> bytes -> Prop) : det R -> det S -> det (and_then R S).
Proof. intros HR HS w a b (u & H & H') (v & K & K'). rewrite (HR _ _ _ H K) in H'. exact (HS _ _ _ H' K'). Qed.
Lemma undouble_det : det undouble. Proof. intros w a b (_ & H) (_ & K). rewrite H in K. exact (proj1 (app_len_eq _ _ _ _ K eq_refl)). Qed.
Lemma steps_det p2 : det (steps p2).
Proof.
  unfold steps. apply and_then_det; [|apply and_then_det; [|apply and_then_det]].
  - unfold step1. apply or_else_det; [apply removes2_det|]. apply and_then_det; [apply optional_det, removes_det|]. apply or_else_det.
    + apply and_then_det; [apply removes_det|apply optional_det, removes2_det].
    + apply or_else_det; [apply removes2_det|apply optional_det, removes_det].
  - apply optional_det, removes_det.
  - apply optional_det. intros w a b (H & _) (K & _). exact (removes_det _ w a b H K).
  - apply optional_det, or_else_det; [exact undouble_det|]. apply or_else_det; [apply and_then_det; [apply removes_det|apply optional_det, undouble_det]|apply removes_det].
Qed.

(** C75: for every word in valid UTF-8 the stemmer returns what the published algorithm prescribes, and that is one word only *)
Theorem C75_russian_stem : forall w, valid_text w -> exists out, stemmed w out /\ stem_of (characters w) out.
Proof.
  intros w H. destruct (ru_exact (characters w) (runes_valid w (proj1 H))) as (e & He & Hs). rewrite <- (valid_text_enc w H) in He. exists (cur e). split; [exact (stemmed_new w e He)|exact Hs].
Qed.
Print Assumptions C75_russian_stem.
Theorem C75_stem_unique : forall l a b, stem_of l a -> stem_of l b -> a = b.
Proof. intros l a b (p & -> & H) (q & -> & K). f_equal. exact (steps_det _ _ _ _ H K). Qed.
Print Assumptions C75_stem_unique.

(** for any bytes: it ends without a panic, the stem is not longer than the token, and empty only for the empty token *)
Theorem C75_every_token : forall w, exists out, stemmed w out /\ zlen out <= zlen w /\ (w <> [] -> out <> []).
Proof.
  intros w. destruct (ru_any w) as (s & keep & r & p & p2 & e & H1 & H2 & H3 & H4 & H5 & H6). exists (cur e). split; [exact (stemmed_new w e H1)|].
  pose proof (replaced_len _ _ _ _ H2) as Hl. destruct (steps_prefix _ _ _ H5) as (t & Ht). rewrite H3, Ht, !zlen_app in Hl. pose proof (zlen_nonneg t). split.
  - rewrite H4, zlen_app. lia.
  - intros Hw. assert (s <> []) as Hs by (apply (fun K : u8 [1077] <> [] => replaced_nonempty _ _ _ _ K H2 Hw); vm_compute; discriminate). rewrite H4. destruct keep; [exfalso; apply (H6 Hs); reflexivity|discriminate].
Qed.
Print Assumptions C75_every_token.

Lemma region_split l : text l = text (firstn (length l - length (RV l)) l) ++ text (RV l).
Proof.
  destruct (after_skip vowel l) as (k & Hk). fold (RV l) in Hk. change text with enc.
  assert (firstn (length l - length (RV l)) l = k) as -> by (rewrite Hk at 1 3; rewrite app_length, Nat.add_sub, firstn_app, Nat.sub_diag, firstn_all; cbn [firstn]; apply app_nil_r).
  rewrite Hk at 1. apply enc_app.
Qed.
(** the stem begins the word written without the letter yo *)
Theorem C75_stem_is_prefix : forall w out, valid_text w -> stemmed w out -> exists ending, text (map no_yo (characters w)) = out ++ ending.
Proof.
  intros w out Hw Ho. destruct (C75_russian_stem w Hw) as (o & Hs & p & Ep & Hst). rewrite (stemmed_unique _ _ _ Ho Hs), Ep. rewrite region_split. destruct (steps_prefix _ _ _ Hst) as (t & Ht).
  exists t. rewrite Ht at 1. apply app_assoc.
Qed.
Print Assumptions C75_stem_is_prefix.
(** words that differ only in yo and ye have the same stem *)
Theorem C75_yo_is_ye : forall w w' out, valid_text w -> valid_text w' -> map no_yo (characters w) = map no_yo (characters w') -> stemmed w out -> stemmed w' out.
Proof.
  intros w w' out Hw Hw' E Ho. destruct (C75_russian_stem w Hw) as (o & Hs & Hst), (C75_russian_stem w' Hw') as (o' & Hs' & Hst'). rewrite (stemmed_unique _ _ _ Ho Hs).
  assert (o = o') as ->; [|exact Hs']. destruct Hst as (p & -> & H), Hst' as (q & -> & K). rewrite E in *. f_equal. exact (steps_det _ _ _ _ H K).
Qed.
Print Assumptions C75_yo_is_ye.
(** a word without a Russian vowel, in particular every word in another script, keeps all its letters *)
Theorem C75_no_vowel : forall w, valid_text w -> (forall c, In c (characters w) -> vowel (no_yo c) = false) -> stemmed w w.
Proof.
  intros w Hw Hv. assert (map no_yo (characters w) = characters w) as Hid.
  { rewrite <- (map_id (characters w)) at 2. apply map_ext_in. intros c Hc. specialize (Hv c Hc). unfold no_yo in *. destruct (c =? 1105); [discriminate|reflexivity]. }
  destruct (C75_russian_stem w Hw) as (o & Hs & p & Ep & Hst). rewrite Hid in *. assert (RV (characters w) = []) as HR.
  { unfold RV. apply after_none. apply not_true_is_false. intros H. apply existsb_exists in H. destruct H as (c & Hc & Hvc). specialize (Hv c Hc).
    rewrite <- Hid in Hc. apply in_map_iff in Hc. destruct Hc as (d & Hd & Hin).
    unfold no_yo in Hv. destruct (c =? 1105) eqn:E; [discriminate|congruence]. }
  rewrite HR in *. destruct (steps_prefix _ _ _ Hst) as (t & Ht). cbn in Ht. symmetry in Ht. apply app_eq_nil in Ht. destruct Ht as (-> & _).
  rewrite app_nil_r, Nat.sub_0_r, firstn_all in Ep. assert (o = w) as <-; [|exact Hs]. rewrite Ep. symmetry. apply (valid_text_enc w Hw).
Qed.
Print Assumptions C75_no_vowel.

(** stemming a stem may shorten it again: nananana -> nanana -> nana *)
Theorem C75_idempotent_refuted : exists w a b, valid_text w /\ stemmed w a /\ stemmed a b /\ a <> b.
Proof.
  exists (text [1085; 1072; 1085; 1072; 1085; 1072; 1085; 1072]), (text [1085; 1072; 1085; 1072; 1085; 1072]), (text [1085; 1072; 1085; 1072]).
  split; [apply enc_valid_text|]. split; [intros e0; eexists; split; [vm_compute; reflexivity|reflexivity]|]. split; [intros e0; eexists; split; [vm_compute; reflexivity|reflexivity]|discriminate].
Qed.
Print Assumptions C75_idempotent_refuted.

(* krasivaya -> krasiv; yolka and yelka -> elk; a word in Latin letters *)
Example C75_nonvacuous : stemmed (text [1082; 1088; 1072; 1089; 1080; 1074; 1072; 1103]) (text [1082; 1088; 1072; 1089; 1080; 1074]) /\ valid_text (text [1082; 1088; 1072; 1089; 1080; 1074; 1072; 1103]) /\
  stemmed (text [1105; 1083; 1082; 1072]) (text [1077; 1083; 1082]) /\ (forall c, In c (characters [104; 111; 117; 115; 101]) -> vowel (no_yo c) = false).
Proof.
  split; [intros e0; eexists; split; [vm_compute; reflexivity|reflexivity]|]. split; [apply enc_valid_text|]. split; [intros e0; eexists; split; [vm_compute; reflexivity|reflexivity]|].
  intros c Hc. assert (forallb (fun c => negb (vowel (no_yo c))) (characters [104; 111; 117; 115; 101]) = true) as H by (vm_compute; reflexivity).
  rewrite forallb_forall in H. specialize (H c Hc). destruct (vowel (no_yo c)); [discriminate|reflexivity].
Qed.
