(** C76: the English stemmer. *)
From Coq Require Import Bool Lia ZifyBool String.
From Verif Require Import Base BaseLemmas Text TextProofs TextProofs2 AnalysisSpec VGram VGramSpec VGramProofs VGramProofs3 GoMap Snowball StemSpec StemProofs StemFwdProofs StemEn StemEnSpec StemChars StemEnProofs3 P_StemEnLemmas.
Local Open Scope Z_scope.
Local Notation length := List.length.

(** [out] is what stemming the token [w] leaves, whatever the environment was used for before *)
Definition stemmed (w out : bytes) : Prop := forall e0, exists e, Stem (SetCurrent w e0) = Ret (true, e) /\ cur e = out.

(** C76: for every Go string, valid UTF-8 or not, the stemmer returns what the published algorithm prescribes *)
Theorem C76_english_stem : forall w out, stemmed w out <-> out = porter2 w.
Proof.
  intros w out. destruct (en_exact w) as (e & He & Hc). split.
  - intros H. destruct (H (NewEnv [])) as (e' & He' & <-). change (SetCurrent w (NewEnv [])) with (NewEnv w) in He'. rewrite He in He'. injection He' as <-. exact Hc.
  - intros -> e0. exists e. split; [exact He|exact Hc].
Qed.
Print Assumptions C76_english_stem.
Lemma stem_eq w out : stemmed w out -> out = porter2 w. Proof. apply C76_english_stem. Qed.

Ltac stages w Hx := unfold porter2; cbv zeta; destruct (find _ exceptions) as [x|] eqn:Hx; [apply find_some in Hx|].
(** the stem is not longer than the token *)
Theorem C76_not_longer : forall w out, stemmed w out -> zlen out <= zlen w.
Proof.
  intros w out H. rewrite (stem_eq _ _ H). clear. stages w Hx.
  { destruct Hx as (Hin & Hx). apply beqb_true in Hx. rewrite <- Hx. apply (exceptions_ok x Hin). }
  destruct (length (chars w) <? 3)%nat; [lia|].
  set (l := no_quote (chars w)). set (v := concat (mark true l)). assert (zlen v <= zlen w) as Hv.
  { unfold v. pose proof (mark_len l true (no_quote_Forall _ _ (chars_Forall w))) as H1. pose proof (no_quote_len (chars w)) as H2. rewrite concat_chars in H2. fold l in H2. lia. }
  set (u := if existsb _ left_alone then _ else _). assert (zlen u <= zlen v) as Hu.
  { unfold u. pose proof (step0_len v). pose proof (step1a_len (step0 v)). destruct (existsb _ left_alone); [lia|].
    match goal with |- zlen (step5 ?a ?b ?x) <= _ => pose proof (step5_len a b x) end.
    match goal with H : _ <= zlen (step4 ?b ?x) |- _ => pose proof (step4_len b x) end.
    match goal with H : _ <= zlen (step3 ?a ?b ?x) |- _ => pose proof (step3_len a b x) end.
    match goal with H : _ <= zlen (step2 ?a ?x) |- _ => pose proof (step2_len a x) end.
    match goal with H : _ <= zlen (step1c ?x) |- _ => pose proof (step1c_len x) end.
    match goal with H : _ <= zlen (step1b ?a ?x) |- _ => pose proof (step1b_len a x) end. lia. }
  clearbody u. pose proof (unmark_len (chars u) (chars_Forall u)) as Hm. rewrite concat_chars in Hm. destruct (marked true l); lia.
Qed.
Print Assumptions C76_not_longer.
(** a stem of valid UTF-8 is valid UTF-8 *)
Theorem C76_valid_utf8 : forall w out, valid_text w -> stemmed w out -> valid_text out.
Proof.
  intros w out Hw H. rewrite (stem_eq _ _ H). clear H. stages w Hx.
  { apply (exceptions_ok x (proj1 Hx)). }
  destruct (length (chars w) <? 3)%nat; [exact Hw|].
  set (l := no_quote (chars w)). set (v := concat (mark true l)). assert (valid_text v) as Hv.
  { apply concat_valid, mark_valid, no_quote_Forall, chars_valid. exact Hw. }
  set (u := if existsb _ left_alone then _ else _). assert (valid_text u) as Hu.
  { unfold u. destruct (existsb _ left_alone); [apply step1a_valid, step0_valid; exact Hv|].
    apply step5_valid, step4_valid, step3_valid, step2_valid, step1c_valid, step1b_valid, step1a_valid, step0_valid. exact Hv. }
  clearbody u. destruct (marked true l); [apply concat_valid, unmark_valid, chars_valid|]; exact Hu.
Qed.
Print Assumptions C76_valid_utf8.
(** a token of fewer than three characters is left alone *)
Theorem C76_short_tokens : forall w, (length (chars w) < 3)%nat -> stemmed w w.
Proof.
  intros w Hl. apply C76_english_stem. symmetry. stages w Hx.
  { destruct Hx as (Hin & Hx). apply beqb_true in Hx. rewrite <- Hx in Hl. pose proof (proj2 (proj2 (proj2 (exceptions_ok x Hin)))). lia. }
  destruct (length (chars w) <? 3)%nat eqn:E; [reflexivity|lia].
Qed.
Print Assumptions C76_short_tokens.

(** the stem is empty for the empty token, and for an apostrophe followed by 's or 's', and for no other token *)
Lemma chars_ne u : u <> [] -> chars u <> []. Proof. intros H E. exact (H (chars_nil u E)). Qed.
Lemma concat_ne l : Forall piece l -> l <> [] -> concat l <> [].
Proof. intros H Hl. destruct l as [|c l]; [contradiction|]. pose proof (Forall_inv H) as Hc. destruct c; [destruct Hc|]. discriminate. Qed.
Lemma y_piece : piece (bs "y"). Proof. constructor. Qed.
Lemma unmark_piece l : Forall piece l -> Forall piece (unmark l).
Proof. intros H. unfold unmark. apply Forall_map. eapply Forall_impl; [|exact H]. intros ch Hc. cbn beta. destruct (code ch =? 89); [exact y_piece|exact Hc]. Qed.
Lemma mark_ne h l : l <> [] -> mark h l <> [].
Proof. destruct l as [|c l]; [contradiction|]. intros _. cbn [mark]. destruct (h && _); discriminate. Qed.
Lemma mark_piece l : forall h, Forall piece l -> Forall piece (mark h l).
Proof. induction l as [|c l IH]; intros h H; [constructor|]. cbn [mark]. pose proof (Forall_inv H). pose proof (Forall_inv_tail H). destruct (h && _); constructor; auto. constructor. Qed.
Lemma mark_starts l : forall h, Forall starts_char l -> Forall starts_char (mark h l).
Proof. induction l as [|c l IH]; intros h H; [constructor|]. cbn [mark]. pose proof (Forall_inv H). pose proof (Forall_inv_tail H). destruct (h && _); constructor; auto. reflexivity. Qed.
Lemma mark_pieces l h : pieces l -> pieces (mark h l).
Proof.
  intros (H1 & H2). split; [apply mark_piece; exact H1|]. destruct l as [|c l]; [constructor|]. cbn [mark tl] in *. destruct (h && _); cbn [tl]; apply mark_starts; exact H2.
Qed.
Lemma no_quote_pieces l : pieces l -> pieces (no_quote l).
Proof. intros H. destruct l as [|c l]; [exact H|]. cbn [no_quote]. destruct (code c =? 39); [exact (pieces_tl _ _ H)|exact H]. Qed.
Lemma mark_same l : forall h m, mark h l = m -> ~ In (bs "Y") m -> l = m.
Proof.
  induction l as [|c l IH]; intros h m <- Hn; [reflexivity|]. cbn [mark] in *. destruct (h && _); [exfalso; apply Hn; left; reflexivity|]. f_equal.
  apply (IH (vowel c)); [reflexivity|]. intros Hi. apply Hn. right. exact Hi.
Qed.
Theorem C76_empty_stem : forall w, stemmed w [] <->
  w = [] \/ exists q, code q = 39 /\ (chars w = [q; bs "'"; bs "s"] \/ chars w = [q; bs "'"; bs "s"; bs "'"]).
Proof.
  intros w. rewrite C76_english_stem. split.
  - unfold porter2. cbv zeta. intros H. destruct (find _ exceptions) as [x|] eqn:Hx. { apply find_some in Hx. exfalso. apply (proj1 (proj2 (exceptions_ok x (proj1 Hx)))). symmetry. exact H. }
    destruct (length (chars w) <? 3)%nat eqn:Hl; [left; symmetry; exact H|]. apply Nat.ltb_ge in Hl. right.
    set (l := no_quote (chars w)) in *. set (v := concat (mark true l)) in *.
    assert (pieces l) as Hpl by apply no_quote_pieces, chars_pieces.
    assert (l <> []) as Hlne by (unfold l; destruct (chars w) as [|c [|d r]]; cbn in Hl |- *; [lia|lia|]; destruct (code c =? 39); discriminate).
    assert (v <> []) as Hv by (apply concat_ne; [apply mark_piece; exact (proj1 Hpl)|apply mark_ne; exact Hlne]).
    pose proof (R1_len v Hv) as HR. pose proof (region_le (R1 v)) as HR2.
    assert (step0 v = []) as H0.
    { destruct (list_eq_dec Z.eq_dec (step0 v) []) as [E|E]; [exact E|]. exfalso. pose proof (step1a_ne _ E) as E1. set (u := step1a (step0 v)) in *. clearbody u.
      assert ((if existsb (beqb u) left_alone then u else step5 (zlen v - zlen (R1 v)) (zlen v - zlen (region (R1 v))) (step4 (zlen v - zlen (region (R1 v))) (step3 (zlen v - zlen (R1 v)) (zlen v - zlen (region (R1 v))) (step2 (zlen v - zlen (R1 v)) (step1c (step1b (zlen v - zlen (R1 v)) u)))))) <> []) as E2.
      { destruct (existsb _ left_alone); [exact E1|]. apply step5_ne; [lia..|]. apply step4_ne; [lia|]. apply step3_ne; [lia|]. apply step2_ne; [lia|]. apply step1c_ne, step1b_ne. exact E1. }
      match type of E2 with ?t <> [] => set (z := t) in *; clearbody z end. destruct (marked true l); [|apply E2; symmetry; exact H].
      apply (concat_ne (unmark (chars z))); [apply unmark_piece, chars_Forall| |symmetry; exact H]. unfold unmark. intros Em. apply map_eq_nil in Em. exact (chars_ne z E2 Em). }
    clear H. apply step0_empty in H0. assert (mark true l = chars v) as Hm by (symmetry; apply chars_concat, mark_pieces; exact Hpl).
    assert (l = [bs "'"; bs "s"; bs "'"] \/ l = [bs "'"; bs "s"] \/ l = [bs "'"]) as Hcases.
    { destruct H0 as [E|[E|[E|E]]]; [contradiction|..]; rewrite E in Hm; (let t := eval vm_compute in (chars (bs "'s'")) in change (chars (bs "'s'")) with t in Hm);
        (let t := eval vm_compute in (chars (bs "'s")) in change (chars (bs "'s")) with t in Hm); (let t := eval vm_compute in (chars (bs "'")) in change (chars (bs "'")) with t in Hm);
        apply mark_same in Hm; [auto|intros [K|[K|[K|[]]]]; discriminate|auto|intros [K|[K|[]]]; discriminate|auto|intros [K|[]]; discriminate]. }
    assert (chars w = l \/ exists q, code q = 39 /\ chars w = q :: l) as [Hc|(q & Hq & Hc)].
    { unfold l. destruct (chars w) as [|q r]; [left; reflexivity|]. cbn [no_quote]. destruct (code q =? 39) eqn:E; [right; exists q; split; [lia|reflexivity]|left; reflexivity]. }
    + exfalso. assert (no_quote l = l) as Hn by (assert (no_quote (chars w) = l) as K by reflexivity; rewrite Hc in K; exact K).
      destruct Hcases as [E|[E|E]]; rewrite E in Hn; discriminate Hn.
    + rewrite Hc in Hl |- *. exists q. split; [exact Hq|]. destruct Hcases as [E|[E|E]]; rewrite E in *; [right; reflexivity|left; reflexivity|cbn in Hl; lia].
  - intros [->|(q & Hq & Hc)]; [reflexivity|].
    assert (exists t, q = 39 :: t) as (t & Eq).
    { assert (piece q) as Hp by (pose proof (chars_Forall w) as Hp; destruct Hc as [Hc|Hc]; rewrite Hc in Hp; exact (Forall_inv Hp)). destruct q as [|b t]; [destruct Hp|].
      exists t. f_equal. rewrite <- Hq. apply code_small. rewrite Hq. lia. }
    assert (w = q ++ bs "'s" \/ w = q ++ bs "'s'") as Hw by (rewrite <- (concat_chars w); destruct Hc as [-> | ->]; [left|right]; reflexivity).
    unfold porter2. cbv zeta. assert (find (fun x => beqb (fst x) w) exceptions = None) as ->.
    { rewrite Eq in Hw. destruct Hw as [-> | ->]; reflexivity. }
    destruct Hc as [Hc|Hc]; rewrite Hc; cbn [length Nat.ltb Nat.leb]; cbn [no_quote]; rewrite Hq; cbn [Z.eqb Pos.eqb]; vm_compute; reflexivity.
Qed.
Print Assumptions C76_empty_stem.

Corollary C76_empty_stem_valid : forall w, valid_text w -> (stemmed w [] <-> w = [] \/ w = bs "''s" \/ w = bs "''s'").
Proof.
  intros w Hw. rewrite C76_empty_stem. split.
  - intros [->|(q & Hq & Hc)]; [left; reflexivity|right]. assert (q = bs "'") as ->.
    { rewrite (valid_text_enc w Hw), chars_enc in Hc. assert (exists r, In r (characters w) /\ encode_rune r = q) as (r & Hr & <-).
      { destruct (characters w) as [|r rs]; [destruct Hc as [Hc|Hc]; discriminate Hc|]. exists r. split; [left; reflexivity|]. destruct Hc as [Hc|Hc]; injection Hc as Hc _; exact Hc. }
      unfold code in Hq. rewrite <- (app_nil_r (encode_rune r)), decode_encode_valid in Hq; [cbn [fst] in Hq; rewrite Hq; reflexivity|].
      exact (proj1 (Forall_forall _ _) (runes_valid w (proj1 Hw)) r Hr). }
    rewrite <- (concat_chars w). destruct Hc as [-> | ->]; [left|right]; reflexivity.
  - intros [->|Hc]; [left; reflexivity|right]. exists (bs "'"). split; [reflexivity|]. destruct Hc as [-> | ->]; [left|right]; reflexivity.
Qed.
Print Assumptions C76_empty_stem_valid.

(** a word without ASCII characters, for instance in Cyrillic, is left alone *)
Lemma strip_foreign s w : Forall (fun b => 128 <= b) w -> asciib s = true -> s <> [] -> strip s w = None.
Proof.
  intros Hw Hs Hn. destruct (strip s w) as [p|] eqn:E; [|reflexivity]. exfalso. apply strip_some in E. destruct s as [|b s]; [contradiction|].
  rewrite Forall_forall in Hw. specialize (Hw b ltac:(rewrite E; apply in_elt)). apply asciib_ok, Forall_inv in Hs. lia.
Qed.
Lemma rules_foreign rs w : Forall (fun b => 128 <= b) w -> forallb (fun r : rule => asciib (fst r) && negb (beqb (fst r) [])) rs = true -> rules rs w = w.
Proof.
  intros Hw. induction rs as [|[s act] rs IH]; [reflexivity|]. cbn [forallb fst rules]. intros H. apply andb_true_iff in H. destruct H as (H & Hr). apply andb_true_iff in H. destruct H as (H1 & H2).
  rewrite (strip_foreign s w Hw H1); [exact (IH Hr)|]. intros ->. discriminate H2.
Qed.
Lemma code_foreign ch : Forall (fun b => 128 <= b) ch -> piece ch -> 128 <= code ch.
Proof.
  destruct ch as [|b t]; [intros _ []|]. intros H _. destruct (Z_lt_dec (code (b :: t)) 128) as [Hc|Hc]; [|lia]. rewrite <- (code_small b t Hc). exact (Forall_inv H).
Qed.
Lemma mark_foreign l : forall h, Forall (fun ch => 128 <= code ch) l -> mark h l = l /\ marked h l = false.
Proof.
  induction l as [|c l IH]; intros h H; [split; reflexivity|]. cbn [mark marked]. pose proof (Forall_inv H) as Hc. cbn beta in Hc. assert ((code c =? 121) = false) as -> by lia. rewrite andb_false_r.
  destruct (IH (vowel c) (Forall_inv_tail H)) as (-> & ->). split; reflexivity.
Qed.
Lemma Forall_concat_in (P : Z -> Prop) l : Forall P (concat l) -> Forall (Forall P) l.
Proof. induction l as [|c l IH]; [constructor|]. cbn [concat]. intros H. apply Forall_app in H. destruct H as (H1 & H2). constructor; auto. Qed.
Theorem C76_other_scripts : forall w, Forall (fun b => 128 <= b) w -> stemmed w w.
Proof.
  intros w Hw. apply C76_english_stem. symmetry. unfold porter2. cbv zeta. destruct (find _ exceptions) as [x|] eqn:Hx.
  { exfalso. apply find_some in Hx. destruct Hx as (Hin & Hx). apply beqb_true in Hx. rewrite <- Hx in Hw.
    assert (forallb (fun x : bytes * bytes => existsb (fun b => b <? 128) (fst x)) exceptions = true) as K by (vm_compute; reflexivity). rewrite forallb_forall in K. specialize (K x Hin).
    apply existsb_exists in K. destruct K as (b & Hb & K). rewrite Forall_forall in Hw. specialize (Hw b Hb). lia. }
  destruct (length (chars w) <? 3)%nat; [reflexivity|].
  assert (Forall (fun ch => 128 <= code ch) (chars w)) as Hc.
  { rewrite <- (concat_chars w) in Hw. apply Forall_concat_in in Hw. pose proof (chars_Forall w) as Hp. rewrite Forall_forall in *. intros ch Hch. apply code_foreign; auto. }
  assert (no_quote (chars w) = chars w) as -> by (destruct (chars w) as [|c l]; [reflexivity|]; cbn [no_quote]; pose proof (Forall_inv Hc) as K; cbn beta in K; assert ((code c =? 39) = false) as -> by lia; reflexivity).
  destruct (mark_foreign (chars w) true Hc) as (-> & ->). rewrite concat_chars. unfold step0. rewrite (rules_foreign _ w Hw) by (vm_compute; reflexivity).
  unfold step1a. rewrite (rules_foreign _ w Hw) by (vm_compute; reflexivity). destruct (existsb _ left_alone); [reflexivity|].
  unfold step1b. rewrite (rules_foreign _ w Hw) by (vm_compute; reflexivity). unfold step1c. rewrite (rules_foreign _ w Hw) by (vm_compute; reflexivity).
  unfold step2. rewrite (rules_foreign _ w Hw) by (vm_compute; reflexivity). unfold step3. rewrite (rules_foreign _ w Hw) by (vm_compute; reflexivity).
  unfold step4. rewrite (rules_foreign _ w Hw) by (vm_compute; reflexivity). unfold step5. rewrite (rules_foreign _ w Hw) by (vm_compute; reflexivity). reflexivity.
Qed.
Print Assumptions C76_other_scripts.

(** what a user might expect and does not hold: stemming a stem changes it again; capital letters survive; every token keeps something *)
Theorem C76_idempotent_refuted : exists w a b, stemmed w a /\ stemmed a b /\ a <> b.
Proof.
  exists (bs "agreed"), (bs "agre"), (bs "agr"). split; [apply C76_english_stem; vm_compute; reflexivity|]. split; [apply C76_english_stem; vm_compute; reflexivity|discriminate].
Qed.
Print Assumptions C76_idempotent_refuted.
Theorem C76_capitals_refuted : stemmed (bs "Yay") (bs "yay") /\ stemmed (bs "Yak") (bs "Yak").
Proof. split; apply C76_english_stem; vm_compute; reflexivity. Qed.
Print Assumptions C76_capitals_refuted.

Example C76_nonvacuous : stemmed (bs "consistently") (bs "consist") /\ stemmed (bs "generously") (bs "generous") /\ stemmed (bs "skies") (bs "sky") /\
  stemmed [97; 195; 40; 128; 128; 105; 110; 103] [97; 195; 40; 128; 128] /\ valid_text (bs "generously") /\ (List.length (chars [209; 143; 209; 143]%Z) < 3)%nat /\ Forall (fun b => 128 <= b) [209; 143; 209; 143; 209; 143].
Proof.
  split; [apply C76_english_stem; vm_compute; reflexivity|]. split; [apply C76_english_stem; vm_compute; reflexivity|]. split; [apply C76_english_stem; vm_compute; reflexivity|]. split; [apply C76_english_stem; vm_compute; reflexivity|].
  split; [apply ascii_valid, asciib_ok; vm_compute; reflexivity|]. split; [vm_compute; lia|]. repeat constructor; lia.
Qed.
