(** What the scanner of encoding/json accepts is a JSON text, if the text is UTF-8 and has no
    escapes with four hexadecimal digits. *)
From Coq Require Import String ZifyBool.
From Verif Require Import Base BaseLemmas GoMap Text AnalysisSpec TextProofs TextProofs2 JsonSpec JsonProofs Config ConfigSpec ConfigProofs.
Local Open Scope Z_scope.
Local Notation length := List.length.

Definition clean (s : bytes) : Prop := Forall is_byte s /\ well_formed s /\ no_escapes s.
Lemma no_escapes_tail a s : no_escapes (a ++ s) -> no_escapes s.
Proof. intros H x y E. apply (H (a ++ x) y). rewrite E, app_assoc. reflexivity. Qed.
Lemma clean_tail c t : c < 128 -> clean (c :: t) -> clean t.
Proof.
  intros Hc (Hb & Hw & Hn). split; [inversion Hb; assumption|]. split; [|exact (no_escapes_tail [c] t Hn)].
  destruct (well_formed_inv (c :: t) ltac:(discriminate) Hw) as [_ H]. unfold decode_rune in H. replace (c <? 128) with true in H by lia. exact H.
Qed.
Lemma clean_skip s : s <> [] -> clean s -> clean (skipn (snd (decode_rune s)) s).
Proof.
  intros Hne (Hb & Hw & Hn). split; [rewrite <- (firstn_skipn (snd (decode_rune s)) s) in Hb; apply tail_forall in Hb; exact Hb|]. split; [apply (proj2 (well_formed_inv s Hne Hw))|].
  apply (no_escapes_tail (firstn (snd (decode_rune s)) s)). rewrite firstn_skipn. exact Hn.
Qed.
Lemma clean_ws s : clean s -> clean (skip_ws s).
Proof.
  induction s as [|c s IH]; intros H; [exact H|]. cbn [skip_ws]. destruct ((c =? 32) || (c =? 9) || (c =? 10) || (c =? 13)) eqn:E; [|exact H]. apply IH. apply (clean_tail c); [lia|exact H].
Qed.
Lemma clean_tl c s : c < 128 -> begins c s = true -> clean s -> clean (tl s).
Proof. destruct s as [|x s]; [discriminate|]. cbn [begins tl]. intros Hc E H. apply (clean_tail x); [lia|exact H]. Qed.
Lemma skip_ws_length s : (length (skip_ws s) <= length s)%nat.
Proof. induction s as [|c s IH]; [reflexivity|]. cbn [skip_ws]. destruct (_ || _); cbn [length] in *; lia. Qed.
Lemma tl_length c s : begins c s = true -> (S (length (tl s)) = length s)%nat.
Proof. destruct s; [discriminate|reflexivity]. Qed.

(** ** Strings *)
Lemma esc_short e : is_esc e = true -> exists x, short_escape e = Some x.
Proof.
  unfold is_esc, short_escape. intros H. destruct ((e =? 34) || (e =? 92) || (e =? 47)) eqn:E0; [eexists; reflexivity|]. destruct (e =? 98) eqn:E1; [eexists; reflexivity|].
  destruct (e =? 102) eqn:E2; [eexists; reflexivity|]. destruct (e =? 110) eqn:E3; [eexists; reflexivity|]. destruct (e =? 114) eqn:E4; [eexists; reflexivity|]. destruct (e =? 116) eqn:E5; [eexists; reflexivity|]. lia.
Qed.
Lemma and_then_inv a o x r : and_then a o = Some (x, r) -> exists y, o = Some (y, r) /\ x = a ++ y.
Proof. destruct o as [[y r']|]; [|discriminate]. cbn. intros H. injection H as <- <-. exists y. auto. Qed.
Lemma string_read n : forall s q r f, (length s <= n)%nat -> clean s -> scan_string s = Some (q, r) -> (length s < f)%nat ->
  (exists l, string_body f s = Some (l, r)) /\ clean r /\ (length r < length s)%nat.
Proof.
  induction n as [|n IH]; intros s q r f Hn Hc E Hf. { destruct s; [discriminate|cbn in Hn; lia]. }
  destruct s as [|c t]; [discriminate|]. destruct f as [|f]; [lia|]. cbn [length] in *. cbn [scan_string] in E. cbn [string_body]. destruct (c =? 34) eqn:E34.
  { injection E as <- <-. split; [eexists; reflexivity|]. split; [apply (clean_tail c); [lia|exact Hc]|lia]. }
  destruct (c =? 92) eqn:E92.
  { destruct t as [|e t1]; [discriminate|]. cbn [length] in *. assert (clean (e :: t1)) as Hc1 by (apply (clean_tail c); [lia|exact Hc]). destruct (is_esc e) eqn:Ee.
    - destruct (and_then_inv _ _ _ _ E) as (y & Ey & ->). assert (clean t1) as Hc2 by (apply (clean_tail e); [unfold is_esc in Ee; lia|exact Hc1]).
      destruct (IH t1 y r f ltac:(lia) Hc2 Ey ltac:(lia)) as ((l & ->) & Hr & Hl). destruct (esc_short e Ee) as (x & ->). split; [eexists; reflexivity|]. split; [exact Hr|lia].
    - destruct (e =? 117) eqn:Eu; [|discriminate]. exfalso. destruct Hc as (_ & _ & Hno). apply (Hno [] t1). cbn [app]. f_equal; [lia|]. f_equal. lia. }
  destruct (c <? 32) eqn:E32; [discriminate|].
  pose proof Hc as (Hb & Hw & Hno). destruct (well_formed_inv (c :: t) ltac:(discriminate) Hw) as [Hd _]. pose proof (clean_skip (c :: t) ltac:(discriminate) Hc) as Hcs. pose proof (decode_width (c :: t) ltac:(discriminate)) as Hwd.
  pose proof (decode_copy (c :: t) Hb ltac:(discriminate)) as Hcp. destruct (decode_rune (c :: t)) as [x w] eqn:Ed. cbn [snd fst] in *.
  assert ((x =? RuneError) && (w =? 1)%nat = false) as Hok. { destruct (Z.eqb_spec x RuneError), (Nat.eqb_spec w 1); try reflexivity. exfalso. apply Hd. subst. auto. }
  rewrite Hok. destruct (Hcp Hok) as (He & Hv & Hl & Hh).
  assert (exists y, scan_string (skipn w (c :: t)) = Some (y, r)) as (y & Ey).
  { destruct (Z.ltb_spec x 128) as [Hx|Hx].
    - assert (w = 1%nat) as ->. { rewrite <- Hl. unfold encode_rune. rewrite Hv. replace (x <? 128) with true by lia. reflexivity. }
      cbn [skipn]. destruct (and_then_inv _ _ _ _ E) as (y & Ey & _). exists y. exact Ey.
    - specialize (Hh ltac:(lia)). assert (scan_string (c :: t) = Some (q, r)) as E' by (cbn [scan_string]; rewrite E34, E92, E32; exact E).
      rewrite <- (firstn_skipn w (c :: t)) in E'. rewrite (scan_high _ _ Hh) in E'. destruct (and_then_inv _ _ _ _ E') as (y & Ey & _). exists y. exact Ey. }
  assert (length (skipn w (c :: t)) < S (length t))%nat as Hlt by (rewrite skipn_length; cbn [length] in *; lia).
  destruct (IH (skipn w (c :: t)) y r f ltac:(lia) Hcs Ey ltac:(lia)) as ((l & ->) & Hr & Hlr). split; [eexists; reflexivity|]. split; [exact Hr|lia].
Qed.

(** ** Numbers *)
Definition nchars (s : bytes) : Prop := forallb number_char s = true.
Lemma digits_nchars d : forallb is_dig d = true -> nchars d.
Proof. unfold nchars. rewrite !forallb_forall. intros H x Hx. unfold number_char. rewrite (H x Hx). reflexivity. Qed.
Lemma nchars_app a b : nchars a -> nchars b -> nchars (a ++ b).
Proof. unfold nchars. rewrite forallb_app. intros -> ->. reflexivity. Qed.
Lemma scan_digits_inv k s : forall n r, scan_digits k s = Some (n, r) -> exists d s' n', s = d ++ s' /\ n = d ++ n' /\ forallb is_dig d = true /\ no_digit s' /\ k s' = Some (n', r).
Proof.
  induction s as [|c s IH]; intros n r E; cbn [scan_digits] in E.
  - exists [], [], n. cbn. auto.
  - rewrite digit_same in E. destruct (is_dig c) eqn:Ec.
    + destruct (and_then_inv _ _ _ _ E) as (y & Ey & ->). destruct (IH _ _ Ey) as (d & s' & n' & -> & -> & Hd & Hn & Hk). exists (c :: d), s', n'. cbn [app forallb]. rewrite Ec, Hd. auto.
    + exists [], (c :: s), n. cbn. auto.
Qed.
Lemma one_digit_inv k s n r : one_digit k s = Some (n, r) -> exists d s' n', d <> [] /\ s = d ++ s' /\ n = d ++ n' /\ forallb is_dig d = true /\ no_digit s' /\ k s' = Some (n', r).
Proof.
  destruct s as [|c s]; [discriminate|]. cbn [one_digit]. rewrite digit_same. destruct (is_dig c) eqn:Ec; [|discriminate]. intros E. destruct (and_then_inv _ _ _ _ E) as (y & Ey & ->).
  destruct (scan_digits_inv k s _ _ Ey) as (d & s' & n' & -> & -> & Hd & Hn & Hk). exists (c :: d), s', n'. split; [discriminate|]. cbn [app forallb]. rewrite Ec, Hd. auto.
Qed.
Lemma no_digit_front a b : no_digit (a ++ b) -> no_digit a.
Proof. destruct a; [intros; exact I|exact id]. Qed.
Lemma some_digits_of d n : d <> [] -> forallb is_dig d = true -> no_digit n -> some_digits (d ++ n) = Some n.
Proof.
  intros Hne Hd Hn. assert (span is_dig (d ++ n) = (d, n)) as E.
  { clear Hne. induction d as [|c d IH]; cbn [app].
    - destruct n as [|c n]; [reflexivity|]. cbn [span]. unfold no_digit in Hn. rewrite Hn. reflexivity.
    - cbn [forallb] in Hd. apply andb_true_iff in Hd. destruct Hd as [Hc Hd]. cbn [span]. rewrite Hc, (IH Hd). reflexivity. }
  unfold some_digits. rewrite E. destruct d; [congruence|reflexivity].
Qed.
Lemma state_e_inv s n r : state_e s = Some (n, r) -> s = n ++ r /\ nchars n /\ exists t, some_digits (match n with c :: t' => if (c =? 43) || (c =? 45) then t' else n | [] => n end) = Some t /\ t = [].
Proof.
  assert (forall s n r, state_e_sign s = Some (n, r) -> s = n ++ r /\ nchars n /\ some_digits n = Some [] /\ exists c d, n = c :: d /\ is_dig c = true) as H.
  { clear. intros s n r E. unfold state_e_sign in E. destruct (one_digit_inv _ _ _ _ E) as (d & s' & n' & Hne & -> & -> & Hd & Hn & Hk). unfold scan_end in Hk. injection Hk as <- <-. rewrite app_nil_r.
    split; [reflexivity|]. split; [apply digits_nchars; exact Hd|]. split; [rewrite <- (app_nil_r d); apply some_digits_of; [exact Hne|exact Hd|exact I]|]. destruct d as [|c d]; [congruence|]. cbn [forallb] in Hd. apply andb_true_iff in Hd. exists c, d. tauto. }
  intros E. destruct s as [|c t]; [discriminate|]. cbn [state_e] in E. destruct ((c =? 43) || (c =? 45)) eqn:Ec.
  - destruct (and_then_inv _ _ _ _ E) as (y & Ey & ->). destruct (H _ _ _ Ey) as (-> & Hn & Hs & _). cbn [app]. split; [reflexivity|]. split; [unfold nchars in *; cbn [forallb]; rewrite Hn; unfold number_char; replace (c =? 43) with (c =? 43) by reflexivity; lia|].
    rewrite Ec. exists []. auto.
  - destruct (H _ _ _ E) as (E1 & Hn & Hs & c' & d & -> & Hd). split; [exact E1|]. split; [exact Hn|]. unfold is_dig in Hd. replace ((c' =? 43) || (c' =? 45)) with false by lia. exists []. auto.
Qed.
Lemma state_exp_inv s n r : state_exp s = Some (n, r) -> s = n ++ r /\ nchars n /\ exponent n = true.
Proof.
  destruct s as [|c t]; cbn [state_exp]. { unfold scan_end. intros E. injection E as <- <-. repeat split. }
  destruct ((c =? 101) || (c =? 69)) eqn:Ec.
  - intros E. destruct (and_then_inv _ _ _ _ E) as (y & Ey & ->). destruct (state_e_inv _ _ _ Ey) as (-> & Hn & t' & Hs & ->). split; [reflexivity|]. split; [unfold nchars in *; cbn [app forallb]; rewrite Hn; unfold number_char; lia|].
    cbn [app exponent]. rewrite Ec, Hs. reflexivity.
  - unfold scan_end. intros E. injection E as <- <-. repeat split.
Qed.
Lemma state_0_inv s n r : state_0 s = Some (n, r) -> s = n ++ r /\ nchars n /\ fraction n = true.
Proof.
  destruct s as [|c t]; cbn [state_0]. { unfold scan_end. intros E. injection E as <- <-. repeat split. }
  destruct (c =? 46) eqn:Ec.
  - intros E. destruct (and_then_inv _ _ _ _ E) as (y & Ey & ->). destruct (one_digit_inv _ _ _ _ Ey) as (d & s' & n' & Hne & -> & -> & Hd & Hnd & Hk). destruct (state_exp_inv _ _ _ Hk) as (-> & Hn & He).
    split; [cbn [app]; rewrite app_assoc; reflexivity|]. split; [apply (nchars_app [c]); [unfold nchars, number_char; cbn [forallb]; lia|apply nchars_app; [apply digits_nchars; exact Hd|exact Hn]]|].
    cbn [app fraction]. rewrite Ec, (some_digits_of d n' Hne Hd (no_digit_front _ _ Hnd)). exact He.
  - intros E. destruct (state_exp_inv _ _ _ E) as (E1 & Hn & He). split; [exact E1|]. split; [exact Hn|]. destruct n as [|c' n]; [reflexivity|]. cbn [app] in E1. injection E1 as <- _. cbn [fraction]. rewrite Ec. exact He.
Qed.
Lemma state_neg_inv s n r : state_neg s = Some (n, r) -> s = n ++ r /\ nchars n /\ integer n = true /\ begins 45 n = false.
Proof.
  destruct s as [|c t]; [discriminate|]. cbn [state_neg]. destruct (c =? 48) eqn:Ec.
  - intros E. destruct (and_then_inv _ _ _ _ E) as (y & Ey & ->). destruct (state_0_inv _ _ _ Ey) as (-> & Hn & Hf). split; [reflexivity|]. split; [apply (nchars_app [c]); [unfold nchars, number_char, is_dig; cbn [forallb]; lia|exact Hn]|].
    cbn [app integer begins]. rewrite Ec. split; [exact Hf|lia].
  - rewrite digit_same. destruct (is_dig c) eqn:Ed; [|discriminate]. intros E. destruct (and_then_inv _ _ _ _ E) as (y & Ey & ->). destruct (scan_digits_inv _ _ _ _ Ey) as (d & s' & n' & -> & -> & Hd & Hnd & Hk).
    destruct (state_0_inv _ _ _ Hk) as (-> & Hn & Hf). split; [cbn [app]; rewrite app_assoc; reflexivity|]. split; [apply (nchars_app [c]); [unfold nchars, number_char; cbn [forallb]; rewrite Ed; reflexivity|apply nchars_app; [apply digits_nchars; exact Hd|exact Hn]]|].
    cbn [app integer begins]. rewrite Ec. change (c :: d ++ n') with ((c :: d) ++ n'). rewrite some_digits_of; [split; [exact Hf|unfold is_dig in Ed; lia]|discriminate|cbn [forallb]; rewrite Ed; exact Hd|exact (no_digit_front _ _ Hnd)].
Qed.
Lemma scan_number_inv s n r : scan_number s = Some (n, r) -> s = n ++ r /\ nchars n /\ is_number n = true.
Proof.
  destruct s as [|c t]; [discriminate|]. cbn [scan_number]. destruct (c =? 45) eqn:Ec.
  - intros E. destruct (and_then_inv _ _ _ _ E) as (y & Ey & ->). destruct (state_neg_inv _ _ _ Ey) as (-> & Hn & Hf & _). split; [reflexivity|]. split; [apply (nchars_app [c]); [unfold nchars, number_char; cbn [forallb]; lia|exact Hn]|]. cbn [app is_number]. rewrite Ec. exact Hf.
  - intros E. destruct (state_neg_inv _ _ _ E) as (E1 & Hn & Hf & Hb). split; [exact E1|]. split; [exact Hn|]. destruct n as [|c' n]; [discriminate|]. cbn [begins] in Hb. cbn [is_number]. rewrite Hb. exact Hf.
Qed.
Lemma number_read s n r : scan_number s = Some (n, r) -> stop r -> JsonSpec.number s = Some (JNumber n, r).
Proof.
  intros E Hr. destruct (scan_number_inv _ _ _ E) as (-> & Hn & Hi). unfold JsonSpec.number. assert (span number_char (n ++ r) = (n, r)) as ->; [|rewrite Hi; reflexivity].
  clear - Hr Hn. unfold nchars in Hn. induction n as [|c n IH]; cbn [app].
  - destruct r as [|c r]; [reflexivity|]. cbn [span]. unfold stop in Hr. rewrite Hr. reflexivity.
  - cbn [forallb] in Hn. apply andb_true_iff in Hn. destruct Hn as [Hc Hn]. cbn [span]. rewrite Hc, (IH Hn). reflexivity.
Qed.

(** ** Values *)
Lemma scan_word_inv w : forall s r, scan_word w s = Some r -> s = w ++ r.
Proof. induction w as [|x w IH]; intros s r E; cbn [scan_word] in E; [injection E as ->; reflexivity|]. destruct s as [|c s]; [discriminate|]. destruct (Z.eqb_spec x c) as [->|]; [|discriminate]. cbn [app]. f_equal. apply IH. exact E. Qed.
Lemma literal_of w r : literal w (w ++ r) = Some r.
Proof. unfold literal. rewrite firstn_app, firstn_all, Nat.sub_diag. cbn [firstn]. rewrite app_nil_r. destruct (list_eq_dec _ w w); [|congruence]. rewrite skipn_app, skipn_all, Nat.sub_diag. reflexivity. Qed.
Lemma clean_low a r : Forall (fun c => c < 128) a -> clean (a ++ r) -> clean r.
Proof. induction 1 as [|c a Hc Ha IH]; [exact id|]. intros H. apply IH. apply (clean_tail c); [exact Hc|exact H]. Qed.
Lemma nchars_low n : nchars n -> Forall (fun c => c < 128) n.
Proof. unfold nchars. rewrite forallb_forall, Forall_forall. intros H x Hx. specialize (H x Hx). unfold number_char, is_dig in H. lia. Qed.
Lemma stop_ws r c : begins c (skip_ws r) = true -> number_char c = false -> stop r.
Proof.
  destruct r as [|x r]; [intros; exact I|]. cbn [skip_ws]. destruct ((x =? 32) || (x =? 9) || (x =? 10) || (x =? 13)) eqn:E; intros Hb Hc; unfold stop.
  - unfold number_char, is_dig. lia.
  - cbn [begins] in Hb. replace x with c by lia. exact Hc.
Qed.
Lemma stop_end r : skip_ws r = [] -> stop r.
Proof. destruct r as [|x r]; [intros; exact I|]. cbn [skip_ws]. destruct ((x =? 32) || (x =? 9) || (x =? 10) || (x =? 13)) eqn:E; [|discriminate]. intros _. unfold stop, number_char, is_dig. lia. Qed.

Lemma read F :
  (forall s v r f, clean s -> scan_value F s = Some (v, r) -> stop r -> (2 * length s + 1 <= f)%nat -> (exists j, value f s = Some (j, r)) /\ clean r /\ (length r < length s)%nat)
  /\ (forall s v r f, clean s -> scan_elements F s = Some (v, r) -> (2 * length s + 2 <= f)%nat -> (exists j, elements f s = Some (j, r)) /\ clean r /\ (length r < length s)%nat)
  /\ (forall s v r f, clean s -> scan_members F s = Some (v, r) -> (2 * length s + 2 <= f)%nat -> (exists j, JsonSpec.members f s = Some (j, r)) /\ clean r /\ (length r < length s)%nat).
Proof.
  induction F as [|F (IHv & IHe & IHm)]; [split; [|split]; intros s v r f _ E; discriminate E|]. split; [|split].
  - intros s v r f Hc E Hs Hf. destruct f as [|f]; [lia|]. rewrite scan_value_S, spaces_skip in E. rewrite value_S. pose proof (clean_ws s Hc) as Hc1. pose proof (skip_ws_length s) as Hl. destruct (skip_ws s) as [|c t]; [discriminate|]. cbn [length] in Hl.
    rewrite spaces_skip in E. pose proof (skip_ws_length t) as Hlt. destruct (c =? 123) eqn:E123.
    { replace (c =? 34) with false by lia. replace (c =? 91) with false by lia. assert (clean t) as Hct by (apply (clean_tail c); [lia|exact Hc1]). destruct (begins 125 (skip_ws t)) eqn:Eb.
      - injection E as <- <-. split; [eexists; reflexivity|]. split; [apply (clean_tl 125); [lia|exact Eb|apply clean_ws; exact Hct]|]. pose proof (tl_length _ _ Eb). lia.
      - destruct (scan_members F t) as [[l r']|] eqn:Em; [|discriminate]. injection E as <- <-. destruct (IHm t l r' f Hct Em ltac:(lia)) as ((j & ->) & Hr & Hlr). split; [eexists; reflexivity|]. split; [exact Hr|lia]. }
    destruct (c =? 91) eqn:E91.
    { replace (c =? 34) with false by lia. assert (clean t) as Hct by (apply (clean_tail c); [lia|exact Hc1]). destruct (begins 93 (skip_ws t)) eqn:Eb.
      - injection E as <- <-. split; [eexists; reflexivity|]. split; [apply (clean_tl 93); [lia|exact Eb|apply clean_ws; exact Hct]|]. pose proof (tl_length _ _ Eb). lia.
      - destruct (scan_elements F t) as [[l r']|] eqn:Em; [|discriminate]. injection E as <- <-. destruct (IHe t l r' f Hct Em ltac:(lia)) as ((j & ->) & Hr & Hlr). split; [eexists; reflexivity|]. split; [exact Hr|lia]. }
    destruct (c =? 34) eqn:E34.
    { assert (clean t) as Hct by (apply (clean_tail c); [lia|exact Hc1]). destruct (scan_string t) as [[q r']|] eqn:Es; [|discriminate]. injection E as <- <-. destruct (string_read _ t q r' f (le_n _) Hct Es ltac:(lia)) as ((l & ->) & Hr & Hlr).
      split; [eexists; reflexivity|]. split; [exact Hr|lia]. }
    assert (forall w b r', Forall (fun c => c < 128) w -> w <> [] -> scan_word w (c :: t) = Some r' -> Some (GBool b, r') = Some (v, r) \/ Some (GNull, r') = Some (v, r) -> c :: t = w ++ r /\ clean r /\ (length r < length s)%nat) as Hword.
    { intros w b r' Hw Hne Ew Er. assert (r' = r) as -> by (destruct Er; congruence). apply scan_word_inv in Ew. split; [exact Ew|]. split; [apply (clean_low w); [exact Hw|rewrite <- Ew; exact Hc1]|].
      apply (f_equal (@length Z)) in Ew. rewrite app_length in Ew. cbn [length] in Ew. destruct w; [congruence|cbn [length] in Ew; lia]. }
    destruct (c =? 116) eqn:E116.
    { destruct (scan_word (bs "true") (c :: t)) as [r'|] eqn:Ew; [|discriminate]. destruct (Hword (bs "true") true r') as (E1 & Hr & Hlr); [change (bs "true") with [116; 114; 117; 101]; repeat constructor; lia|discriminate|exact Ew|left; exact E|]. split; [|split; assumption].
      rewrite E1. change (bs "true") with [116; 114; 117; 101]. rewrite literal_of. cbn [app]. rewrite literal_ne by lia. eexists. reflexivity. }
    destruct (c =? 102) eqn:E102.
    { destruct (scan_word (bs "false") (c :: t)) as [r'|] eqn:Ew; [|discriminate]. destruct (Hword (bs "false") false r') as (E1 & Hr & Hlr); [change (bs "false") with [102; 97; 108; 115; 101]; repeat constructor; lia|discriminate|exact Ew|left; exact E|]. split; [|split; assumption].
      rewrite E1. change (bs "false") with [102; 97; 108; 115; 101]. rewrite literal_of. cbn [app]. rewrite !literal_ne by lia. eexists. reflexivity. }
    destruct (c =? 110) eqn:E110.
    { destruct (scan_word (bs "null") (c :: t)) as [r'|] eqn:Ew; [|discriminate]. destruct (Hword (bs "null") false r') as (E1 & Hr & Hlr); [change (bs "null") with [110; 117; 108; 108]; repeat constructor; lia|discriminate|exact Ew|right; exact E|]. split; [|split; assumption].
      rewrite E1. change (bs "null") with [110; 117; 108; 108]. rewrite literal_of. eexists. reflexivity. }
    rewrite !literal_ne by lia. destruct (scan_number (c :: t)) as [[n r']|] eqn:En; [|discriminate]. injection E as <- <-. rewrite (number_read _ _ _ En Hs). split; [eexists; reflexivity|]. destruct (scan_number_inv _ _ _ En) as (E1 & Hn & Hi).
    split; [apply (clean_low n); [apply nchars_low; exact Hn|rewrite <- E1; exact Hc1]|]. apply (f_equal (@length Z)) in E1. rewrite app_length in E1. cbn [length] in E1. destruct n; [discriminate|cbn [length] in E1; lia].
  - intros s v r f Hc E Hf. destruct f as [|f]; [lia|]. rewrite scan_elements_S in E. rewrite elements_S. destruct (scan_value F s) as [[v1 r1]|] eqn:Ev; [|discriminate]. rewrite spaces_skip in E.
    destruct (begins 44 (skip_ws r1)) eqn:E44.
    + destruct (IHv s v1 r1 f Hc Ev (stop_ws _ _ E44 eq_refl) ltac:(lia)) as ((j & ->) & Hr1 & Hl1). rewrite E44. destruct (scan_elements F (tl (skip_ws r1))) as [[l e]|] eqn:Ee; [|discriminate]. injection E as <- <-.
      pose proof (tl_length _ _ E44). pose proof (skip_ws_length r1). destruct (IHe _ l e f (clean_tl 44 _ ltac:(lia) E44 (clean_ws _ Hr1)) Ee ltac:(lia)) as ((l' & ->) & Hr & Hlr). split; [eexists; reflexivity|]. split; [exact Hr|lia].
    + destruct (begins 93 (skip_ws r1)) eqn:E93; [|discriminate]. injection E as <- <-. destruct (IHv s v1 r1 f Hc Ev (stop_ws _ _ E93 eq_refl) ltac:(lia)) as ((j & ->) & Hr1 & Hl1). rewrite E44, E93.
      pose proof (tl_length _ _ E93). pose proof (skip_ws_length r1). split; [eexists; reflexivity|]. split; [apply (clean_tl 93); [lia|exact E93|apply clean_ws; exact Hr1]|lia].
  - intros s v r f Hc E Hf. destruct f as [|f]; [lia|]. rewrite scan_members_S, spaces_skip in E. rewrite members_S. pose proof (clean_ws s Hc) as Hc1. pose proof (skip_ws_length s) as Hl. destruct (begins 34 (skip_ws s)) eqn:E34; [|discriminate].
    pose proof (tl_length _ _ E34) as Hl1. destruct (scan_string (tl (skip_ws s))) as [[q r0]|] eqn:Es; [|discriminate].
    destruct (string_read _ _ q r0 f (le_n _) (clean_tl 34 _ ltac:(lia) E34 Hc1) Es ltac:(lia)) as ((k & ->) & Hr0 & Hl0). rewrite spaces_skip in E. destruct (begins 58 (skip_ws r0)) eqn:E58; [|discriminate].
    pose proof (tl_length _ _ E58) as Hl2. pose proof (skip_ws_length r0) as Hl3. destruct (scan_value F (tl (skip_ws r0))) as [[v1 r1]|] eqn:Ev; [|discriminate]. rewrite spaces_skip in E. pose proof (clean_tl 58 _ ltac:(lia) E58 (clean_ws _ Hr0)) as Hc2.
    destruct (begins 44 (skip_ws r1)) eqn:E44.
    + destruct (IHv _ v1 r1 f Hc2 Ev (stop_ws _ _ E44 eq_refl) ltac:(lia)) as ((j & ->) & Hr1 & Hl4). rewrite E44. destruct (scan_members F (tl (skip_ws r1))) as [[l e]|] eqn:Ee; [|discriminate]. injection E as <- <-.
      pose proof (tl_length _ _ E44). pose proof (skip_ws_length r1). destruct (IHm _ l e f (clean_tl 44 _ ltac:(lia) E44 (clean_ws _ Hr1)) Ee ltac:(lia)) as ((l' & ->) & Hr & Hlr). split; [eexists; reflexivity|]. split; [exact Hr|lia].
    + destruct (begins 125 (skip_ws r1)) eqn:E93; [|discriminate]. injection E as <- <-. destruct (IHv _ v1 r1 f Hc2 Ev (stop_ws _ _ E93 eq_refl) ltac:(lia)) as ((j & ->) & Hr1 & Hl4). rewrite E44, E93.
      pose proof (tl_length _ _ E93). pose proof (skip_ws_length r1). split; [eexists; reflexivity|]. split; [apply (clean_tl 125); [lia|exact E93|apply clean_ws; exact Hr1]|lia].
Qed.
Theorem scan_only_json data v : clean data -> scan data = Some v -> exists j, parse data = Some j.
Proof.
  intros Hc E. unfold scan in E. destruct (scan_value (2 * length data + 2) data) as [[v' r]|] eqn:Ev; [|discriminate]. rewrite spaces_skip in E. destruct (skip_ws r) eqn:Er; [|discriminate].
  destruct (proj1 (read _) data v' r (2 * length data + 2)%nat Hc Ev (stop_end _ Er) ltac:(lia)) as ((j & Ej) & _ & _). unfold parse. rewrite Ej, Er. exists j. reflexivity.
Qed.
