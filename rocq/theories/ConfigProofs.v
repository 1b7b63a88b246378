(** The scanner of encoding/json reads every JSON text as RFC 8259 does. *)
From Coq Require Import String ZifyBool.
From Verif Require Import Base BaseLemmas GoMap Text AnalysisSpec TextProofs TextProofs2 JsonSpec JsonProofs Config ConfigSpec.
Local Open Scope Z_scope.
Local Notation length := List.length.

Lemma spaces_skip s : spaces s = skip_ws s.
Proof. induction s as [|c t IH]; [reflexivity|]. cbn [spaces skip_ws]. rewrite IH. replace ((c =? 32) || (c =? 9) || (c =? 13) || (c =? 10)) with ((c =? 32) || (c =? 9) || (c =? 10) || (c =? 13)) by (destruct (c =? 10), (c =? 13); rewrite ?orb_true_r, ?orb_false_r; reflexivity). reflexivity. Qed.
Lemma skip_ws_forall (P : Z -> Prop) s : Forall P s -> Forall P (skip_ws s).
Proof. induction 1 as [|c t H Ht IH]; [constructor|]. cbn [skip_ws]. destruct (_ || _); [exact IH|constructor; assumption]. Qed.

(** ** Strings *)
Lemma and_then_assoc a b o : and_then a (and_then b o) = and_then (a ++ b) o.
Proof. destruct o as [[x r]|]; cbn; [rewrite app_assoc|]; reflexivity. Qed.
Lemma scan_high a b : Forall (fun c => 128 <= c) a -> scan_string (a ++ b) = and_then a (scan_string b).
Proof.
  induction 1 as [|c t H Ht IH]; [cbn; destruct (scan_string b) as [[? ?]|]; reflexivity|]. cbn [app scan_string].
  replace (c =? 34) with false by lia. replace (c =? 92) with false by lia. replace (c <? 32) with false by lia. rewrite IH, and_then_assoc. reflexivity.
Qed.
Lemma decode_copy s : Forall is_byte s -> s <> [] -> let '(r, w) := decode_rune s in (r =? RuneError) && (w =? 1)%nat = false ->
  encode_rune r = firstn w s /\ valid_rune r = true /\ length (encode_rune r) = w /\ (128 <= r -> Forall (fun c => 128 <= c) (firstn w s)).
Proof.
  intros Hb Hne. pose proof (decode_good s Hb Hne) as Hg. pose proof (decode_shape s Hne) as Hs. pose proof (decode_width s Hne) as Hw. destruct (decode_rune s) as [r w] eqn:Ed. intros Hok. cbn [snd] in Hw.
  destruct Hg as [[-> ->]|[Eenc Elen]]; [discriminate|]. split; [exact Eenc|]. split.
  { unfold RuneLen in Elen. unfold valid_rune. destruct (r <? 0) eqn:E0; [lia|]. destruct (r <? 128) eqn:E1; [lia|]. destruct (r <? 2048) eqn:E2; [lia|]. destruct ((55296 <=? r) && (r <=? 57343)) eqn:E3; [lia|]. destruct (r <? 65536) eqn:E4; [lia|]. destruct (r <=? 1114111) eqn:E5; lia. }
  split; [rewrite Eenc, firstn_length; lia|]. intros Hr.
  inversion Hs; subst; cbn [firstn]; [discriminate|lia| | |].
  - repeat constructor; lia.
  - repeat constructor; try lia. destruct (Z.eqb_spec a 224), (Z.eqb_spec a 237); lia.
  - repeat constructor; try lia. destruct (Z.eqb_spec a 240), (Z.eqb_spec a 244); lia.
Qed.
Lemma hexval_hex c v : hexval c = Some v -> is_hex c = true /\ hex_digit c = v.
Proof.
  unfold hexval, is_hex, hex_digit, is_dig. destruct ((48 <=? c) && (c <=? 57)) eqn:E1; [intros H; injection H as <-; split; [lia|]; destruct (c <=? 57) eqn:E; lia|].
  destruct ((97 <=? c) && (c <=? 102)) eqn:E2; [intros H; injection H as <-; split; [lia|]; destruct (c <=? 57) eqn:E; [lia|]; destruct (97 <=? c) eqn:E'; lia|].
  destruct ((65 <=? c) && (c <=? 70)) eqn:E3; [intros H; injection H as <-; split; [lia|]; destruct (c <=? 57) eqn:E; [lia|]; destruct (97 <=? c) eqn:E'; lia|discriminate].
Qed.
Lemma hex4_getu4 t u t2 q : hex4 t = Some (u, t2) -> exists h1 h2 h3 h4, t = h1 :: h2 :: h3 :: h4 :: t2 /\ is_hex h1 && is_hex h2 && is_hex h3 && is_hex h4 = true
  /\ getu4 (92 :: 117 :: h1 :: h2 :: h3 :: h4 :: q) = u.
Proof.
  unfold hex4. destruct t as [|a [|b [|c [|d t]]]]; try discriminate.
  destruct (hexval a) as [a'|] eqn:Ea; [|discriminate]. destruct (hexval b) as [b'|] eqn:Eb; [|discriminate]. destruct (hexval c) as [c'|] eqn:Ec; [|discriminate]. destruct (hexval d) as [d'|] eqn:Ed; [|discriminate].
  intros H. injection H as <- <-. destruct (hexval_hex _ _ Ea) as [Ha Ha']. destruct (hexval_hex _ _ Eb) as [Hb Hb']. destruct (hexval_hex _ _ Ec) as [Hc Hc']. destruct (hexval_hex _ _ Ed) as [Hd Hd'].
  exists a, b, c, d. split; [reflexivity|]. rewrite Ha, Hb, Hc, Hd. split; [reflexivity|]. unfold getu4. change (negb (92 =? 92) || negb (117 =? 117)) with false. cbn iota. rewrite Ha, Hb, Hc, Hd. cbn [andb fold_left]. rewrite Ha', Hb', Hc', Hd'. lia.
Qed.
Lemma prepend_inv r o l s : prepend r o = Some (l, s) -> exists l', o = Some (l', s) /\ l = r :: l'.
Proof. destruct o as [[l' s']|]; cbn; [|discriminate]. intros H. injection H as <- <-. eauto. Qed.
Lemma unquote_more f : forall s f', (length s <= f)%nat -> (length s <= f')%nat -> unquote_fuel f s = unquote_fuel f' s.
Proof.
  induction f as [|f IH]; intros s f' H1 H2.
  - destruct s; [destruct f'; reflexivity|cbn in H1; lia].
  - destruct s as [|c t]; [destruct f'; reflexivity|]. destruct f' as [|f']; [cbn in H2; lia|]. cbn [unquote_fuel length] in *.
    assert (forall n, (length (skipn (S n) (c :: t)) <= f)%nat /\ (length (skipn (S n) (c :: t)) <= f')%nat) as Hsk by (intros n; rewrite skipn_length; cbn [length]; lia).
    destruct (c =? 92).
    + destruct t as [|e t1]; [reflexivity|]. destruct (e =? 117); [|f_equal; apply IH; cbn [length] in *; lia]. cbv zeta.
      assert (length (skipn 6 (skipn 6 (c :: e :: t1))) <= f /\ length (skipn 6 (skipn 6 (c :: e :: t1))) <= f')%nat as [G1 G2] by (pose proof (Hsk 5%nat); rewrite skipn_length; lia).
      destruct (Hsk 5%nat). destruct (is_surrogate _); [destruct (negb _)|]; f_equal; apply IH; assumption.
    + destruct (c <? 128); [f_equal; apply IH; lia|]. pose proof (decode_width (c :: t) ltac:(discriminate)) as Hw. destruct (decode_rune (c :: t)) as [r w]. cbn [snd] in Hw. destruct w as [|w]; [lia|]. destruct (Hsk w). f_equal. apply IH; assumption.
Qed.
Lemma string_scanned f : forall s l r, Forall is_byte s -> string_body f s = Some (l, r) ->
  exists q, scan_string s = Some (q, r) /\ s = q ++ 34 :: r /\ forall F, (length q <= F)%nat -> unquote_fuel F q = utf8 l.
Proof.
  induction f as [|f IH]; intros s l r Hb E; [destruct s; discriminate|]. destruct s as [|c t]; [discriminate|]. cbn [string_body] in E.
  destruct (c =? 34) eqn:E34.
  { injection E as <- <-. apply Z.eqb_eq in E34. subst c. exists []. split; [reflexivity|]. split; [reflexivity|]. intros F _. destruct F; reflexivity. }
  assert (Forall is_byte t) as Hbt by (inversion Hb; assumption).
  destruct (c =? 92) eqn:E92.
  - apply Z.eqb_eq in E92. subst c. destruct t as [|e t1]; [discriminate|]. assert (Forall is_byte t1) as Hbt1 by (inversion Hbt; assumption).
    destruct (short_escape e) as [x|] eqn:Ee.
    + apply prepend_inv in E. destruct E as (l' & E & ->). destruct (IH t1 l' r Hbt1 E) as (q & Eq & Hq & Hu). 
      assert (is_esc e = true /\ e <> 117 /\ esc_byte e = x /\ encode_rune x = [x]) as (He1 & He2 & He3 & He4).
      { unfold short_escape in Ee. unfold is_esc, esc_byte.
        destruct (Z.eqb_spec e 34) as [->|]; [cbn [orb] in Ee; injection Ee as <-; repeat split; [discriminate]|].
        destruct (Z.eqb_spec e 92) as [->|]; [cbn [orb] in Ee; injection Ee as <-; repeat split; [discriminate]|].
        destruct (Z.eqb_spec e 47) as [->|]; [cbn [orb] in Ee; injection Ee as <-; repeat split; [discriminate]|]. cbn [orb] in Ee.
        destruct (Z.eqb_spec e 98) as [->|]; [injection Ee as <-; repeat split; [discriminate]|].
        destruct (Z.eqb_spec e 102) as [->|]; [injection Ee as <-; repeat split; [discriminate]|].
        destruct (Z.eqb_spec e 110) as [->|]; [injection Ee as <-; repeat split; [discriminate]|].
        destruct (Z.eqb_spec e 114) as [->|]; [injection Ee as <-; repeat split; [discriminate]|].
        destruct (Z.eqb_spec e 116) as [->|]; [injection Ee as <-; repeat split; [discriminate]|]. discriminate. }
      exists (92 :: e :: q). split; [|split].
      * cbn [scan_string]. change (92 =? 34) with false. change (92 =? 92) with true. cbn iota. rewrite He1, Eq. reflexivity.
      * rewrite Hq. reflexivity.
      * intros [|F] HF; [cbn in HF; lia|]. cbn [unquote_fuel]. change (92 =? 92) with true. cbn iota. replace (e =? 117) with false by lia. unfold utf8. cbn [map concat]. rewrite He3, He4. cbn [app]. f_equal. apply Hu. cbn [length] in HF. lia.
    + destruct (e =? 117) eqn:E117; [|discriminate]. apply Z.eqb_eq in E117. subst e.
      destruct (hex4 t1) as [[u t2]|] eqn:Eh; [|discriminate].
      destruct (hex4_getu4 t1 u t2 [] Eh) as (h1 & h2 & h3 & h4 & -> & Hx & _).
      assert (forall q, getu4 (92 :: 117 :: h1 :: h2 :: h3 :: h4 :: q) = u) as Hg by (intros q; destruct (hex4_getu4 _ u t2 q Eh) as (g1 & g2 & g3 & g4 & Eg & _ & Hg); injection Eg as <- <- <- <-; exact Hg).
      assert (Forall is_byte t2) as Hbt2 by (do 4 (apply Forall_inv_tail in Hbt1); exact Hbt1).
      assert (forall q, scan_string t2 = Some (q, r) -> scan_string (92 :: 117 :: h1 :: h2 :: h3 :: h4 :: t2) = Some (92 :: 117 :: h1 :: h2 :: h3 :: h4 :: q, r)) as Hsc.
      { intros q Eq. cbn [scan_string]. change (92 =? 34) with false. change (92 =? 92) with true. change (is_esc 117) with false. change (117 =? 117) with true. cbn iota. rewrite Hx, Eq. reflexivity. }
      destruct ((55296 <=? u) && (u <=? 56319)) eqn:Es.
      * destruct t2 as [|c1 t2']; [discriminate|]. destruct (Z.eq_dec c1 92) as [->|Hc1]; [|exfalso; clear - E Hc1; destruct c1 as [|p|p]; try discriminate; do 7 (try (destruct p as [p|p|]; try discriminate)); congruence].
        destruct t2' as [|c2 t3]; [discriminate|]. destruct (Z.eq_dec c2 117) as [->|Hc2]; [|exfalso; clear - E Hc2; destruct c2 as [|p|p]; try discriminate; do 7 (try (destruct p as [p|p|]; try discriminate)); congruence].
        destruct (hex4 t3) as [[v t4]|] eqn:Eh2; [|discriminate]. destruct ((56320 <=? v) && (v <=? 57343)) eqn:Ev; [|discriminate].
        apply prepend_inv in E. destruct E as (l' & E & ->).
        destruct (hex4_getu4 t3 v t4 [] Eh2) as (k1 & k2 & k3 & k4 & -> & Hx2 & _).
        assert (forall q, getu4 (92 :: 117 :: k1 :: k2 :: k3 :: k4 :: q) = v) as Hg2 by (intros q; destruct (hex4_getu4 _ v t4 q Eh2) as (g1 & g2 & g3 & g4 & Eg & _ & Hg2); injection Eg as <- <- <- <-; exact Hg2).
        destruct (IH t4 l' r) as (q & Eq & Hq & Hu); [do 6 (apply Forall_inv_tail in Hbt2); exact Hbt2|exact E|]. 
        exists (92 :: 117 :: h1 :: h2 :: h3 :: h4 :: 92 :: 117 :: k1 :: k2 :: k3 :: k4 :: q). split; [|split].
        -- apply Hsc. cbn [scan_string]. change (92 =? 34) with false. change (92 =? 92) with true. change (is_esc 117) with false. change (117 =? 117) with true. cbn iota. rewrite Hx2, Eq. reflexivity.
        -- rewrite Hq. reflexivity.
        -- intros [|F] HF; [cbn in HF; lia|]. cbn [unquote_fuel]. change (92 =? 92) with true. change (117 =? 117) with true. cbn iota zeta. rewrite Hg. cbn [skipn]. rewrite Hg2.
           assert (is_surrogate u = true) as -> by (unfold is_surrogate; lia).
           assert (utf16_decode u v = 65536 + (u - 55296) * 1024 + (v - 56320)) as -> by (unfold utf16_decode; destruct ((55296 <=? u) && (u <? 56320) && (56320 <=? v) && (v <? 57344)) eqn:Ed; lia).
           replace (65536 + (u - 55296) * 1024 + (v - 56320) =? RuneError) with false by (unfold RuneError; lia). cbn [negb]. unfold utf8. cbn [map concat]. f_equal. apply Hu. cbn [length] in HF. lia.
      * destruct ((56320 <=? u) && (u <=? 57343)) eqn:Es2; [discriminate|]. apply prepend_inv in E. destruct E as (l' & E & ->).
        destruct (IH t2 l' r Hbt2 E) as (q & Eq & Hq & Hu).  exists (92 :: 117 :: h1 :: h2 :: h3 :: h4 :: q). split; [apply Hsc; exact Eq|]. split; [rewrite Hq; reflexivity|].
        intros [|F] HF; [cbn in HF; lia|]. cbn [unquote_fuel]. change (92 =? 92) with true. change (117 =? 117) with true. cbn iota zeta. rewrite Hg. cbn [skipn].
        assert (is_surrogate u = false) as -> by (unfold is_surrogate; lia). unfold utf8. cbn [map concat]. f_equal. apply Hu. cbn [length] in HF. lia.
  - destruct (c <? 32) eqn:E32; [discriminate|]. pose proof (decode_copy (c :: t) Hb ltac:(discriminate)) as Hd. pose proof (decode_shape (c :: t) ltac:(discriminate)) as Hsh. destruct (decode_rune (c :: t)) as [x w] eqn:Ed.
    destruct ((x =? RuneError) && (w =? 1)%nat) eqn:Eok; [discriminate|]. destruct (Hd eq_refl) as (Henc & Hv & Hlen & Hhigh). apply prepend_inv in E. destruct E as (l' & E & ->).
    destruct (IH (skipn w (c :: t)) l' r) as (q & Eq & Hq & Hu); [apply Forall_skipn; exact Hb|exact E|]. 
    exists (firstn w (c :: t) ++ q). split; [|split].
    + destruct (x <? 128) eqn:E128.
      * assert (w = 1%nat) as Hw1 by (rewrite <- Hlen; unfold encode_rune; rewrite Hv, E128; reflexivity). clear Hlen. subst w. cbn [firstn skipn app] in *. cbn [scan_string]. rewrite E34, E92, E32, Eq. reflexivity.
      * rewrite <- (firstn_skipn w (c :: t)) at 1. rewrite scan_high by (apply Hhigh; lia). rewrite Eq. reflexivity.
    + rewrite <- app_assoc, <- Hq. symmetry. apply firstn_skipn.
    + intros F HF. rewrite <- Henc in *. destruct (x <? 128) eqn:E128.
      * assert (encode_rune x = [x]) as Ex by (unfold encode_rune; rewrite Hv, E128; reflexivity). rewrite Ex in *. assert (x = c) as ->.
        { cbn [length] in Hlen. subst w. cbn [firstn] in Henc. congruence. }
        cbn [app] in *. destruct F as [|F]; [cbn in HF; lia|]. cbn [unquote_fuel]. rewrite E92, E128. unfold utf8. cbn [map concat]. rewrite Ex. cbn [app]. f_equal. apply Hu. cbn [length] in HF. lia.
      * destruct F as [|F]; [rewrite app_length in HF; assert (length (encode_rune x) <> 0)%nat by (pose proof (encode_nonempty x); destruct (encode_rune x); [congruence|discriminate]); lia|].
        pose proof (decode_encode_valid x q Hv) as Hde. assert (exists c1 t1, encode_rune x = c1 :: t1 /\ 128 <= c1) as (c1 & t1 & Ec & Hc1).
        { specialize (Hhigh ltac:(lia)). clear - Hhigh. pose proof (encode_nonempty x). destruct (encode_rune x); [congruence|]. eexists; eexists; split; [reflexivity|]. apply Forall_inv in Hhigh. exact Hhigh. }
        unfold utf8. cbn [map concat]. fold (utf8 l'). rewrite <- (Hu F); [|rewrite app_length in HF; rewrite Ec in HF; cbn [length] in HF; lia].
        rewrite Ec in Hde |- *. cbn [app unquote_fuel]. replace (c1 =? 92) with false by lia. replace (c1 <? 128) with false by lia. cbn [app] in Hde. rewrite Hde.
        change (c1 :: t1 ++ q) with ((c1 :: t1) ++ q). rewrite skipn_app, skipn_all, Nat.sub_diag. cbn [skipn app]. rewrite Ec. reflexivity.
Qed.

(** ** Numbers *)
Definition stop (r : bytes) : Prop := match r with c :: _ => number_char c = false | [] => True end.
Definition no_digit (r : bytes) : Prop := match r with c :: _ => is_dig c = false | [] => True end.
Lemma stop_no_digit r : stop r -> no_digit r.
Proof. destruct r as [|c r]; [exact id|]. unfold stop, no_digit, number_char. destruct (is_dig c); [discriminate|reflexivity]. Qed.
Lemma span_stop p s : match snd (span p s) with c :: _ => p c = false | [] => True end.
Proof. induction s as [|c s IH]; cbn [span]; [exact I|]. destruct (p c) eqn:E; [exact IH|exact E]. Qed.
Lemma some_digits_split s rest : some_digits s = Some rest -> exists c d, s = (c :: d) ++ rest /\ is_dig c = true /\ forallb is_dig d = true /\ no_digit rest.
Proof.
  unfold some_digits. pose proof (span_eq is_dig s) as [E1 E2]. pose proof (span_stop is_dig s) as E3. destruct (span is_dig s) as [[|c d] r]; [discriminate|]. cbn [fst snd forallb] in *.
  intros H. injection H as <-. apply andb_true_iff in E2. exists c, d. tauto.
Qed.
Lemma digit_same c : is_digit c = is_dig c. Proof. reflexivity. Qed.
Lemma scan_digits_run k d r : forallb is_dig d = true -> no_digit r -> scan_digits k (d ++ r) = and_then d (k r).
Proof.
  intros Hd Hr. induction d as [|c d IH].
  - cbn [app]. destruct r as [|c r]; cbn [scan_digits]; [|unfold no_digit in Hr; rewrite digit_same, Hr]; destruct (k _) as [[? ?]|]; reflexivity.
  - cbn [forallb] in Hd. apply andb_true_iff in Hd. destruct Hd as [Hc Hd]. cbn [app scan_digits]. rewrite digit_same, Hc, (IH Hd), and_then_assoc. reflexivity.
Qed.
Lemma one_digit_run k s rest r : some_digits s = Some rest -> no_digit (rest ++ r) -> exists d, s = d ++ rest /\ one_digit k (s ++ r) = and_then d (k (rest ++ r)).
Proof.
  intros H Hr. destruct (some_digits_split s rest H) as (c & d & -> & Hc & Hd & _). exists (c :: d). split; [reflexivity|]. cbn [app one_digit]. rewrite digit_same, Hc, <- app_assoc, scan_digits_run by assumption. apply and_then_assoc.
Qed.
Lemma app_no_digit s rest r : some_digits s = Some rest -> stop r -> no_digit (rest ++ r).
Proof. intros H Hr. destruct (some_digits_split s rest H) as (c & d & _ & _ & _ & Hn). destruct rest; [apply stop_no_digit; exact Hr|exact Hn]. Qed.
Lemma exponent_run t r : exponent t = true -> stop r -> state_exp (t ++ r) = Some (t, r).
Proof.
  intros H Hr. destruct t as [|e t]; cbn [app exponent] in *.
  - destruct r as [|c r]; [reflexivity|]. unfold stop, number_char in Hr. cbn [state_exp]. replace ((c =? 101) || (c =? 69)) with false by lia. reflexivity.
  - cbn [state_exp]. destruct ((e =? 101) || (e =? 69)) eqn:Ee; [|discriminate].
    destruct (some_digits _) as [[|x y]|] eqn:E in H; [|discriminate|discriminate]. clear H. destruct t as [|c t]; [discriminate|].
    pose proof (app_no_digit _ _ r E Hr) as Hn. destruct (one_digit_run scan_end _ _ _ E Hn) as (d & Ed & Er). change (scan_end ([] ++ r)) with (Some (@nil Z, r)) in Er. cbn [and_then] in Er. rewrite app_nil_r in Ed.
    cbn [app state_e]. destruct ((c =? 43) || (c =? 45)) eqn:Es.
    + unfold state_e_sign. rewrite Er. cbn [and_then app]. rewrite Ed, app_nil_r. reflexivity.
    + unfold state_e_sign. rewrite app_comm_cons, Er. cbn [and_then app]. rewrite Ed, app_nil_r. reflexivity.
Qed.
Lemma fraction_run t r : fraction t = true -> stop r -> state_0 (t ++ r) = Some (t, r).
Proof.
  intros H Hr. destruct t as [|c t].
  - cbn [app]. destruct r as [|c r]; [reflexivity|]. unfold stop, number_char in Hr. cbn [state_0 state_exp]. replace (c =? 46) with false by lia. replace ((c =? 101) || (c =? 69)) with false by lia. reflexivity.
  - cbn [fraction app state_0] in *. destruct (c =? 46) eqn:Ec; [|exact (exponent_run (c :: t) r H Hr)].
    destruct (some_digits t) as [rest|] eqn:E; [|discriminate]. destruct (one_digit_run state_exp _ _ r E (app_no_digit _ _ r E Hr)) as (d & -> & ->). rewrite (exponent_run rest r H Hr). reflexivity.
Qed.
Lemma integer_run t r : integer t = true -> stop r -> state_neg (t ++ r) = Some (t, r).
Proof.
  intros H Hr. destruct t as [|c t]; [discriminate|]. cbn [integer app state_neg] in *. destruct (c =? 48) eqn:Ec; [rewrite (fraction_run t r H Hr); reflexivity|].
  destruct (some_digits (c :: t)) as [rest|] eqn:E; [|discriminate]. pose proof (app_no_digit _ _ r E Hr) as Hn. destruct (some_digits_split _ _ E) as (c' & d & Es & Hc & Hd & _). cbn [app] in Es. injection Es as <- ->.
  rewrite digit_same, Hc, <- app_assoc, scan_digits_run by assumption. rewrite (fraction_run rest r H Hr). reflexivity.
Qed.
Lemma number_run t r : is_number t = true -> stop r -> scan_number (t ++ r) = Some (t, r).
Proof.
  intros H Hr. destruct t as [|c t]; [discriminate|]. cbn [is_number app scan_number] in *. destruct (c =? 45); [rewrite (integer_run t r H Hr); reflexivity|]. exact (integer_run (c :: t) r H Hr).
Qed.
Lemma number_scanned s j r : JsonSpec.number s = Some (j, r) -> exists t, j = JNumber t /\ s = t ++ r /\ scan_number s = Some (t, r) /\ exists c t', t = c :: t' /\ (c = 45 \/ 48 <= c <= 57).
Proof.
  unfold JsonSpec.number. pose proof (span_eq number_char s) as [E1 E2]. pose proof (span_stop number_char s) as E3. destruct (span number_char s) as [t r0]. cbn [fst snd] in *.
  destruct (is_number t) eqn:En; [|discriminate]. intros H. injection H as <- <-. exists t. split; [reflexivity|]. split; [exact E1|]. split; [rewrite E1; apply number_run; [exact En|exact E3]|]. exact (proj2 (number_nchars t En)).
Qed.

(** ** Values *)
Fixpoint as_go (j : json) : gvalue :=
  match j with
  | JNull => GNull | JTrue => GBool true | JFalse => GBool false
  | JNumber t => GNumber t | JString c => GString (utf8 c)
  | JArray l => GArray (map as_go l)
  | JObject l => GObject (map (fun m => (utf8 (fst m), as_go (snd m))) l)
  end.
Lemma literal_scanned w s r : literal w s = Some r -> scan_word w s = Some r /\ s = w ++ r.
Proof.
  unfold literal. destruct (list_eq_dec Z.eq_dec (firstn (length w) s) w) as [E|]; [|discriminate]. intros H. injection H as <-.
  assert (s = w ++ skipn (length w) s) as Es by (rewrite <- E at 1; rewrite E; rewrite <- E at 1; symmetry; apply firstn_skipn). split; [|exact Es].
  rewrite Es at 1. generalize (skipn (length w) s) as r. intros r. clear. induction w as [|x w IH]; [reflexivity|]. cbn [app scan_word]. rewrite Z.eqb_refl. exact IH.
Qed.
Lemma literal_ne w ws c t : w <> c -> literal (w :: ws) (c :: t) = None.
Proof. intros H. unfold literal. destruct (list_eq_dec _ _ _) as [E|]; [|reflexivity]. cbn [length firstn] in E. congruence. Qed.
Lemma is_93 {A} (s : bytes) (a : bytes -> A) (b : A) : match s with 93 :: r => a r | _ => b end = if begins 93 s then a (tl s) else b.
Proof. destruct s as [|c s]; [reflexivity|]. cbn [begins tl]. destruct (Z.eqb_spec c 93) as [->|H]; [reflexivity|]. destruct c as [|p|p]; try reflexivity. repeat (destruct p as [p|p|]; try reflexivity); congruence. Qed.
Lemma is_125 {A} (s : bytes) (a : bytes -> A) (b : A) : match s with 125 :: r => a r | _ => b end = if begins 125 s then a (tl s) else b.
Proof. destruct s as [|c s]; [reflexivity|]. cbn [begins tl]. destruct (Z.eqb_spec c 125) as [->|H]; [reflexivity|]. destruct c as [|p|p]; try reflexivity. repeat (destruct p as [p|p|]; try reflexivity); congruence. Qed.
Lemma is_34 {A} (s : bytes) (a : bytes -> A) (b : A) : match s with 34 :: r => a r | _ => b end = if begins 34 s then a (tl s) else b.
Proof. destruct s as [|c s]; [reflexivity|]. cbn [begins tl]. destruct (Z.eqb_spec c 34) as [->|H]; [reflexivity|]. destruct c as [|p|p]; try reflexivity. repeat (destruct p as [p|p|]; try reflexivity); congruence. Qed.
Lemma is_58 {A} (s : bytes) (a : bytes -> A) (b : A) : match s with 58 :: r => a r | _ => b end = if begins 58 s then a (tl s) else b.
Proof. destruct s as [|c s]; [reflexivity|]. cbn [begins tl]. destruct (Z.eqb_spec c 58) as [->|H]; [reflexivity|]. destruct c as [|p|p]; try reflexivity. repeat (destruct p as [p|p|]; try reflexivity); congruence. Qed.
Lemma is_44_93 {A} (s : bytes) (a a' : bytes -> A) (b : A) : match s with 44 :: r => a r | 93 :: r => a' r | _ => b end = if begins 44 s then a (tl s) else if begins 93 s then a' (tl s) else b.
Proof. destruct s as [|c s]; [reflexivity|]. cbn [begins tl]. destruct (Z.eqb_spec c 44) as [->|H]; [reflexivity|]. destruct (Z.eqb_spec c 93) as [->|H']; [reflexivity|]. destruct c as [|p|p]; try reflexivity. repeat (destruct p as [p|p|]; try reflexivity); congruence. Qed.
Lemma is_44_125 {A} (s : bytes) (a a' : bytes -> A) (b : A) : match s with 44 :: r => a r | 125 :: r => a' r | _ => b end = if begins 44 s then a (tl s) else if begins 125 s then a' (tl s) else b.
Proof. destruct s as [|c s]; [reflexivity|]. cbn [begins tl]. destruct (Z.eqb_spec c 44) as [->|H]; [reflexivity|]. destruct (Z.eqb_spec c 125) as [->|H']; [reflexivity|]. destruct c as [|p|p]; try reflexivity. repeat (destruct p as [p|p|]; try reflexivity); congruence. Qed.
Lemma value_S f s : value (S f) s = match skip_ws s with
      | c :: t =>
          if c =? 34 then match string_body f t with Some (l, r) => Some (JString l, r) | None => None end
          else if c =? 91 then
            (if begins 93 (skip_ws t) then Some (JArray [], tl (skip_ws t)) else match elements f t with Some (l, r) => Some (JArray l, r) | None => None end)
          else if c =? 123 then
            (if begins 125 (skip_ws t) then Some (JObject [], tl (skip_ws t)) else match JsonSpec.members f t with Some (l, r) => Some (JObject l, r) | None => None end)
          else match literal [110; 117; 108; 108] (c :: t) with
               | Some r => Some (JNull, r)
               | None => match literal [116; 114; 117; 101] (c :: t) with
                         | Some r => Some (JTrue, r)
                         | None => match literal [102; 97; 108; 115; 101] (c :: t) with
                                   | Some r => Some (JFalse, r)
                                   | None => JsonSpec.number (c :: t)
                                   end
                         end
               end
      | [] => None
      end.
Proof.
  cbn [value]. destruct (skip_ws s) as [|c t]; [reflexivity|]. destruct (c =? 34); [reflexivity|]. destruct (c =? 91); [apply is_93|]. destruct (c =? 123); [apply is_125|]. reflexivity.
Qed.
Lemma elements_S f s : elements (S f) s =
      match value f s with
      | Some (j, r) =>
          if begins 44 (skip_ws r) then match elements f (tl (skip_ws r)) with Some (l, e) => Some (j :: l, e) | None => None end
          else if begins 93 (skip_ws r) then Some ([j], tl (skip_ws r)) else None
      | None => None
      end.
Proof. cbn [elements]. destruct (value f s) as [[j r]|]; [|reflexivity]. apply is_44_93. Qed.
Lemma members_S f s : JsonSpec.members (S f) s =
      if begins 34 (skip_ws s) then
        match string_body f (tl (skip_ws s)) with
        | Some (k, r) =>
            if begins 58 (skip_ws r) then
              match value f (tl (skip_ws r)) with
              | Some (j, r2) =>
                  if begins 44 (skip_ws r2) then match JsonSpec.members f (tl (skip_ws r2)) with Some (l, e) => Some ((k, j) :: l, e) | None => None end
                  else if begins 125 (skip_ws r2) then Some ([(k, j)], tl (skip_ws r2)) else None
              | None => None
              end
            else None
        | None => None
        end
      else None.
Proof.
  cbn [JsonSpec.members]. rewrite is_34. destruct (begins 34 (skip_ws s)); [|reflexivity]. destruct (string_body f (tl (skip_ws s))) as [[k r]|]; [|reflexivity].
  rewrite is_58. destruct (begins 58 (skip_ws r)); [|reflexivity]. destruct (value f (tl (skip_ws r))) as [[j r2]|]; [|reflexivity]. apply is_44_125.
Qed.
Lemma scan_value_S f s : scan_value (S f) s = match spaces s with
      | [] => None
      | c :: t =>
          if c =? 123 then
            (if begins 125 (spaces t) then Some (GObject [], tl (spaces t))
             else match scan_members f t with Some (l, r) => Some (GObject l, r) | None => None end)
          else if c =? 91 then
            (if begins 93 (spaces t) then Some (GArray [], tl (spaces t))
             else match scan_elements f t with Some (l, r) => Some (GArray l, r) | None => None end)
          else if c =? 34 then match scan_string t with Some (q, r) => Some (GString (unquote q), r) | None => None end
          else if c =? 116 then match scan_word (bs "true") (c :: t) with Some r => Some (GBool true, r) | None => None end
          else if c =? 102 then match scan_word (bs "false") (c :: t) with Some r => Some (GBool false, r) | None => None end
          else if c =? 110 then match scan_word (bs "null") (c :: t) with Some r => Some (GNull, r) | None => None end
          else match scan_number (c :: t) with Some (n, r) => Some (GNumber n, r) | None => None end
      end.
Proof. reflexivity. Qed.
Lemma scan_elements_S f s : scan_elements (S f) s =
      match scan_value f s with
      | Some (v, r) =>
          if begins 44 (spaces r) then match scan_elements f (tl (spaces r)) with Some (l, e) => Some (v :: l, e) | None => None end
          else if begins 93 (spaces r) then Some ([v], tl (spaces r)) else None
      | None => None
      end.
Proof. reflexivity. Qed.
Lemma scan_members_S f s : scan_members (S f) s =
      if begins 34 (spaces s) then
        match scan_string (tl (spaces s)) with
        | Some (q, r) =>
            if begins 58 (spaces r) then
              match scan_value f (tl (spaces r)) with
              | Some (v, r2) =>
                  if begins 44 (spaces r2) then match scan_members f (tl (spaces r2)) with Some (l, e) => Some ((unquote q, v) :: l, e) | None => None end
                  else if begins 125 (spaces r2) then Some ([(unquote q, v)], tl (spaces r2)) else None
              | None => None
              end
            else None
        | None => None
        end
      else None.
Proof. reflexivity. Qed.
Lemma tl_forall (P : Z -> Prop) s : Forall P s -> Forall P (tl s). Proof. destruct 1; [constructor|assumption]. Qed.
Lemma tail_forall (P : Z -> Prop) a b : Forall P (a ++ b) -> Forall P b. Proof. intros H. apply Forall_app in H. tauto. Qed.
Lemma scanned f : forall F, (f <= F)%nat ->
  (forall s j r, Forall is_byte s -> value f s = Some (j, r) -> scan_value F s = Some (as_go j, r) /\ Forall is_byte r)
  /\ (forall s l r, Forall is_byte s -> elements f s = Some (l, r) -> scan_elements F s = Some (map as_go l, r) /\ Forall is_byte r)
  /\ (forall s l r, Forall is_byte s -> JsonSpec.members f s = Some (l, r) -> scan_members F s = Some (map (fun m => (utf8 (fst m), as_go (snd m))) l, r) /\ Forall is_byte r).
Proof.
  induction f as [|f IH]; intros F HF; [split; [|split]; intros ? ? ? _ E; discriminate E|]. destruct F as [|F]; [lia|]. destruct (IH F ltac:(lia)) as (IHv & IHe & IHm). split; [|split].
  - intros s j r Hb E. rewrite value_S in E. rewrite scan_value_S, spaces_skip. pose proof (skip_ws_forall _ s Hb) as Hb1. destruct (skip_ws s) as [|c t]; [discriminate|]. assert (Forall is_byte t) as Hbt by (inversion Hb1; assumption).
    destruct (c =? 34) eqn:E34.
    { replace (c =? 123) with false by lia. replace (c =? 91) with false by lia. destruct (string_body f t) as [[l r']|] eqn:Es; [|discriminate]. injection E as <- <-.
      destruct (string_scanned f t l r' Hbt Es) as (q & -> & Eq & Hu). unfold unquote. rewrite (Hu (length q) (le_n _)). split; [reflexivity|]. rewrite Eq in Hbt. apply tail_forall in Hbt. inversion Hbt; assumption. }
    rewrite spaces_skip. pose proof (skip_ws_forall _ t Hbt) as Hbs. destruct (c =? 91) eqn:E91.
    { replace (c =? 123) with false by lia. destruct (begins 93 (skip_ws t)); [injection E as <- <-; split; [reflexivity|apply tl_forall; exact Hbs]|].
      destruct (elements f t) as [[l r']|] eqn:Ee; [|discriminate]. injection E as <- <-. destruct (IHe t l r' Hbt Ee) as [-> Hr]. split; [reflexivity|exact Hr]. }
    destruct (c =? 123) eqn:E123.
    { destruct (begins 125 (skip_ws t)); [injection E as <- <-; split; [reflexivity|apply tl_forall; exact Hbs]|].
      destruct (JsonSpec.members f t) as [[l r']|] eqn:Ee; [|discriminate]. injection E as <- <-. destruct (IHm t l r' Hbt Ee) as [-> Hr]. split; [reflexivity|exact Hr]. }
    destruct (literal [110; 117; 108; 108] (c :: t)) as [r'|] eqn:El.
    { injection E as <- <-. destruct (literal_scanned _ _ _ El) as [E1 E2]. assert (c = 110) as -> by (cbn [app] in E2; congruence). change (110 =? 116) with false. change (110 =? 102) with false. change (110 =? 110) with true. cbn iota.
      change (bs "null") with [110; 117; 108; 108]. rewrite E1. split; [reflexivity|]. rewrite E2 in Hb1. apply tail_forall in Hb1. exact Hb1. }
    destruct (literal [116; 114; 117; 101] (c :: t)) as [r'|] eqn:El2.
    { injection E as <- <-. destruct (literal_scanned _ _ _ El2) as [E1 E2]. assert (c = 116) as -> by (cbn [app] in E2; congruence). change (116 =? 116) with true. cbn iota.
      change (bs "true") with [116; 114; 117; 101]. rewrite E1. split; [reflexivity|]. rewrite E2 in Hb1. apply tail_forall in Hb1. exact Hb1. }
    destruct (literal [102; 97; 108; 115; 101] (c :: t)) as [r'|] eqn:El3.
    { injection E as <- <-. destruct (literal_scanned _ _ _ El3) as [E1 E2]. assert (c = 102) as -> by (cbn [app] in E2; congruence). change (102 =? 116) with false. change (102 =? 102) with true. cbn iota.
      change (bs "false") with [102; 97; 108; 115; 101]. rewrite E1. split; [reflexivity|]. rewrite E2 in Hb1. apply tail_forall in Hb1. exact Hb1. }
    destruct (number_scanned _ _ _ E) as (n & -> & E2 & E3 & c' & n' & En & Hc). assert (c' = c) as -> by (subst n; cbn [app] in E2; congruence).
    replace (c =? 116) with false by lia. replace (c =? 102) with false by lia. replace (c =? 110) with false by lia. rewrite E3. split; [reflexivity|]. rewrite E2 in Hb1. apply tail_forall in Hb1. exact Hb1.
  - intros s l r Hb E. rewrite elements_S in E. rewrite scan_elements_S. destruct (value f s) as [[j r1]|] eqn:Ev; [|discriminate]. destruct (IHv s j r1 Hb Ev) as [-> Hr1]. rewrite spaces_skip. pose proof (skip_ws_forall _ _ Hr1) as Hr2.
    destruct (begins 44 (skip_ws r1)).
    + destruct (elements f (tl (skip_ws r1))) as [[l' e]|] eqn:Ee; [|discriminate]. injection E as <- <-. destruct (IHe _ _ _ (tl_forall _ _ Hr2) Ee) as [-> Hr]. split; [reflexivity|exact Hr].
    + destruct (begins 93 (skip_ws r1)); [|discriminate]. injection E as <- <-. split; [reflexivity|apply tl_forall; exact Hr2].
  - intros s l r Hb E. rewrite members_S in E. rewrite scan_members_S, spaces_skip. pose proof (tl_forall _ _ (skip_ws_forall _ s Hb)) as Hb1. destruct (begins 34 (skip_ws s)); [|discriminate].
    destruct (string_body f (tl (skip_ws s))) as [[k r0]|] eqn:Es; [|discriminate]. destruct (string_scanned f _ k r0 Hb1 Es) as (q & -> & Eq & Hu).
    assert (Forall is_byte r0) as Hr0 by (rewrite Eq in Hb1; apply tail_forall in Hb1; inversion Hb1; assumption). rewrite spaces_skip. pose proof (tl_forall _ _ (skip_ws_forall _ r0 Hr0)) as Hr0'. destruct (begins 58 (skip_ws r0)); [|discriminate].
    destruct (value f (tl (skip_ws r0))) as [[j r2]|] eqn:Ev; [|discriminate]. destruct (IHv _ j r2 Hr0' Ev) as [-> Hr2]. rewrite spaces_skip. pose proof (tl_forall _ _ (skip_ws_forall _ r2 Hr2)) as Hr2'.
    assert (unquote q = utf8 k) as -> by (unfold unquote; apply Hu; lia). destruct (begins 44 (skip_ws r2)).
    + destruct (JsonSpec.members f (tl (skip_ws r2))) as [[l' e]|] eqn:Em; [|discriminate]. injection E as <- <-. destruct (IHm _ _ _ Hr2' Em) as [-> Hr]. split; [reflexivity|exact Hr].
    + destruct (begins 125 (skip_ws r2)); [|discriminate]. injection E as <- <-. split; [reflexivity|exact Hr2'].
Qed.
Theorem scan_parse data j : Forall is_byte data -> parse data = Some j -> scan data = Some (as_go j).
Proof.
  intros Hb E. unfold parse in E. unfold scan. destruct (value (2 * length data + 2) data) as [[j' r]|] eqn:Ev; [|discriminate].
  destruct (scanned (2 * length data + 2) _ (le_n _)) as (H & _ & _). destruct (H data j' r Hb Ev) as [-> _]. rewrite spaces_skip. destruct (skip_ws r); [|discriminate]. injection E as <-. reflexivity.
Qed.
