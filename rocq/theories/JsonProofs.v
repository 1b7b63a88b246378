(** Proofs for C81: what the encoder writes, the parser reads. *)
From Coq Require Import String.
From Verif Require Import Base BaseLemmas Float64 Text AnalysisSpec TextProofs TextProofs2 Json JsonSpec.
Local Open Scope Z_scope.
Local Notation length := List.length.
Ltac Zify.zify_post_hook ::= Z.div_mod_to_equations.

Lemma span_app p t r : forallb p t = true -> (match r with c :: _ => p c = false | [] => True end) -> span p (t ++ r) = (t, r).
Proof.
  induction t as [|c t IH]; cbn [forallb app]; intros H Hr.
  - destruct r as [|c r]; [reflexivity|]. cbn [span]. rewrite Hr. reflexivity.
  - apply andb_true_iff in H. destruct H as [Hc Ht]. cbn [span]. rewrite Hc, IH by assumption. reflexivity.
Qed.
Lemma span_eq p s : s = fst (span p s) ++ snd (span p s) /\ forallb p (fst (span p s)) = true.
Proof. induction s as [|c s [IH1 IH2]]; [split; reflexivity|]. cbn [span]. destruct (p c) eqn:E; cbn [fst snd app forallb]; [|split; reflexivity]. rewrite E, IH2. split; [congruence|reflexivity]. Qed.
Definition nchars (s : bytes) : Prop := forallb number_char s = true.
Lemma some_digits_nchars s r : some_digits s = Some r -> nchars r -> nchars s /\ s <> [].
Proof.
  unfold some_digits, nchars. destruct (span_eq is_dig s) as [E H]. destruct (span is_dig s) as [a b]. cbn [fst snd] in *. destruct a as [|c a]; [discriminate|]. intros [= <-] Hb. subst s. split; [|discriminate]. rewrite forallb_app, Hb, andb_true_r.
  clear Hb. revert H. generalize (c :: a) as l. induction l as [|x l IH]; [reflexivity|]. cbn [forallb]. intros H. apply andb_true_iff in H. destruct H as [H1 H2]. rewrite (IH H2). unfold number_char. rewrite H1. reflexivity.
Qed.
Lemma exponent_nchars s : exponent s = true -> nchars s.
Proof.
  unfold exponent. destruct s as [|e t]; [reflexivity|]. destruct ((e =? 101) || (e =? 69)) eqn:E; [|discriminate]. intros H.
  assert (nchars t) as Ht.
  { destruct t as [|c t']; [reflexivity|]. destruct ((c =? 43) || (c =? 45)) eqn:Ec.
    - destruct (some_digits t') as [[|]|] eqn:Es; try discriminate. apply some_digits_nchars in Es; [|reflexivity]. unfold nchars in *. cbn [forallb]. rewrite (proj1 Es), andb_true_r. unfold number_char. apply orb_true_iff in Ec. destruct Ec as [-> | ->]; rewrite ?orb_true_r; reflexivity.
    - destruct (some_digits (c :: t')) as [[|]|] eqn:Es; try discriminate. apply some_digits_nchars in Es; [|reflexivity]. apply Es. }
  unfold nchars in *. cbn [forallb]. rewrite Ht, andb_true_r. unfold number_char. apply orb_true_iff in E. destruct E as [-> | ->]; rewrite ?orb_true_r; reflexivity.
Qed.
Lemma fraction_nchars s : fraction s = true -> nchars s.
Proof.
  unfold fraction. destruct s as [|c t]; [intros; reflexivity|]. destruct (Z.eqb_spec c 46) as [->|Hc]; [|apply exponent_nchars].
  destruct (some_digits t) as [r|] eqn:E; [|discriminate]. intros H. apply exponent_nchars in H. apply some_digits_nchars in E; [|exact H]. unfold nchars in *. cbn [forallb]. rewrite (proj1 E). reflexivity.
Qed.
Lemma integer_nchars s : integer s = true -> nchars s /\ exists c t, s = c :: t /\ 48 <= c <= 57.
Proof.
  unfold integer. destruct s as [|c t]; [discriminate|]. destruct (Z.eqb_spec c 48) as [->|Hc]; intros H.
  - apply fraction_nchars in H. split; [unfold nchars in *; cbn [forallb]; rewrite H; reflexivity|]. exists 48, t. split; [reflexivity|lia].
  - destruct (some_digits (c :: t)) as [r|] eqn:E; [|discriminate]. apply fraction_nchars in H. pose proof (some_digits_nchars _ _ E H) as [Hn _]. split; [exact Hn|]. exists c, t. split; [reflexivity|].
    unfold some_digits in E. cbn [span] in E. destruct (is_dig c) eqn:Ed; [unfold is_dig in Ed; lia|discriminate].
Qed.
Lemma number_nchars s : is_number s = true -> nchars s /\ (exists c t, s = c :: t /\ (c = 45 \/ 48 <= c <= 57)).
Proof.
  unfold is_number. destruct s as [|c t]; [discriminate|]. destruct (Z.eqb_spec c 45) as [->|Hc]; intros H.
  - destruct (integer_nchars t H) as [Hn _]. split; [unfold nchars in *; cbn [forallb]; rewrite Hn; reflexivity|]. exists 45, t. auto.
  - destruct (integer_nchars _ H) as [Hn (c' & t' & E & Hr)]. split; [exact Hn|]. exists c', t'. auto.
Qed.

(* one character *)
Lemma small_cases r : 0 <= r < 32 -> In r (map Z.of_nat (seq 0 32)).
Proof. intros H. apply in_map_iff. exists (Z.to_nat r). split; [lia|]. apply in_seq. lia. Qed.
Lemma quote_char_read bf s f rest : Forall is_byte s -> s <> [] ->
  let '(r, w) := decode_rune s in
  string_body (S f) (quote_char bf (r, firstn w s) ++ rest) = prepend r (string_body f rest).
Proof.
  intros Hb Hne. pose proof (decode_good s Hb Hne) as Hg. pose proof (decode_shape s Hne) as Hs. destruct (decode_rune s) as [r w] eqn:Ed.
  assert (128 <= r -> r <> RuneError \/ w <> 1%nat -> string_body (S f) (firstn w s ++ rest) = prepend r (string_body f rest)) as Hcopy.
  { intros Hr Hw. destruct Hg as [[-> ->]|[Eenc Elen]]; [exfalso; destruct Hw as [Hw|Hw]; apply Hw; reflexivity|].
    assert (valid_rune r = true) as Hv.
    { unfold RuneLen in Elen. unfold valid_rune. destruct (r <? 0) eqn:E0; [lia|]. destruct (r <? 128) eqn:E1; [lia|]. destruct (r <? 2048) eqn:E2; [lia|]. destruct ((55296 <=? r) && (r <=? 57343)) eqn:E3; [lia|]. destruct (r <? 65536) eqn:E4; [lia|]. destruct (r <=? 1114111) eqn:E5; lia. }
    rewrite <- Eenc. pose proof (decode_encode_valid r rest Hv) as Hd.
    assert (length (encode_rune r) <> 1%nat) as Hl1.
    { unfold encode_rune. rewrite Hv. destruct (r <? 128) eqn:E1; [lia|]. destruct (r <? 2048); [discriminate|]. destruct (r <? 65536); discriminate. }
    assert (exists c t, encode_rune r = c :: t /\ 192 <= c) as (c & t & Ec & Hc).
    { rewrite Eenc. clear - Hs Hw Hr. inversion Hs; subst; cbn [firstn]; [exfalso; destruct Hw as [Hw|Hw]; apply Hw; reflexivity|exfalso; lia| | | ]; eexists; eexists; (split; [reflexivity|lia]). }
    rewrite Ec in Hd |- *. cbn [app string_body]. replace (c =? 34) with false by lia. replace (c =? 92) with false by lia. replace (c <? 32) with false by lia. cbn [app] in Hd. rewrite Hd.
    replace ((r =? RuneError) && (length (c :: t) =? 1)%nat) with false.
    2:{ rewrite <- Ec. destruct (Nat.eqb_spec (length (encode_rune r)) 1); [congruence|]. rewrite andb_false_r. reflexivity. }
    change (c :: t ++ rest) with ((c :: t) ++ rest). rewrite skipn_app, skipn_all, Nat.sub_diag. reflexivity. }
  unfold quote_char. destruct (r <? 128) eqn:E1.
  - (* ASCII *)
    assert (w = 1%nat /\ firstn w s = [r] /\ 0 <= r) as (-> & Ew & H0).
    { inversion Hs; subst; try (exfalso; unfold RuneError in *; lia).
      - apply Forall_inv in Hb. unfold is_byte in Hb. split; [reflexivity|]. split; [reflexivity|lia].
      - exfalso. destruct (Z.eqb_spec a 224), (Z.eqb_spec a 237); lia.
      - exfalso. destruct (Z.eqb_spec a 240), (Z.eqb_spec a 244); lia. }
    rewrite Ew. destruct (htmlSafe r) eqn:Eh.
    + unfold htmlSafe in Eh. cbn [app string_body]. replace (r =? 34) with false by lia. replace (r =? 92) with false by lia. replace (r <? 32) with false by lia.
      unfold decode_rune. rewrite E1. replace (r =? RuneError) with false by (unfold RuneError; lia). reflexivity.
    + assert (0 <= r < 32 \/ r = 34 \/ r = 92 \/ r = 60 \/ r = 62 \/ r = 38) as Hc by (unfold htmlSafe in Eh; lia).
      destruct Hc as [Hc|[-> |[-> |[-> |[-> | ->]]]]]; try (destruct bf; reflexivity).
      apply small_cases in Hc. cbn in Hc. clear - Hc. repeat (destruct Hc as [<- |Hc]; [destruct bf; reflexivity|]). exfalso; exact Hc.
  - destruct ((r =? RuneError) && (length (firstn w s) =? 1)%nat) eqn:E2.
    + apply andb_true_iff in E2. destruct E2 as [E2 _]. apply Z.eqb_eq in E2. subst r. reflexivity.
    + assert (r <> RuneError \/ w <> 1%nat) as Hw.
      { destruct (Z.eq_dec r RuneError) as [->|]; [right|left; assumption]. intros ->. rewrite Z.eqb_refl in E2. cbn [andb] in E2. destruct s; [congruence|]. discriminate. }
      destruct ((r =? 8232) || (r =? 8233)) eqn:E3.
      * apply orb_true_iff in E3. destruct E3 as [E3|E3]; apply Z.eqb_eq in E3; subst r; reflexivity.
      * apply Hcopy; [lia|exact Hw].
Qed.
Lemma body_read bf s : Forall is_byte s -> forall f rest, (length (runes s) < f)%nat ->
  string_body f (concat (map (quote_char bf) (runes s)) ++ 34 :: rest) = Some (code_points s, rest).
Proof.
  unfold code_points. revert s. apply (runes_ind (fun s => Forall is_byte s -> forall f rest, (length (runes s) < f)%nat -> string_body f (concat (map (quote_char bf) (runes s)) ++ 34 :: rest) = Some (map fst (runes s), rest))); [|intros s Hne IH]; intros Hb f rest Hf.
  - destruct f as [|f]; [cbn in Hf; lia|]. reflexivity.
  - rewrite (runes_cons s Hne) in *. cbn [map concat] in *. destruct f as [|f]; [cbn in Hf; lia|].
    pose proof (quote_char_read bf s f (concat (map (quote_char bf) (runes (skipn (snd (decode_rune s)) s))) ++ 34 :: rest) Hb Hne) as H.
    destruct (decode_rune s) as [r w] eqn:Ed. cbn [fst snd] in *. rewrite <- app_assoc, H, IH.
    + reflexivity.
    + apply Forall_skipn. exact Hb.
    + cbn [length] in Hf. lia.
Qed.
Lemma quote_char_nonempty bf c : snd c <> [] -> quote_char bf c <> [].
Proof.
  destruct c as [r b]. cbn [snd]. intros H. unfold quote_char. destruct (r <? 128); [destruct (htmlSafe r); [exact H|]|].
  - destruct ((r =? 92) || (r =? 34)); [discriminate|]. destruct (r =? 10); [discriminate|]. destruct (r =? 13); [discriminate|]. destruct (r =? 9); [discriminate|]. destruct (bf && (r =? 8)); [discriminate|]. destruct (bf && (r =? 12)); discriminate.
  - destruct (_ && _); [discriminate|]. destruct (_ || _); [discriminate|exact H].
Qed.
Lemma quote_length bf s : (length (runes s) + 2 <= length (quote bf s))%nat.
Proof.
  unfold quote. cbn [length]. rewrite app_length. cbn [length]. pose proof (chars_nonempty s) as H. unfold chars in H. assert (length (runes s) <= length (concat (map (quote_char bf) (runes s))))%nat; [|lia].
  induction (runes s) as [|c l IH]; [cbn; lia|]. cbn [map concat length] in *. rewrite app_length. pose proof (Forall_inv H) as Hc. apply Forall_inv_tail in H. apply IH in H. pose proof (quote_char_nonempty bf c Hc). destruct (quote_char bf c); [congruence|]. cbn [length]. lia.
Qed.
Lemma quote_read bf s f rest : Forall is_byte s -> (length (quote bf s) <= f)%nat -> value (S f) (quote bf s ++ rest) = Some (JString (code_points s), rest).
Proof.
  intros Hb Hf. pose proof (quote_length bf s) as Hl. unfold quote in *. cbn [value skip_ws app]. change (34 =? 34) with true. cbn [orb].
  replace ((34 =? 32) || (34 =? 9) || (34 =? 10) || (34 =? 13)) with false by reflexivity. cbn iota. change (34 =? 34) with true. cbn iota. rewrite <- app_assoc. cbn [app]. rewrite (body_read bf s Hb) by lia. reflexivity.
Qed.

(* arrays *)
Definition starts (t : bytes) : Prop := match t with c :: _ => 32 < c /\ c <> 93 /\ c <> 125 | [] => False end.
Lemma skip_ws_id c t : 32 < c -> skip_ws (c :: t) = c :: t.
Proof. intros H. cbn [skip_ws]. replace ((c =? 32) || (c =? 9) || (c =? 10) || (c =? 13)) with false by lia. reflexivity. Qed.
Lemma starts_app t u : starts t -> starts (t ++ u). Proof. destruct t; [intros []|exact (fun H => H)]. Qed.
Lemma skip_starts t u : starts t -> skip_ws (t ++ u) = t ++ u.
Proof. destruct t as [|c t]; [intros []|]. intros [H _]. cbn [app]. apply skip_ws_id, H. Qed.
(* one text of a value, whatever follows *)
Definition reads (t : bytes) (j : json) : Prop :=
  starts t /\ forall f rest, (2 * length t + 2 <= f)%nat -> (match rest with c :: _ => number_char c = false | [] => True end) -> value f (t ++ rest) = Some (j, rest).
Lemma elements_read ts js : Forall2 reads ts js -> ts <> [] -> forall f rest, (2 * length (commas ts) + 3 <= f)%nat -> elements f (commas ts ++ 93 :: rest) = Some (js, rest).
Proof.
  induction 1 as [|t j ts js [Hs Hr] H2 IH]; [congruence|]. intros _ f rest Hf. destruct f as [|f]; [lia|]. cbn [elements].
  destruct ts as [|u ts].
  - inversion H2; subst. cbn [commas] in *. rewrite Hr by (try reflexivity; lia). rewrite skip_ws_id by lia. reflexivity.
  - change (commas (t :: u :: ts)) with (t ++ 44 :: commas (u :: ts)) in *. rewrite <- app_assoc. rewrite Hr; [|rewrite app_length in Hf; lia|reflexivity]. cbn [app]. rewrite skip_ws_id by lia. rewrite IH; [reflexivity|discriminate|].
    rewrite app_length in Hf. cbn [length] in Hf. lia.
Qed.
Lemma commas_starts t ts u : starts t -> starts (commas (t :: ts) ++ u).
Proof. intros H. destruct ts; [apply starts_app, H|]. change (commas (t :: b :: ts)) with (t ++ 44 :: commas (b :: ts)). rewrite <- app_assoc. apply starts_app, H. Qed.
Lemma array_read ts js : Forall2 reads ts js -> reads (array ts) (JArray js).
Proof.
  intros H. split; [cbn; lia|]. intros f rest Hf _. destruct f as [|f]; [lia|]. unfold array in *. cbn [value app skip_ws] in *.
  change (((91 =? 32) || (91 =? 9) || (91 =? 10) || (91 =? 13))) with false. change (91 =? 34) with false. change (91 =? 91) with true. cbn iota.
  destruct ts as [|t ts].
  - inversion H; subst. reflexivity.
  - rewrite <- app_assoc. cbn [app]. pose proof H as H'. inversion H' as [|? j ? js' [Hs _] H2]; subst.
    assert (starts (commas (t :: ts) ++ 93 :: rest)) as Hst by (apply commas_starts, Hs).
    rewrite (elements_read _ _ H) by (try discriminate; cbn [length] in Hf; rewrite app_length in Hf; cbn [length] in Hf; lia).
    destruct (commas (t :: ts) ++ 93 :: rest) as [|c u]; [destruct Hst|]. destruct Hst as (H1 & H3 & _). rewrite skip_ws_id by lia.
    destruct c as [|p|p]; try reflexivity. do 7 (destruct p as [p|p|]; try reflexivity). congruence.
Qed.
Lemma string_reads bf s : Forall is_byte s -> reads (quote bf s) (JString (code_points s)).
Proof. intros Hb. split; [cbn; lia|]. intros f rest Hf _. destruct f as [|f]; [lia|]. apply quote_read; [exact Hb|lia]. Qed.
Lemma number_reads t : is_number t = true -> reads t (JNumber t).
Proof.
  intros H. destruct (number_nchars t H) as [Hn (c & u & -> & Hc)]. split; [cbn; lia|]. intros f rest Hf Hrest. destruct f as [|f]; [lia|]. cbn [value app]. rewrite skip_ws_id by lia.
  replace (c =? 34) with false by lia. replace (c =? 91) with false by lia. replace (c =? 123) with false by lia.
  assert (forall w, c <> w -> forall ws, literal (w :: ws) (c :: u ++ rest) = None) as Hl.
  { intros w Hw ws. unfold literal. destruct (list_eq_dec Z.eq_dec _ _) as [E|E]; [|reflexivity]. cbn [length firstn] in E. congruence. }
  rewrite !Hl by lia. unfold number. change (c :: u ++ rest) with ((c :: u) ++ rest). rewrite span_app by assumption. rewrite H. reflexivity.
Qed.

(* an object with two members *)
Lemma object2_read bf k1 t1 j1 k2 t2 j2 : Forall is_byte k1 -> Forall is_byte k2 -> reads t1 j1 -> reads t2 j2 ->
  reads (123 :: quote bf k1 ++ 58 :: t1 ++ 44 :: quote bf k2 ++ 58 :: t2 ++ [125]) (JObject [(code_points k1, j1); (code_points k2, j2)]).
Proof.
  intros B1 B2 [_ R1] [_ R2]. split; [cbn; lia|]. intros f rest Hf _.
  pose proof (quote_length bf k1) as L1. pose proof (quote_length bf k2) as L2.
  repeat (cbn [length] in Hf; rewrite app_length in Hf). cbn [length] in Hf.
  unfold quote in *. cbn [app length] in *. rewrite ?app_length in *. cbn [length] in *.
  destruct f as [|[|f]]; [lia|lia|]. cbn [value app]. rewrite skip_ws_id by lia. change (123 =? 34) with false. change (123 =? 91) with false. change (123 =? 123) with true. cbn iota.
  rewrite skip_ws_id by lia. cbn [members]. rewrite skip_ws_id by lia. repeat (rewrite <- !app_assoc; cbn [app]).
  rewrite (body_read bf k1 B1) by lia. rewrite skip_ws_id by lia. rewrite R1; [|lia|reflexivity]. rewrite skip_ws_id by lia.
  destruct f as [|f]; [lia|]. cbn [members]. rewrite skip_ws_id by lia. rewrite (body_read bf k2 B2) by lia. rewrite skip_ws_id by lia. rewrite R2; [|lia|reflexivity]. rewrite skip_ws_id by lia. reflexivity.
Qed.
Lemma reads_parse t j : reads t j -> parse t = Some j.
Proof. intros [_ H]. unfold parse. rewrite <- (app_nil_r t) at 2. rewrite H; [reflexivity|lia|exact I]. Qed.
