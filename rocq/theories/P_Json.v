(** C81: the JSON text of a response. *)
From Coq Require Import String.
From Verif Require Import Base BaseLemmas Float64 Text AnalysisSpec TextProofs TextProofs2 Json JsonSpec JsonProofs.
Local Open Scope Z_scope.
Local Notation length := List.length.
Ltac Zify.zify_post_hook ::= Z.div_mod_to_equations.

Lemma utf8_code_points v : Forall is_byte v -> well_formed v -> utf8 (code_points v) = v.
Proof.
  unfold utf8, code_points, well_formed. revert v. apply (runes_ind (fun v => Forall is_byte v -> Forall (fun rb => ~ (fst rb = RuneError /\ length (snd rb) = 1%nat)) (runes v) -> concat (map encode_rune (map fst (runes v))) = v)); [reflexivity|].
  intros v Hne IH Hb Hw. rewrite (runes_cons v Hne) in *. pose proof (decode_good v Hb Hne) as Hg. destruct (decode_rune v) as [r w] eqn:Ed. cbn [fst snd map concat] in *.
  rewrite IH; [|apply Forall_skipn; exact Hb|exact (Forall_inv_tail Hw)]. destruct Hg as [[-> ->]|[-> _]]; [|apply firstn_skipn].
  exfalso. apply (Forall_inv Hw). cbn [fst snd]. split; [reflexivity|]. destruct v; [congruence|reflexivity].
Qed.
Lemma items_read bf ftext (items : list (f64 * bytes)) : (forall it, In it items -> Forall is_byte (snd it) /\ is_number (ftext (fst it)) = true) ->
  parse (array (map (item_text bf ftext) items)) = Some (JArray (map (fun it => JObject [(code_points (bs "Score"), JNumber (ftext (fst it))); (code_points (bs "Value"), JString (code_points (snd it)))]) items)).
Proof.
  intros H. apply reads_parse, array_read. induction items as [|it items IH]; [constructor|]. cbn [map]. constructor; [|apply IH; intros; apply H; right; assumption].
  destruct (H it (or_introl eq_refl)) as [Hb Hn]. unfold item_text. apply object2_read.
  - repeat constructor; unfold is_byte; lia.
  - repeat constructor; unfold is_byte; lia.
  - apply number_reads, Hn.
  - apply string_reads, Hb.
Qed.
Lemma json_number_ok x : json_number x = finite_score x.
Proof. destruct x; reflexivity. Qed.

(** A client that reads the body of a search response by the JSON standard finds exactly the
    items of the answer, in order: the digits of every score and every byte of every value
    that is UTF-8.  A body exists exactly when every score is a finite number. *)
Theorem C81_response : forall bf ftext (items : list (f64 * bytes)),
  (forall it, In it items -> Forall is_byte (snd it) /\ well_formed (snd it)) ->
  (forall it, In it items -> finite_score (fst it) = true -> is_number (ftext (fst it)) = true) ->
  ((exists body, MarshalItems bf ftext items = Ret body) <-> forall it, In it items -> finite_score (fst it) = true) /\
  forall body, MarshalItems bf ftext items = Ret body ->
    read_array (read_item (bs "Score") (bs "Value")) body = Some (map (fun it => (ftext (fst it), snd it)) items).
Proof.
  intros bf ftext items Hv Hf. setoid_rewrite <- json_number_ok. assert (forall it, In it items -> json_number (fst it) = true -> is_number (ftext (fst it)) = true) as Hf' by (intros it; rewrite json_number_ok; apply Hf). clear Hf. rename Hf' into Hf. unfold MarshalItems. destruct (forallb (fun it : f64 * bytes => json_number (fst it)) items) eqn:E.
  - pose proof (proj1 (forallb_forall _ _) E) as Hj. cbn beta in Hj. split; [split; [intros _; exact Hj|eauto]|]. intros body [= <-]. unfold read_array. rewrite items_read.
    2:{ intros it Hit. split; [apply Hv, Hit|apply Hf; [exact Hit|apply Hj, Hit]]. }
    clear E Hj Hf. induction items as [|it items IH]; [reflexivity|]. cbn [map all_of]. rewrite IH by (intros; apply Hv; right; assumption).
    destruct (Hv it (or_introl eq_refl)) as [Hb Hw]. unfold read_item at 1.
    change (field (bs "Score") [(code_points (bs "Score"), JNumber (ftext (fst it))); (code_points (bs "Value"), JString (code_points (snd it)))]) with (Some (JNumber (ftext (fst it)))).
    change (field (bs "Value") [(code_points (bs "Score"), JNumber (ftext (fst it))); (code_points (bs "Value"), JString (code_points (snd it)))]) with (Some (JString (code_points (snd it)))).
    cbn iota. rewrite (utf8_code_points _ Hb Hw). reflexivity.
  - split; [|discriminate]. split; [intros [b H]; discriminate|]. intros H. exfalso. assert (forallb (fun it : f64 * bytes => json_number (fst it)) items = true); [|congruence]. apply forallb_forall. exact H.
Qed.
Print Assumptions C81_response.
(** The same for the lists of strings of /dict/list/ and /predict/. *)
Theorem C81_strings : forall bf (l : list bytes), (forall v, In v l -> Forall is_byte v /\ well_formed v) ->
  exists body, MarshalStrings bf l = Ret body /\ read_array read_string body = Some l.
Proof.
  intros bf l H. eexists. split; [reflexivity|]. unfold read_array. erewrite (reads_parse _ _ (array_read _ (map (fun v => JString (code_points v)) l) _)).
  - clear - H. induction l as [|v l IH]; [reflexivity|]. cbn [map all_of read_string]. rewrite IH by (intros; apply H; right; assumption). destruct (H v (or_introl eq_refl)). rewrite utf8_code_points by assumption. reflexivity.
  Unshelve. induction l as [|v l IH]; [constructor|]. cbn [map]. constructor; [apply string_reads, H; left; reflexivity|apply IH; intros; apply H; right; assumption].
Qed.
Print Assumptions C81_strings.
(** Whatever bytes the entries have, the body is a JSON text with one element per item; a
    byte that is not part of a UTF-8 sequence is read as U+FFFD. *)
Theorem C81_any_bytes : forall bf ftext (items : list (f64 * bytes)) body,
  (forall it, In it items -> Forall is_byte (snd it) /\ is_number (ftext (fst it)) = true) ->
  MarshalItems bf ftext items = Ret body ->
  read_array (read_item (bs "Score") (bs "Value")) body = Some (map (fun it => (ftext (fst it), utf8 (code_points (snd it)))) items).
Proof.
  intros bf ftext items body H E. unfold MarshalItems in E. destruct (forallb _ items); [|discriminate]. injection E as <-. unfold read_array. rewrite items_read by exact H.
  clear H. induction items as [|it items IH]; [reflexivity|]. cbn [map all_of]. rewrite IH. reflexivity.
Qed.
Print Assumptions C81_any_bytes.
(** ... so two different entries can look the same to the client. *)
Theorem C81_bytes_refuted : exists v w, v <> w /\ Forall is_byte v /\ Forall is_byte w /\ forall bf ftext x, MarshalItems bf ftext [(x, v)] = MarshalItems bf ftext [(x, w)].
Proof. exists [255], [254]. split; [discriminate|]. split; [repeat constructor; unfold is_byte; lia|]. split; [repeat constructor; unfold is_byte; lia|]. intros bf ftext x. reflexivity. Qed.
Print Assumptions C81_bytes_refuted.

Lemma hexdigit_harmless n : 0 <= n < 16 -> harmless (hexdigit n).
Proof. unfold harmless, hexdigit. intros H. destruct (n <? 10) eqn:E; lia. Qed.
Lemma quote_char_harmless bf s : Forall is_byte s -> s <> [] -> let '(r, w) := decode_rune s in Forall harmless (quote_char bf (r, firstn w s)).
Proof.
  intros Hb Hne. pose proof (decode_shape s Hne) as Hs. destruct (decode_rune s) as [r w]. unfold quote_char.
  assert (harmless 92 /\ harmless 117 /\ harmless 48 /\ harmless 50 /\ harmless 102 /\ harmless 100 /\ harmless 110 /\ harmless 114 /\ harmless 116 /\ harmless 98) as (A1 & A2 & A3 & A4 & A5 & A6 & A7 & A8 & A9 & A10) by (unfold harmless; lia).
  destruct (r <? 128) eqn:E1.
  - assert (firstn w s = [r] /\ 0 <= r) as (-> & H0).
    { inversion Hs; subst; try (exfalso; unfold RuneError in *; lia).
      - apply Forall_inv in Hb. unfold is_byte in Hb. split; [reflexivity|lia].
      - exfalso. destruct (Z.eqb_spec a 224), (Z.eqb_spec a 237); lia.
      - exfalso. destruct (Z.eqb_spec a 240), (Z.eqb_spec a 244); lia. }
    destruct (htmlSafe r) eqn:Eh; [constructor; [|constructor]; unfold htmlSafe in Eh; unfold harmless; lia|].
    destruct ((r =? 92) || (r =? 34)) eqn:E2; [constructor; [exact A1|]; constructor; [|constructor]; unfold harmless; lia|].
    destruct (r =? 10); [auto|]. destruct (r =? 13); [auto|]. destruct (r =? 9); [auto|]. destruct (bf && (r =? 8)); [auto|]. destruct (bf && (r =? 12)); [auto|].
    assert (harmless (hexdigit (Z.shiftr r 4))) by (apply hexdigit_harmless; rewrite Z.shiftr_div_pow2 by lia; lia).
    assert (harmless (hexdigit (Z.land r 15))) by (apply hexdigit_harmless; rewrite land15; lia). auto 10.
  - destruct ((r =? RuneError) && _) eqn:E2; [auto 10|]. destruct (_ || _) eqn:E3; [assert (harmless (hexdigit (Z.land r 15))) by (apply hexdigit_harmless; rewrite land15; lia); auto 10|].
    clear - Hs E1 E2 Hb Hne. inversion Hs; subst; cbn [firstn] in *; [destruct s; [congruence|rewrite Z.eqb_refl in E2; discriminate]|lia|..]; repeat constructor; unfold harmless; lia || (destruct (Z.eqb_spec a 224), (Z.eqb_spec a 237), (Z.eqb_spec a 240), (Z.eqb_spec a 244); lia).
Qed.
Lemma quote_harmless bf s : Forall is_byte s -> Forall harmless (quote bf s).
Proof.
  intros Hb. unfold quote. constructor; [unfold harmless; lia|]. apply Forall_app. split; [|constructor; [unfold harmless; lia|constructor]]. revert s Hb.
  apply (runes_ind (fun s => Forall is_byte s -> Forall harmless (concat (map (quote_char bf) (runes s))))); [constructor|]. intros s Hne IH Hb. rewrite (runes_cons s Hne). cbn [map concat]. apply Forall_app. pose proof (quote_char_harmless bf s Hb Hne) as H. destruct (decode_rune s) as [r w]. cbn [fst snd] in *. split; [exact H|apply IH, Forall_skipn, Hb].
Qed.
Lemma commas_harmless l : Forall (Forall harmless) l -> Forall harmless (commas l).
Proof.
  induction l as [|x l IH]; [constructor|]. intros H. pose proof (Forall_inv H) as Hx. apply Forall_inv_tail in H. destruct l as [|y l]; [exact Hx|]. change (commas (x :: y :: l)) with (x ++ 44 :: commas (y :: l)).
  apply Forall_app. split; [exact Hx|]. constructor; [unfold harmless; lia|apply IH, H].
Qed.
(** No entry can put markup or a control character into a response. *)
Theorem C81_no_markup : forall bf ftext (items : list (f64 * bytes)) body,
  (forall it, In it items -> Forall is_byte (snd it) /\ is_number (ftext (fst it)) = true) ->
  MarshalItems bf ftext items = Ret body -> Forall harmless body.
Proof.
  intros bf ftext items body H E. unfold MarshalItems in E. destruct (forallb _ items); [|discriminate]. injection E as <-. unfold array. constructor; [unfold harmless; lia|]. apply Forall_app. split; [|constructor; [unfold harmless; lia|constructor]].
  apply commas_harmless. apply Forall_map, Forall_forall. intros it Hit. destruct (H it Hit) as [Hb Hn]. destruct (number_nchars _ Hn) as [Hc _].
  assert (Forall harmless (ftext (fst it))) as Hf.
  { unfold nchars in Hc. rewrite forallb_forall in Hc. apply Forall_forall. intros c Hi. specialize (Hc c Hi). unfold number_char, is_dig in Hc. unfold harmless. lia. }
  unfold item_text. constructor; [unfold harmless; lia|]. apply Forall_app. split; [apply quote_harmless; repeat constructor; unfold is_byte; lia|]. constructor; [unfold harmless; lia|]. apply Forall_app. split; [exact Hf|]. constructor; [unfold harmless; lia|].
  apply Forall_app. split; [apply quote_harmless; repeat constructor; unfold is_byte; lia|]. constructor; [unfold harmless; lia|]. apply Forall_app. split; [apply quote_harmless, Hb|]. constructor; [unfold harmless; lia|constructor].
Qed.
Print Assumptions C81_no_markup.

Definition demo_ftext (x : f64) : bytes := if feq x f_half then bs "0.5" else bs "1".
Example C81_nonvacuous : let items : list (f64 * bytes) := [(f_half, [60; 34; 92; 10; 195; 169; 240; 159; 152; 128; 226; 128; 168]); (of_int 1, [])] in
  (forall it, In it items -> Forall is_byte (snd it) /\ well_formed (snd it)) /\
  (forall it, In it items -> finite_score (fst it) = true -> is_number (demo_ftext (fst it)) = true) /\
  MarshalItems false demo_ftext items = Ret (bs "[{""Score"":0.5,""Value"":""\u003c\""\\\n" ++ [195; 169; 240; 159; 152; 128] ++ bs "\u2028""},{""Score"":1,""Value"":""""}]").
Proof.
  cbn zeta. split; [|split].
  - intros it [<- |[<- |[]]]; (split; [repeat constructor; unfold is_byte; cbn; lia|]); unfold well_formed; vm_compute; repeat (constructor; [intros [H1 H2]; discriminate|]); constructor.
  - intros it [<- |[<- |[]]] _; reflexivity.
  - vm_compute. reflexivity.
Qed.
