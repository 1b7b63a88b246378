(** Properties C28-C34 and C65 (pkg/analysis, pkg/alphabet, pkg/suggest/tokenizer.go).
    [chars]/[runes] split a string into characters as Go's range does; [ToLower lowr]
    is strings.ToLower for whatever table [lowr] unicode.ToLower uses. *)
From Coq Require Import String ZifyBool Permutation.
From Verif Require Import Base BaseLemmas GoMap Text Analysis AnalysisSpec TextProofs TextProofs2 AnalysisProofs AnalysisProofs2 P_AnalysisLemmas.
Local Open Scope Z_scope.

(** C28: exactly the distinct windows of n characters, once each, in order of first
    occurrence; any bytes. *)
Theorem C28_ngram_windows : forall n text, (1 <= n <= 8)%nat -> (n <= List.length (chars text))%nat ->
  NGramTokenize (Z.of_nat n) text = Ret (first_occurrences (windows n (chars text))).
Proof. exact tokenize_windows. Qed.
Print Assumptions C28_ngram_windows.
(** ... where [first_occurrences] keeps exactly the elements, each once, and characters
    make up the text. *)
Theorem C28_distinct_and_complete : forall n text, (1 <= n <= 8)%nat -> (n <= List.length (chars text))%nat ->
  exists ts, NGramTokenize (Z.of_nat n) text = Ret ts /\ NoDup ts /\
  forall t, In t ts <-> exists before inside after, chars text = before ++ inside ++ after /\ List.length inside = n /\ t = concat inside.
Proof.
  intros n text Hn Hl. exists (first_occurrences (windows n (chars text))). split; [apply tokenize_windows; assumption|]. split; [apply fo_NoDup|].
  intros t. rewrite fo_In. unfold windows. rewrite in_map_iff. split.
  - intros (i & <- & Hi). apply in_seq in Hi. exists (firstn i (chars text)), (firstn n (skipn i (chars text))), (skipn n (skipn i (chars text))).
    rewrite !firstn_skipn, firstn_length, skipn_length. split; [reflexivity|]. split; [lia|reflexivity].
  - intros (b & m & a & E & Hlm & ->). exists (List.length b). rewrite E. split.
    + rewrite skipn_app, skipn_all, Nat.sub_diag. cbn [skipn app]. rewrite firstn_app, Hlm, Nat.sub_diag. cbn [firstn]. rewrite app_nil_r, firstn_all2 by lia. reflexivity.
    + rewrite !app_length. apply in_seq. lia.
Qed.
Print Assumptions C28_distinct_and_complete.
Theorem C28_characters_make_up_the_text : forall text, concat (chars text) = text.
Proof. exact chars_concat. Qed.
Print Assumptions C28_characters_make_up_the_text.
Example C28_nonvacuous : NGramTokenize 2 (bs "abab" ++ [209; 143]) = Ret [bs "ab"; bs "ba"; bs "b" ++ [209; 143]].
Proof. vm_compute. reflexivity. Qed.

(** C29 is false: the normalizer runs after the duplicates were removed. *)
Theorem C29_tokens_distinct_refuted : forall lowr, (forall r, r < 65 -> lowr r = r) ->
  exists d text ts, t_n d = 2 /\ SuggestTokenize (ToLower lowr) d text = Ret ts /\ ~ NoDup ts.
Proof.
  intros lowr Hl. exists (mkTok 2 (Has English) (bs "$") (bs "$") (bs "$")), (bs "--++"), [bs "$$"; bs "$$"; bs "$$"; bs "$$"; bs "$$"].
  split; [reflexivity|]. split; [|intros H; apply NoDup_cons_iff in H; destruct H as [H _]; apply H; left; reflexivity].
  unfold SuggestTokenize, WrapTokenize, FilterTokenize, ToLower. cbn [t_wrap0 t_wrap1 t_n t_has t_pad].
  replace (map (fun rb : Z * bytes => encode_rune (lowr (fst rb))) (runes (bs "$" ++ bs "--++" ++ bs "$"))) with (map (fun rb : Z * bytes => encode_rune (fst rb)) (runes (bs "$" ++ bs "--++" ++ bs "$"))).
  - vm_compute. reflexivity.
  - change (runes (bs "$" ++ bs "--++" ++ bs "$")) with [(36, [36]); (45, [45]); (45, [45]); (43, [43]); (43, [43]); (36, [36])]. cbn [map fst]. rewrite !Hl by lia. reflexivity.
Qed.
Print Assumptions C29_tokens_distinct_refuted.
(** What holds: if every character of the prepared text is in the alphabet, the tokens
    are distinct (and are the n-grams of the text). *)
Theorem C29_tokens_distinct_partial : forall lowr d text, 1 <= t_n d <= 8 ->
  let prepared := Trim (ToLower lowr (t_wrap0 d ++ text ++ t_wrap1 d)) in
  Forall (fun rb => t_has d (fst rb) = true) (runes prepared) ->
  exists ts, SuggestTokenize (ToLower lowr) d text = Ret ts /\ NoDup ts /\ NGramTokenize (t_n d) prepared = Ret ts.
Proof. intros lowr d text Hn p H. apply suggest_nodup; [exact Hn|]. apply prepared_has. exact H. Qed.
Print Assumptions C29_tokens_distinct_partial.
Example C29_nonvacuous : let d := mkTok 2 (fun c => Has English c || (c =? 36)) (bs "$") (bs "$") (bs "$") in
  Forall (fun rb => t_has d (fst rb) = true) (runes (Trim (ToLower (fun c => c) (t_wrap0 d ++ bs "abab" ++ t_wrap1 d)))) /\
  SuggestTokenize (ToLower (fun c => c)) d (bs "abab") = Ret [bs "$a"; bs "ab"; bs "ba"; bs "b$"].
Proof. split; [|vm_compute; reflexivity]. cbn. repeat (apply Forall_cons; [reflexivity|]). apply Forall_nil. Qed.

(** C30 is false: the length is compared in bytes. *)
Theorem C30_short_text_refuted : exists n text ts, (List.length (chars text) < n)%nat /\ NGramTokenize (Z.of_nat n) text = Ret ts /\ ts <> [].
Proof. exists 3%nat, (bs "$" ++ [209; 143]), [bs "$" ++ [209; 143]]. split; [vm_compute; lia|]. split; [vm_compute; reflexivity|discriminate]. Qed.
Print Assumptions C30_short_text_refuted.
(** What happens for every shorter text: none if it is also shorter in bytes, else the
    whole text is the only token. *)
Theorem C30_short_text_exact : forall n text, (1 <= n <= 8)%nat -> (List.length (chars text) < n)%nat ->
  NGramTokenize (Z.of_nat n) text = Ret (if (List.length text <? n)%nat then [] else [text]).
Proof. exact tokenize_short. Qed.
Print Assumptions C30_short_text_exact.
Example C30_nonvacuous : (List.length (chars (bs "ab")) < 3)%nat /\ NGramTokenize 3 (bs "ab") = Ret [].
Proof. split; [vm_compute; lia|reflexivity]. Qed.

(** C31: sizes 1 to 8 never panic; 0 always does; 9 and more do for long texts. *)
Theorem C31_never_panics_partial : forall n text, 1 <= n <= 8 -> exists ts, NGramTokenize n text = Ret ts.
Proof. exact ngram_total. Qed.
Print Assumptions C31_never_panics_partial.
Theorem C31_never_panics_refuted : (forall text, NGramTokenize 0 text = Panic) /\
  (forall n text, 9 <= n -> n <= zlen text -> NGramTokenize n text = Panic <-> 7 <= zlen (chars text)).
Proof.
  split; [exact tokenize_zero|]. intros n text Hn Hl. rewrite tokenize_big by assumption. destruct (Z.ltb_spec (zlen (chars text)) 7); split; intros; try discriminate; try lia; auto.
Qed.
Print Assumptions C31_never_panics_refuted.
Example C31_nonvacuous : NGramTokenize 9 (bs "abcdefghi") = Panic /\ NGramTokenize 9 (bs "abc") = Ret [].
Proof. split; vm_compute; reflexivity. Qed.

(** C32: the maximal runs of alphabet characters, in order, for every text unless the
    alphabet contains U+FFFD and the text invalid bytes. *)
Theorem C32_word_runs : forall has text, Forall is_byte text -> has RuneError = false \/ well_formed text ->
  concat (map snd (runes text)) = text /\
  exists ws, words_of has (runes text) ws /\ (forall ws', words_of has (runes text) ws' -> ws' = ws) /\
             WordTokenize has text = Ret (map (fun w => concat (map snd w)) ws).
Proof. intros has text Hb Hu. split; [apply runes_concat|]. apply words_result, usable_chars; assumption. Qed.
Print Assumptions C32_word_runs.
(** Behind the filter tokenizer (which lower-cases and trims) every text is fine. *)
Theorem C32_word_runs_filtered : forall lowr has flt text,
  let prepared := Trim (ToLower lowr text) in
  exists ws, words_of has (runes prepared) ws /\
             FilterTokenize (ToLower lowr) (WordTokenize has) flt text = Ret (flt (map (fun w => concat (map snd w)) ws)).
Proof.
  intros lowr has flt text p. destruct (words_result has p) as (ws & Hw & _ & E).
  - unfold p. rewrite prepared_text. eapply Forall_impl; [|apply enc_char_ok]. auto.
  - exists ws. split; [exact Hw|]. unfold FilterTokenize. fold p. rewrite E. reflexivity.
Qed.
Print Assumptions C32_word_runs_filtered.
Theorem C32_invalid_bytes_refuted : exists has text, Forall is_byte text /\ WordTokenize has text = Panic.
Proof. exists (fun r => r =? RuneError), [255]. split; [repeat constructor; unfold is_byte; lia|vm_compute; reflexivity]. Qed.
Print Assumptions C32_invalid_bytes_refuted.
Example C32_nonvacuous : WordTokenize (Has (AComposite [English; ARussian])) (bs "ab, " ++ [209; 143] ++ bs "x!") = Ret [bs "ab"; [209; 143] ++ bs "x"].
Proof. vm_compute. reflexivity. Qed.

(** C33 *)
Theorem C33_normalizer : forall has pad ts,
  List.length (NormalizerFilter has pad ts) = List.length ts /\
  forall i t, nth_error ts i = Some t -> Forall is_byte t -> has RuneError = false \/ well_formed t ->
    nth_error (NormalizerFilter has pad ts) i = Some (concat (map (fun rb => if has (fst rb) then snd rb else pad) (runes t))).
Proof.
  intros has pad ts. split; [apply map_length|]. intros i t Hi Hb Hu. unfold NormalizerFilter. rewrite (map_nth_error _ _ _ Hi). rewrite normalize_usable by assumption. reflexivity.
Qed.
Print Assumptions C33_normalizer.
Theorem C33_idempotent : forall has pad ts, Forall (Forall is_byte) ts -> Forall well_formed ts -> Forall is_byte pad -> well_formed pad ->
  Forall (fun rb => has (fst rb) = true) (runes pad) ->
  NormalizerFilter has pad (NormalizerFilter has pad ts) = NormalizerFilter has pad ts.
Proof.
  intros has pad ts Hb Hw Hbp Hwp Hp. unfold NormalizerFilter. rewrite map_map. apply map_ext_in. intros t Ht. rewrite Forall_forall in Hb, Hw. apply normalize_idem; auto.
Qed.
Print Assumptions C33_idempotent.
Theorem C33_invalid_byte_refuted : exists has pad, has (fst (hd (0, []) (runes [255]))) = true /\ NormalizerFilter has pad [[255]] <> [[255]].
Proof. exists (fun r => r =? RuneError), (bs "$"). split; [vm_compute; reflexivity|]. intros H. vm_compute in H. discriminate. Qed.
Print Assumptions C33_invalid_byte_refuted.
Example C33_nonvacuous : NormalizerFilter (Has ARussian) (bs "$$") [[209; 143; 97]; bs "b"] = [[209; 143; 36; 36]; bs "$$"] /\ well_formed [209; 143; 97].
Proof. split; [vm_compute; reflexivity|]. unfold well_formed. vm_compute (runes [209; 143; 97]). repeat (apply Forall_cons; [intros [H _]; cbn in H; unfold RuneError in H; lia|]). apply Forall_nil. Qed.

(** C34, first half: the tokens of a query are tokens of every entry it is a prefix of,
    if the query is valid UTF-8 and long enough. *)
Theorem C34_prefix_tokens_partial : forall lowr d q rest, 1 <= t_n d <= 8 -> well_formed (t_wrap0 d ++ q) ->
  t_n d <= zlen (chars (Trim (ToLower lowr (t_wrap0 d ++ q)))) ->
  exists qs es, AutocompleteTokenize (ToLower lowr) d q = Ret qs /\ SuggestTokenize (ToLower lowr) d (q ++ rest) = Ret es /\ incl qs es /\ qs <> [].
Proof.
  intros lowr d q rest Hn Hw Hl. destruct (prefix_tokens lowr d q rest Hn Hw) as (qs & es & Eq & Ee & Hi); [rewrite <- prepared_chars; exact Hl|].
  exists qs, es. repeat split; auto. intros ->. revert Eq. unfold AutocompleteTokenize, WrapTokenize, FilterTokenize. rewrite app_nil_r.
  set (p := Trim (ToLower lowr (t_wrap0 d ++ q))) in *. pose proof (chars_zlen_le p) as Hc. rewrite tokenize_ok by lia.
  replace (zlen (chars p) <? t_n d) with false by lia. cbn [bind]. intros Eq. injection Eq as Eq. apply map_eq_nil in Eq.
  assert (In (gram (chars p) (t_n d) 0) (first_occurrences (map (gram (chars p) (t_n d)) (seq 0 (Z.to_nat (zlen (chars p) - t_n d + 1)))))) as Hin.
  { apply fo_In. apply in_map. apply in_seq. lia. }
  rewrite Eq in Hin. destruct Hin.
Qed.
Print Assumptions C34_prefix_tokens_partial.
(** Without the length condition it fails ("я" against "яб", n = 3)... *)
Theorem C34_short_query_refuted : exists d q rest qs es t, t_n d = 3 /\ well_formed (t_wrap0 d ++ q) /\
  AutocompleteTokenize (ToLower (fun c => c)) d q = Ret qs /\ SuggestTokenize (ToLower (fun c => c)) d (q ++ rest) = Ret es /\ In t qs /\ ~ In t es.
Proof.
  exists (mkTok 3 (Has (AComposite [ARussian; ASimple [36]])) (bs "$") (bs "$") (bs "$")), [209; 143], [208; 177],
    [bs "$" ++ [209; 143]], [bs "$" ++ [209; 143; 208; 177]; [209; 143; 208; 177] ++ bs "$"], (bs "$" ++ [209; 143]).
  split; [reflexivity|]. split.
  { unfold well_formed. cbn [t_wrap0]. vm_compute (runes _). repeat (apply Forall_cons; [intros [H _]; cbn in H; unfold RuneError in H; lia|]). apply Forall_nil. }
  split; [vm_compute; reflexivity|]. split; [vm_compute; reflexivity|]. split; [left; reflexivity|].
  intros [H|[H|[]]]; vm_compute in H; discriminate.
Qed.
Print Assumptions C34_short_query_refuted.
(** ... and the second half is false: "aba" has only grams of "abba". *)
Theorem C34_converse_refuted : exists d q e qs es,
  AutocompleteTokenize (ToLower (fun c => c)) d q = Ret qs /\ SuggestTokenize (ToLower (fun c => c)) d e = Ret es /\ qs <> [] /\ incl qs es /\ ~ exists rest, e = q ++ rest.
Proof.
  exists (mkTok 2 (Has (AComposite [English; ASimple [36]])) (bs "$") (bs "$") (bs "$")), (bs "aba"), (bs "abba"),
    [bs "$a"; bs "ab"; bs "ba"], [bs "$a"; bs "ab"; bs "bb"; bs "ba"; bs "a$"].
  split; [vm_compute; reflexivity|]. split; [vm_compute; reflexivity|]. split; [discriminate|]. split.
  - intros x [<-|[<-|[<-|[]]]]; cbn; auto.
  - intros [rest H]. vm_compute in H. discriminate.
Qed.
Print Assumptions C34_converse_refuted.
Example C34_nonvacuous : let d := mkTok 2 (Has (AComposite [English; ASimple [36]])) (bs "$") (bs "$") (bs "$") in
  2 <= zlen (chars (Trim (ToLower (fun c => c) (t_wrap0 d ++ bs "ab")))) /\ well_formed (t_wrap0 d ++ bs "ab") /\
  AutocompleteTokenize (ToLower (fun c => c)) d (bs "ab") = Ret [bs "$a"; bs "ab"] /\
  SuggestTokenize (ToLower (fun c => c)) d (bs "abc") = Ret [bs "$a"; bs "ab"; bs "bc"; bs "c$"].
Proof.
  split; [vm_compute; discriminate|]. split; [|split; vm_compute; reflexivity].
  unfold well_formed. cbn [t_wrap0]. vm_compute (runes _). repeat (apply Forall_cons; [intros [H _]; cbn in H; unfold RuneError in H; lia|]). apply Forall_nil.
Qed.

(** C65 *)
Theorem C65_composite : forall l c, Has (AComposite l) c = true <-> exists a, In a l /\ Has a c = true.
Proof. intros l c. cbn [Has]. rewrite existsb_exists. reflexivity. Qed.
Print Assumptions C65_composite.
Theorem C65_described : forall srt description c, (forall l, Permutation l (srt l)) ->
  Has (CreateAlphabet srt description) c = true <->
  exists s, In s description /\
    (s = bs "english" /\ 97 <= c <= 122 \/ s = bs "numbers" /\ 48 <= c <= 57 \/ s = bs "russian" /\ (1072 <= c <= 1103 \/ c = 1105) \/
     s <> bs "english" /\ s <> bs "numbers" /\ s <> bs "russian" /\ In c (map fst (runes s))).
Proof.
  intros srt description c Hs. unfold CreateAlphabet. rewrite C65_composite.
  assert (forall f : bytes -> alphabet, (exists a, In a (srt (map f description)) /\ Has a c = true) <-> exists s, In s description /\ Has (f s) c = true) as ->.
  { intros f. split.
    - intros (a & Ha & Hh). apply (Permutation_in _ (Permutation_sym (Hs _))) in Ha. apply in_map_iff in Ha. destruct Ha as (s & <- & Hs'). eauto.
    - intros (s & Hs' & Hh). exists (f s). split; [|exact Hh]. apply (Permutation_in _ (Hs _)). apply in_map. exact Hs'. }
  assert (forall s, Has (if beqb s (bs "english") then English else if beqb s (bs "russian") then ARussian else if beqb s (bs "numbers") then Numbers else ASimple (map fst (runes s))) c = true <->
    (s = bs "english" /\ 97 <= c <= 122 \/ s = bs "numbers" /\ 48 <= c <= 57 \/ s = bs "russian" /\ (1072 <= c <= 1103 \/ c = 1105) \/
     s <> bs "english" /\ s <> bs "numbers" /\ s <> bs "russian" /\ In c (map fst (runes s)))) as H.
  { intros s. destruct (beqb s (bs "english")) eqn:E1; [apply beqb_ok in E1; subst s|].
    { unfold English. cbn [Has]. split; [intros; left; split; [reflexivity|lia]|]. intros [[_ H]|[[H _]|[[H _]|[H _]]]]; try discriminate; try congruence; lia. }
    destruct (beqb s (bs "russian")) eqn:E2; [apply beqb_ok in E2; subst s|].
    { cbn [Has]. split.
      - intros H. right. right. left. split; [reflexivity|]. destruct (Z.eqb_spec c 1105); lia.
      - intros [[H _]|[[H _]|[[_ H]|(_ & _ & H & _)]]]; try discriminate; try congruence. destruct (Z.eqb_spec c 1105); [reflexivity|lia]. }
    destruct (beqb s (bs "numbers")) eqn:E3; [apply beqb_ok in E3; subst s|].
    { unfold Numbers. cbn [Has]. split; [intros; right; left; split; [reflexivity|lia]|]. intros [[H _]|[[_ H]|[[H _]|(_ & H & _)]]]; try discriminate; try congruence; lia. }
    assert (forall t, beqb s t = false -> s <> t) as Hne by (intros t Ht ->; rewrite (proj2 (beqb_ok t t) eq_refl) in Ht; discriminate).
    cbn [Has]. rewrite existsb_exists. split.
    - intros (x & Hx & Ex). apply Z.eqb_eq in Ex. subst x. right. right. right. auto.
    - intros [[-> _]|[[-> _]|[[-> _]|(_ & _ & _ & H)]]]; try (rewrite (proj2 (beqb_ok _ _) eq_refl) in *; discriminate). exists c. split; [exact H|apply Z.eqb_refl]. }
  split; intros (s & Hin & Hh); exists s; (split; [exact Hin|]); apply H; exact Hh.
Qed.
Print Assumptions C65_described.
Theorem C65_listed : forall a c, c <> 1105 -> Has a c = true <-> In c (Chars a).
Proof. intros a c Hc. rewrite Has_spec. tauto. Qed.
Print Assumptions C65_listed.
Theorem C65_listed_refuted : Has ARussian 1105 = true /\ ~ In 1105 (Chars ARussian).
Proof. split; [reflexivity|]. cbn [Chars]. rewrite zrange_In. lia. Qed.
Print Assumptions C65_listed_refuted.
Theorem C65_sizes : Size English = 26 /\ Size Numbers = 10 /\ Size ARussian = 32 /\ forall l, Size (AComposite l) = fold_right (fun a s => Size a + s) 0 l.
Proof. repeat split; [vm_compute; reflexivity..|]. exact Size_composite. Qed.
Print Assumptions C65_sizes.
(** The size counts repeated characters. *)
Theorem C65_size_refuted : exists a, Size a <> zlen (nodup Z.eq_dec (Chars a)).
Proof. exists (AComposite [ASeq 97 98; ASimple [97]]). vm_compute. discriminate. Qed.
Print Assumptions C65_size_refuted.
Example C65_nonvacuous : Has (CreateAlphabet (fun l => l) [bs "english"; bs "-"]) 45 = true.
Proof. reflexivity. Qed.
