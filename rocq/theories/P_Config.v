(** C91 Configurations are read as they are written. *)
From Coq Require Import String ZifyBool.
From Verif Require Import Base BaseLemmas GoMap Text TextProofs TextProofs2 AnalysisSpec Analysis P_Analysis Http JsonSpec JsonProofs Paths Config ConfigSpec ConfigProofs ConfigProofs2 ConfigProofs3.
Local Open Scope Z_scope.
Local Notation length := List.length.

Lemma forall_fold {A} (P : A -> Prop) l : fold_right (fun x Q => P x /\ Q) True l <-> Forall P l.
Proof. induction l as [|x l IH]; cbn [fold_right]; split; intros H; [constructor|exact I|constructor; tauto|inversion H; subst; tauto]. Qed.
Lemma parsed_numbers f :
  (forall s j r, value f s = Some (j, r) -> numbers_ok j)
  /\ (forall s l r, elements f s = Some (l, r) -> Forall numbers_ok l)
  /\ (forall s l r, JsonSpec.members f s = Some (l, r) -> Forall (fun m => numbers_ok (snd m)) l).
Proof.
  induction f as [|f (IHv & IHe & IHm)]; [split; [|split]; intros ? ? ? E; discriminate E|]. split; [|split].
  - intros s j r E. rewrite value_S in E. destruct (skip_ws s) as [|c t]; [discriminate|].
    destruct (c =? 34); [destruct (string_body f t) as [[? ?]|]; [injection E as <- <-; exact I|discriminate]|].
    destruct (c =? 91). { destruct (begins 93 (skip_ws t)); [injection E as <- <-; exact I|]. destruct (elements f t) as [[l r']|] eqn:Ee; [|discriminate]. injection E as <- <-. apply forall_fold. eapply IHe. exact Ee. }
    destruct (c =? 123). { destruct (begins 125 (skip_ws t)); [injection E as <- <-; exact I|]. destruct (JsonSpec.members f t) as [[l r']|] eqn:Ee; [|discriminate]. injection E as <- <-. cbn [numbers_ok]. apply (forall_fold (fun m => numbers_ok (snd m))). eapply IHm. exact Ee. }
    destruct (literal _ (c :: t)); [injection E as <- <-; exact I|]. destruct (literal _ (c :: t)); [injection E as <- <-; exact I|]. destruct (literal _ (c :: t)); [injection E as <- <-; exact I|].
    destruct (number_scanned _ _ _ E) as (n & -> & _ & _ & c' & n' & -> & Hc). cbn [numbers_ok begins]. lia.
  - intros s l r E. rewrite elements_S in E. destruct (value f s) as [[j r1]|] eqn:Ev; [|discriminate]. destruct (begins 44 (skip_ws r1)).
    + destruct (elements f (tl (skip_ws r1))) as [[l' e]|] eqn:Ee; [|discriminate]. injection E as <- <-. constructor; [eapply IHv; exact Ev|eapply IHe; exact Ee].
    + destruct (begins 93 (skip_ws r1)); [|discriminate]. injection E as <- <-. constructor; [eapply IHv; exact Ev|constructor].
  - intros s l r E. rewrite members_S in E. destruct (begins 34 (skip_ws s)); [|discriminate]. destruct (string_body f (tl (skip_ws s))) as [[k r0]|]; [|discriminate]. destruct (begins 58 (skip_ws r0)); [|discriminate].
    destruct (value f (tl (skip_ws r0))) as [[j r2]|] eqn:Ev; [|discriminate]. destruct (begins 44 (skip_ws r2)).
    + destruct (JsonSpec.members f (tl (skip_ws r2))) as [[l' e]|] eqn:Em; [|discriminate]. injection E as <- <-. constructor; [eapply IHv; exact Ev|eapply IHm; exact Em].
    + destruct (begins 125 (skip_ws r2)); [|discriminate]. injection E as <- <-. constructor; [eapply IHv; exact Ev|constructor].
Qed.
Lemma parse_numbers text j : parse text = Some j -> numbers_ok j.
Proof. unfold parse. destruct (value _ text) as [[j' r]|] eqn:E; [|discriminate]. destruct (skip_ws r); [|discriminate]. intros H. injection H as <-. eapply parsed_numbers. exact E. Qed.

Lemma ascii_forallb s : forallb (fun c => (0 <=? c) && (c <? 128)) s = true -> ascii s.
Proof. unfold ascii. rewrite forallb_forall, Forall_forall. intros H x Hx. specialize (H x Hx). lia. Qed.
Lemma tags_index : tags_ok index_tags.
Proof.
  split.
  - match goal with |- NoDup ?t => let v := eval vm_compute in t in change t with v end. repeat apply NoDup_cons; try apply NoDup_nil; cbn; intuition discriminate.
  - unfold index_tags. repeat (apply Forall_cons; [split; [apply ascii_forallb; reflexivity|cbn [snd int_type]; lia || exact I]|]). apply Forall_nil.
Qed.
Lemma tags_model : tags_ok model_tags.
Proof.
  split.
  - match goal with |- NoDup ?t => let v := eval vm_compute in t in change t with v end. repeat apply NoDup_cons; try apply NoDup_nil; cbn; intuition discriminate.
  - unfold model_tags. repeat (apply Forall_cons; [split; [apply ascii_forallb; reflexivity|cbn [snd int_type]; lia || exact I]|]). apply Forall_nil.
Qed.
Lemma seen_string o s : option_map seen o = Some (VText s) -> as_string o = s.
Proof. destruct o as [[]|]; cbn; congruence. Qed.
Lemma seen_int o n : option_map seen o = Some (VInt n) -> as_int o = n.
Proof. destruct o as [[]|]; cbn; congruence. Qed.
Lemma seen_strings o l : option_map seen o = Some (VTexts l) -> as_strings o = l.
Proof. destruct o as [[]|]; cbn; congruence. Qed.
Lemma seen_pair o p : option_map seen o = Some (VPair (fst p) (snd p)) -> as_pair o = p.
Proof. destruct o as [[]|], p; cbn; congruence. Qed.
Lemma not_object T j : ConfigSpec.members j = None -> snd (store_struct T (as_go j)) = true.
Proof. destruct j; cbn; congruence. Qed.

Definition element_plain (j : json) : Prop := match j with JObject o => distinct_names o | _ => True end.
Lemma index_one base j : numbers_ok j -> element_plain j ->
  match described base j with
  | Some d => snd (store_struct index_tags (as_go j)) = false /\ index_description base (fst (store_struct index_tags (as_go j))) = d
  | None => snd (store_struct index_tags (as_go j)) = true
  end.
Proof.
  intros Hn Hp. unfold described. destruct (ConfigSpec.members j) as [o|] eqn:Em; [|apply not_object; exact Em].
  destruct (struct_read index_tags j o tags_index Em Hn Hp) as [H1 H2]. set (r := store_struct index_tags (as_go j)) in *. clearbody r. destruct r as [fs e]. cbn [fst snd] in *.
  assert (forall i name t, nth_error index_tags i = Some (name, t) -> wanted t (says o name) = None -> e = true) as Hbad.
  { intros i name t E Hw. destruct e; [reflexivity|]. exfalso. exact (proj1 H1 eq_refl i name t E Hw). }
  destruct (text_of (says o (bs "driver"))) as [d|] eqn:E0; [|apply (Hbad 0%nat _ _ eq_refl); cbn [wanted]; rewrite E0; reflexivity].
  destruct (text_of (says o (bs "name"))) as [n|] eqn:E1; [|apply (Hbad 1%nat _ _ eq_refl); cbn [wanted]; rewrite E1; reflexivity].
  destruct (integer_of _ _ (says o (bs "nGramSize"))) as [k|] eqn:E2; [|apply (Hbad 2%nat _ _ eq_refl); cbn [wanted]; rewrite E2; reflexivity].
  destruct (text_of (says o (bs "source"))) as [s|] eqn:E3; [|apply (Hbad 3%nat _ _ eq_refl); cbn [wanted]; rewrite E3; reflexivity].
  destruct (text_of (says o (bs "output"))) as [out|] eqn:E4; [|apply (Hbad 4%nat _ _ eq_refl); cbn [wanted]; rewrite E4; reflexivity].
  destruct (texts_of (says o (bs "alphabet"))) as [a|] eqn:E5; [|apply (Hbad 5%nat _ _ eq_refl); cbn [wanted]; rewrite E5; reflexivity].
  destruct (text_of (says o (bs "pad"))) as [p|] eqn:E6; [|apply (Hbad 6%nat _ _ eq_refl); cbn [wanted]; rewrite E6; reflexivity].
  destruct (pair_of (says o (bs "wrap"))) as [w|] eqn:E7; [|apply (Hbad 7%nat _ _ eq_refl); cbn [wanted]; rewrite E7; reflexivity].
  assert (e = false) as ->.
  { apply H1. intros i name t E. apply nth_error_In in E. revert E. apply (proj1 (Forall_forall (fun ft => wanted (snd ft) (says o (fst ft)) <> None) index_tags)) with (x := (name, t)).
    unfold index_tags. repeat (apply Forall_cons; [cbn [fst snd wanted]; rewrite ?E0, ?E1, ?E2, ?E3, ?E4, ?E5, ?E6, ?E7; cbn [option_map]; discriminate|]). apply Forall_nil. }
  split; [reflexivity|]. specialize (H2 eq_refl). unfold index_description.
  f_equal; [apply seen_string|apply seen_string|apply seen_int|apply seen_string|apply seen_string|apply seen_strings|apply seen_string|apply seen_pair];
    (etransitivity; [eapply H2; reflexivity|]); cbn [wanted]; rewrite ?E0, ?E1, ?E2, ?E3, ?E4, ?E5, ?E6, ?E7; reflexivity.
Qed.
Lemma model_one base j : numbers_ok j -> element_plain j ->
  match model_described base j with
  | Some d => snd (store_struct model_tags (as_go j)) = false /\ model_config base (fst (store_struct model_tags (as_go j))) = d
  | None => snd (store_struct model_tags (as_go j)) = true
  end.
Proof.
  intros Hn Hp. unfold model_described. destruct (ConfigSpec.members j) as [o|] eqn:Em; [|apply not_object; exact Em].
  destruct (struct_read model_tags j o tags_model Em Hn Hp) as [H1 H2]. set (r := store_struct model_tags (as_go j)) in *. clearbody r. destruct r as [fs e]. cbn [fst snd] in *.
  assert (forall i name t, nth_error model_tags i = Some (name, t) -> wanted t (says o name) = None -> e = true) as Hbad.
  { intros i name t E Hw. destruct e; [reflexivity|]. exfalso. exact (proj1 H1 eq_refl i name t E Hw). }
  destruct (text_of (says o (bs "name"))) as [n|] eqn:E0; [|apply (Hbad 0%nat _ _ eq_refl); cbn [wanted]; rewrite E0; reflexivity].
  destruct (integer_of _ _ (says o (bs "nGramOrder"))) as [k|] eqn:E1; [|apply (Hbad 1%nat _ _ eq_refl); cbn [wanted]; rewrite E1; reflexivity].
  destruct (text_of (says o (bs "source"))) as [s|] eqn:E2; [|apply (Hbad 2%nat _ _ eq_refl); cbn [wanted]; rewrite E2; reflexivity].
  destruct (text_of (says o (bs "output"))) as [out|] eqn:E3; [|apply (Hbad 3%nat _ _ eq_refl); cbn [wanted]; rewrite E3; reflexivity].
  destruct (texts_of (says o (bs "alphabet"))) as [a|] eqn:E4; [|apply (Hbad 4%nat _ _ eq_refl); cbn [wanted]; rewrite E4; reflexivity].
  destruct (texts_of (says o (bs "separators"))) as [p|] eqn:E5; [|apply (Hbad 5%nat _ _ eq_refl); cbn [wanted]; rewrite E5; reflexivity].
  destruct (text_of (says o (bs "startSymbol"))) as [w|] eqn:E6; [|apply (Hbad 6%nat _ _ eq_refl); cbn [wanted]; rewrite E6; reflexivity].
  destruct (text_of (says o (bs "endSymbol"))) as [x|] eqn:E7; [|apply (Hbad 7%nat _ _ eq_refl); cbn [wanted]; rewrite E7; reflexivity].
  assert (e = false) as ->.
  { apply H1. intros i name t E. apply nth_error_In in E. revert E. apply (proj1 (Forall_forall (fun ft => wanted (snd ft) (says o (fst ft)) <> None) model_tags)) with (x := (name, t)).
    unfold model_tags. repeat (apply Forall_cons; [cbn [fst snd wanted]; rewrite ?E0, ?E1, ?E2, ?E3, ?E4, ?E5, ?E6, ?E7; cbn [option_map]; discriminate|]). apply Forall_nil. }
  split; [reflexivity|]. specialize (H2 eq_refl). unfold model_config.
  f_equal; [apply seen_string|apply seen_int|apply seen_string|apply seen_string|apply seen_strings|apply seen_strings|apply seen_string|apply seen_string];
    (etransitivity; [eapply H2; reflexivity|]); cbn [wanted]; rewrite ?E0, ?E1, ?E2, ?E3, ?E4, ?E5, ?E6, ?E7; reflexivity.
Qed.
Lemma index_all base l : Forall numbers_ok l -> Forall element_plain l ->
  match all_of (described base) l with
  | Some ds => existsb (fun v => snd (store_struct index_tags v)) (map as_go l) = false /\ map (fun v => index_description base (fst (store_struct index_tags v))) (map as_go l) = ds
  | None => existsb (fun v => snd (store_struct index_tags v)) (map as_go l) = true
  end.
Proof.
  induction l as [|j l IH]; intros Hn Hp; [split; reflexivity|]. cbn [all_of map existsb].
  pose proof (index_one base j (Forall_inv Hn) (Forall_inv Hp)) as H. specialize (IH (Forall_inv_tail Hn) (Forall_inv_tail Hp)).
  destruct (described base j) as [d|]; [destruct H as [-> ->]; cbn [orb]|rewrite H; reflexivity]. destruct (all_of (described base) l) as [ds|]; [destruct IH as [-> ->]; split; reflexivity|exact IH].
Qed.

(** The configuration of the indexes: a JSON text in which no object of the list names a member
    twice (up to case) gives the descriptions it says, based at the directory of the file; one
    that says something else than descriptions is refused. *)
Theorem C91_index_configs : forall configPath text j, Forall is_byte text -> parse text = Some j -> plain_config j ->
  match configured (Dir configPath) j with
  | Some ds => ReadConfigs configPath (Ret text) = Ret ds
  | None => exists e, ReadConfigs configPath (Ret text) = Fail e
  end.
Proof.
  intros configPath text j Hb Hp Hd. unfold ReadConfigs. cbn [bind]. unfold unmarshal_list. rewrite (scan_parse text j Hb Hp). pose proof (parse_numbers text j Hp) as Hn.
  destruct j as [| | | | |l|l]; cbn [configured as_go]; try (eexists; reflexivity); try reflexivity.
  cbn [numbers_ok] in Hn. apply (proj1 (forall_fold numbers_ok l)) in Hn. pose proof (index_all (Dir configPath) l Hn Hd) as H. destruct (all_of (described (Dir configPath)) l) as [ds|].
  - destruct H as [-> <-]. cbn [bind]. rewrite map_map. reflexivity.
  - rewrite H. eexists. reflexivity.
Qed.
Print Assumptions C91_index_configs.
(** The configuration of a language model. *)
Theorem C91_model_config : forall configPath text j, Forall is_byte text -> parse text = Some j -> plain_config j ->
  match model_described (Dir configPath) j with
  | Some c => ReadConfig configPath (Ret text) = Ret c
  | None => exists e, ReadConfig configPath (Ret text) = Fail e
  end.
Proof.
  intros configPath text j Hb Hp Hd. unfold ReadConfig. cbn [bind]. unfold unmarshal_one. rewrite (scan_parse text j Hb Hp). pose proof (parse_numbers text j Hp) as Hn.
  assert (element_plain j) as He by (destruct j; try exact I; exact Hd). pose proof (model_one (Dir configPath) j Hn He) as H. destruct (model_described (Dir configPath) j) as [c|].
  - destruct H as [-> <-]. reflexivity.
  - rewrite H. eexists. reflexivity.
Qed.
Print Assumptions C91_model_config.
(** A file that cannot be read is an error of the caller. *)
Theorem C91_unreadable : forall configPath e, ReadConfigs configPath (Fail e) = Fail e /\ ReadConfig configPath (Fail e) = Fail e.
Proof. intros. split; reflexivity. Qed.

Print Assumptions C91_unreadable.
(** A text that is not JSON is refused, if it is UTF-8 and has no escapes by number. *)
Theorem C91_not_json : forall configPath text, Forall is_byte text -> well_formed text -> no_escapes text -> parse text = None ->
  (exists e, ReadConfigs configPath (Ret text) = Fail e) /\ (exists e, ReadConfig configPath (Ret text) = Fail e).
Proof.
  intros configPath text Hb Hw Hn Hp. unfold ReadConfigs, ReadConfig. cbn [bind]. unfold unmarshal_list, unmarshal_one.
  destruct (scan text) as [v|] eqn:E; [|split; eexists; reflexivity]. destruct (scan_only_json text v (conj Hb (conj Hw Hn)) E) as (j & Hj). congruence.
Qed.
Print Assumptions C91_not_json.
(** Without these conditions there are others that are accepted: half a surrogate pair, and a
    byte that is no UTF-8, both taken for U+FFFD. *)
Theorem C91_not_json_refuted : exists text text', parse text = None /\ parse text' = None /\
  (exists d, ReadConfigs (bs "c") (Ret text) = Ret [d] /\ i_name d = [239; 191; 189]) /\ (exists d, ReadConfigs (bs "c") (Ret text') = Ret [d] /\ i_name d = [239; 191; 189]).
Proof.
  exists (bs "[{""name"": ""\ud800""}]"), (bs "[{""name"": """ ++ [255] ++ bs """}]"). split; [vm_compute; reflexivity|]. split; [vm_compute; reflexivity|].
  split; eexists; (split; [vm_compute; reflexivity|reflexivity]).
Qed.
Print Assumptions C91_not_json_refuted.
Local Open Scope string_scope.
Definition shipped : bytes := bs "[ {""name"": ""cars"", ""nGramSize"": 3, ""alphabet"": [""english"", ""$""], ""source"": ""cars.dict"", ""pad"": ""$"", ""wrap"": [""^"", ""\u0024""], ""output"": ""db"", ""driver"": ""DISC"", ""spare"": [1.5e3, {}]}, null ]".
Definition shipped_model : bytes := bs "{""NAME"": ""lm"", ""nGramOrder"": 3, ""separators"": [""."", ""\n""], ""startSymbol"": ""<S>"", ""endSymbol"": null}".
Lemma distinct_nodup o : NoDup (map (fun m : list Z * json => map small (fst m)) o) -> distinct_names o.
Proof.
  induction o as [|[k j] o IH]; cbn [map distinct_names fst]; intros H; [exact I|]. inversion H as [|x l Hx Hl]; subst. split; [|apply IH; exact Hl].
  intros k' j' Hi E. apply Hx. rewrite <- E. apply (in_map (fun m => map small (fst m)) _ (k', j') Hi).
Qed.
(** The hypotheses are met by a configuration like the shipped one, with an unknown member and an escape. *)
Example C91_nonvacuous : exists j, Forall is_byte shipped /\ parse shipped = Some j /\ plain_config j /\
  ReadConfigs (bs "conf/config.json") (Ret shipped)
  = Ret [mkIndexDescription (bs "DISC") (bs "cars") 3 (bs "cars.dict") (bs "db") [bs "english"; bs "$"] (bs "$") (bs "^", bs "$") (bs "conf");
         mkIndexDescription [] [] 0 [] [] [] [] ([], []) (bs "conf")].
Proof.
  destruct (parse shipped) as [j|] eqn:E; [|vm_compute in E; discriminate]. exists j. split; [|split; [reflexivity|split]].
  - rewrite Forall_forall. intros x Hx. assert (forallb (fun c => (0 <=? c) && (c <? 256)) shipped = true)%Z as H by (vm_compute; reflexivity). rewrite forallb_forall in H. specialize (H x Hx). unfold is_byte. lia.
  - vm_compute in E. injection E as <-. cbn [plain_config]. repeat (apply Forall_cons; [try exact I|]); [|apply Forall_nil].
    apply distinct_nodup. match goal with |- NoDup ?t => let v := eval vm_compute in t in change t with v end. repeat apply NoDup_cons; try apply NoDup_nil; cbn; intuition discriminate.
  - vm_compute. reflexivity.
Qed.
Example C91_nonvacuous_model : ReadConfig (bs "lm.json") (Ret shipped_model) = Ret (mkModelConfig (bs "lm") 3 [] [] [] [bs "."; [10%Z]] (bs "<S>") [] (bs ".")).
Proof. vm_compute. reflexivity. Qed.
(** Refused: a number where a name is expected, an order that is no byte, a text cut short. *)
Example C91_not_json_nonvacuous : let text := bs "[{""name"": ""cars"",}]" in Forall is_byte text /\ well_formed text /\ no_escapes text /\ parse text = None.
Proof.
  cbv zeta. set (text := bs _). split; [|split; [|split; [|vm_compute; reflexivity]]].
  - rewrite Forall_forall. intros x Hx. assert (forallb (fun c => (0 <=? c) && (c <? 256)) text = true)%Z as H by (vm_compute; reflexivity). rewrite forallb_forall in H. specialize (H x Hx). unfold is_byte. lia.
  - unfold well_formed. rewrite Forall_forall. intros x Hx [H _]. assert (forallb (fun rb => negb (fst rb =? RuneError)) (runes text) = true)%Z as H0 by (vm_compute; reflexivity). rewrite forallb_forall in H0. specialize (H0 x Hx). apply negb_true_iff, Z.eqb_neq in H0. apply H0. exact H.
  - intros a b E. assert (existsb (fun c => c =? 92)%Z text = false) as H by (vm_compute; reflexivity). rewrite E, existsb_app in H. cbn [existsb] in H. rewrite Z.eqb_refl, orb_true_r in H. discriminate.
Qed.
Example C91_refused :
  (exists e, ReadConfigs (bs "c") (Ret (bs "[{""name"": 1}]")) = Fail e)
  /\ (exists e, ReadConfig (bs "c") (Ret (bs "{""nGramOrder"": 256}")) = Fail e)
  /\ (exists e, ReadConfigs (bs "c") (Ret (bs "[{""name"": ""cars""}")) = Fail e).
Proof. split; [|split]; eexists; vm_compute; reflexivity. Qed.
(** A member named twice is not simply the later one: the decoder writes the second list into
    the cells of the first, and null leaves a cell as it was. *)
Example C91_repeated_refuted : exists text d,
  text = bs "[{""alphabet"": [""a"", ""b""], ""alphabet"": [null]}]" /\ ReadConfigs (bs "c") (Ret text) = Ret [d] /\ i_alphabet d = [bs "a"].
Proof. eexists. eexists. split; [reflexivity|]. split; vm_compute; reflexivity. Qed.
