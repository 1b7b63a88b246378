(** What the published English algorithm does to any word: length, emptiness, valid UTF-8. *)
From Coq Require Import Bool Lia ZifyBool String.
From Verif Require Import Base BaseLemmas Text TextProofs TextProofs2 AnalysisSpec VGram VGramSpec VGramProofs VGramProofs3 GoMap Snowball StemSpec StemProofs StemFwdProofs StemEn StemEnSpec StemChars.
Local Open Scope Z_scope.
Local Notation length := List.length.

Lemma strip_some s w p : strip s w = Some p -> w = p ++ s.
Proof.
  unfold strip. cbv zeta. destruct (beqb _ _) eqn:E; [|discriminate]. intros H. injection H as <-. apply beqb_true in E. rewrite <- E at 2. symmetry. apply firstn_skipn.
Qed.
Definition rule_rel (R : bytes -> bytes -> Prop) (r : rule) : Prop := forall p w', snd r p = Some w' -> R (p ++ fst r) w'.
Lemma rules_rel (R : bytes -> bytes -> Prop) rs w : Forall (rule_rel R) rs -> R w w -> R w (rules rs w).
Proof.
  intros H Hw. induction H as [|[s act] rs Hr _ IH]; [exact Hw|]. cbn [rules]. destruct (strip s w) as [p|] eqn:E; [|exact IH].
  destruct (act p) as [w'|] eqn:Ea; [|exact Hw]. rewrite (strip_some _ _ _ E) at 1. apply (Hr p w' Ea).
Qed.
Ltac all_rules := repeat (apply Forall_cons; [|]); [..|apply Forall_nil]; unfold rule_rel; cbn [fst snd]; intros p w' Ha;
  unfold put, del, keep, ie, past, yi, r1, r2, when, put in Ha;
  repeat match type of Ha with context [if ?c then _ else _] => let E := fresh "E" in destruct c eqn:E; try discriminate end;
  try discriminate; injection Ha as <-.

(** the stem is not longer than the token *)
Lemma bs_len s : zlen (bs s) = Z.of_nat (String.length s).
Proof. unfold zlen. f_equal. induction s as [|c s IH]; [reflexivity|]. cbn. f_equal. exact IH. Qed.
Ltac short := rewrite ?zlen_app, ?bs_len; cbn [String.length Z.of_nat Pos.of_succ_nat Pos.succ zlen List.length] in *; try lia.
Lemma tidy_len p1 w : zlen (tidy p1 w) <= zlen w + 1.
Proof. apply (rules_rel (fun a b => zlen b <= zlen a + 1)); [|lia]. all_rules; short. Qed.
Lemma step0_len w : zlen (step0 w) <= zlen w.
Proof. apply (rules_rel (fun a b => zlen b <= zlen a)); [|lia]. all_rules; short. Qed.
Lemma step1a_len w : zlen (step1a w) <= zlen w.
Proof. apply (rules_rel (fun a b => zlen b <= zlen a)); [|lia]. all_rules; short. Qed.
Lemma step1b_len p1 w : zlen (step1b p1 w) <= zlen w.
Proof. apply (rules_rel (fun a b => zlen b <= zlen a)); [|lia]. all_rules; try pose proof (tidy_len p1 p); short. Qed.
Lemma step1c_len w : zlen (step1c w) <= zlen w.
Proof. apply (rules_rel (fun a b => zlen b <= zlen a)); [|lia]. all_rules; short. Qed.
Lemma step2_len p1 w : zlen (step2 p1 w) <= zlen w.
Proof. apply (rules_rel (fun a b => zlen b <= zlen a)); [|lia]. all_rules; short. Qed.
Lemma step3_len p1 p2 w : zlen (step3 p1 p2 w) <= zlen w.
Proof. apply (rules_rel (fun a b => zlen b <= zlen a)); [|lia]. all_rules; short. Qed.
Lemma step4_len p2 w : zlen (step4 p2 w) <= zlen w.
Proof. apply (rules_rel (fun a b => zlen b <= zlen a)); [|lia]. all_rules; short. Qed.
Lemma step5_len p1 p2 w : zlen (step5 p1 p2 w) <= zlen w.
Proof. apply (rules_rel (fun a b => zlen b <= zlen a)); [|lia]. all_rules; short. Qed.
Lemma piece1 ch : piece ch -> 1 <= zlen ch. Proof. intros H. pose proof (piece_pos ch H). lia. Qed.
Lemma mark_len l : forall h, Forall piece l -> zlen (concat (mark h l)) <= zlen (concat l).
Proof.
  induction l as [|ch l IH]; intros h H; [cbn; lia|]. cbn [mark]. pose proof (piece1 ch (Forall_inv H)). pose proof (Forall_inv_tail H) as Ht. destruct (h && _); cbn [concat]; rewrite !zlen_app.
  - specialize (IH false Ht). rewrite bs_len. cbn [String.length]. lia.
  - specialize (IH (vowel ch) Ht). lia.
Qed.
Lemma unmark_len l : Forall piece l -> zlen (concat (unmark l)) <= zlen (concat l).
Proof.
  induction 1 as [|ch l H Ht IH]; [cbn; lia|]. unfold unmark in *. cbn [map concat]. rewrite !zlen_app. pose proof (piece1 ch H). destruct (code ch =? 89); [rewrite bs_len; cbn [String.length]|]; lia.
Qed.
Lemma pieces_Forall l : pieces l -> Forall piece l.
Proof. exact (fun H => proj1 H). Qed.
Lemma chars_Forall s : Forall piece (chars s). Proof. apply pieces_Forall, chars_pieces. Qed.
Lemma no_quote_len l : zlen (concat (no_quote l)) <= zlen (concat l).
Proof. destruct l as [|ch l]; [cbn; lia|]. cbn [no_quote]. destruct (code ch =? 39); [|lia]. cbn [concat]. rewrite zlen_app. pose proof (zlen_nonneg ch). lia. Qed.
Lemma no_quote_Forall (P : bytes -> Prop) l : Forall P l -> Forall P (no_quote l).
Proof. destruct l as [|ch l]; [auto|]. intros H. cbn [no_quote]. destruct (code ch =? 39); [exact (Forall_inv_tail H)|exact H]. Qed.

(** valid UTF-8 stays valid UTF-8 *)
Definition ascii (s : bytes) : Prop := Forall (fun b => 0 <= b < 128) s.
Definition asciib (s : bytes) : bool := forallb (fun b => (0 <=? b) && (b <? 128)) s.
Lemma asciib_ok s : asciib s = true -> ascii s.
Proof. intros H. apply Forall_forall. intros b Hb. unfold asciib in H. rewrite forallb_forall in H. specialize (H b Hb). lia. Qed.
Lemma encode_ascii b : 0 <= b < 128 -> encode_rune b = [b].
Proof.
  intros H. assert (valid_rune b = true) as Hv by (unfold valid_rune; lia). unfold encode_rune. rewrite Hv. cbv zeta. destruct (b <? 128) eqn:E2; [reflexivity|lia].
Qed.
Lemma enc_ascii s : ascii s -> enc s = s.
Proof. induction 1 as [|b s H _ IH]; [reflexivity|]. rewrite enc_cons, IH, (encode_ascii b H). reflexivity. Qed.
Lemma ascii_valid s : ascii s -> valid_text s.
Proof. intros H. rewrite <- (enc_ascii s H). apply enc_valid_text. Qed.
Lemma chars_enc l : chars (enc l) = map encode_rune l.
Proof.
  unfold enc. apply chars_concat. assert (forall c, piece (encode_rune c) /\ starts_char (encode_rune c)) as H.
  { intros c. destruct (encode_shape c) as (h & t & -> & Hh & Ht). split; assumption. }
  split; [|destruct l as [|c l]; [constructor|cbn [map tl]]]; apply Forall_map, Forall_forall; intros c' _; apply H.
Qed.
Lemma ascii_clean_str s : ascii s -> clean s.
Proof. destruct 1 as [|b s H _]; [left; reflexivity|right; exact (ascii_clean b H)]. Qed.
Lemma valid_enc w : valid_text w <-> exists l, w = enc l.
Proof. split; [intros H; exists (characters w); exact (valid_text_enc w H)|intros (l & ->); apply enc_valid_text]. Qed.
Lemma valid_strip p s : ascii s -> valid_text (p ++ s) -> valid_text p.
Proof.
  intros Hs H. apply valid_enc in H. destruct H as (l & H). apply (f_equal chars) in H. rewrite chars_app, chars_enc in H by exact (ascii_clean_str s Hs).
  symmetry in H. apply map_eq_app in H. destruct H as (l1 & l2 & -> & H & _). apply valid_enc. exists l1. rewrite <- (concat_chars p), <- H. reflexivity.
Qed.
Lemma valid_app p s : valid_text p -> valid_text s -> valid_text (p ++ s).
Proof. intros Hp Hs. apply valid_enc in Hp, Hs. destruct Hp as (l & ->), Hs as (l' & ->). apply valid_enc. exists (l ++ l'). symmetry. apply enc_app. Qed.
Definition stays (a b : bytes) : Prop := valid_text a -> valid_text b.
Ltac asc := first [apply asciib_ok; vm_compute; reflexivity | apply Forall_nil].
Ltac valid := unfold stays; intros Hv; apply valid_strip in Hv; [|asc]; try exact Hv; try (apply valid_app; [exact Hv|apply ascii_valid; asc]).
Lemma tidy_valid p1 w : stays w (tidy p1 w).
Proof. apply (rules_rel stays); [|exact (fun h => h)]. all_rules; valid. Qed.
Lemma step0_valid w : stays w (step0 w).
Proof. apply (rules_rel stays); [|exact (fun h => h)]. all_rules; valid. Qed.
Lemma step1a_valid w : stays w (step1a w).
Proof. apply (rules_rel stays); [|exact (fun h => h)]. all_rules; valid. Qed.
Lemma step1b_valid p1 w : stays w (step1b p1 w).
Proof. apply (rules_rel stays); [|exact (fun h => h)]. all_rules; valid; apply tidy_valid; exact Hv. Qed.
Lemma step1c_valid w : stays w (step1c w).
Proof. apply (rules_rel stays); [|exact (fun h => h)]. all_rules; valid. Qed.
Lemma step2_valid p1 w : stays w (step2 p1 w).
Proof. apply (rules_rel stays); [|exact (fun h => h)]. all_rules; valid. Qed.
Lemma step3_valid p1 p2 w : stays w (step3 p1 p2 w).
Proof. apply (rules_rel stays); [|exact (fun h => h)]. all_rules; valid. Qed.
Lemma step4_valid p2 w : stays w (step4 p2 w).
Proof. apply (rules_rel stays); [|exact (fun h => h)]. all_rules; valid. Qed.
Lemma step5_valid p1 p2 w : stays w (step5 p1 p2 w).
Proof. apply (rules_rel stays); [|exact (fun h => h)]. all_rules; valid. Qed.
Lemma concat_valid l : Forall valid_text l -> valid_text (concat l).
Proof. induction 1 as [|c l H _ IH]; [apply ascii_valid, Forall_nil|]. cbn [concat]. apply valid_app; assumption. Qed.
Lemma chars_valid w : valid_text w -> Forall valid_text (chars w).
Proof. intros H. apply valid_enc in H. destruct H as (l & ->). rewrite chars_enc. apply Forall_map, Forall_forall. intros c _. apply valid_enc. exists [c]. unfold enc. cbn [map concat]. symmetry. apply app_nil_r. Qed.
Lemma mark_valid l : forall h, Forall valid_text l -> Forall valid_text (mark h l).
Proof. induction l as [|ch l IH]; intros h H; [constructor|]. cbn [mark]. pose proof (Forall_inv H). pose proof (Forall_inv_tail H). destruct (h && _); constructor; auto. apply ascii_valid. asc. Qed.
Lemma unmark_valid l : Forall valid_text l -> Forall valid_text (unmark l).
Proof. intros H. unfold unmark. apply Forall_map. eapply Forall_impl; [|exact H]. intros ch Hc. cbn beta. destruct (code ch =? 89); [apply ascii_valid; asc|exact Hc]. Qed.

Lemma exceptions_ok x : In x exceptions -> zlen (snd x) <= zlen (fst x) /\ snd x <> [] /\ valid_text (snd x) /\ (3 <= length (chars (fst x)))%nat.
Proof.
  assert (forallb (fun x => (zlen (snd x) <=? zlen (fst x)) && negb (beqb (snd x) []) && asciib (snd x) && (3 <=? length (chars (fst x)))%nat) exceptions = true) as H by (vm_compute; reflexivity).
  rewrite forallb_forall in H. intros Hx. specialize (H x Hx). apply andb_true_iff in H. destruct H as (H & H4). apply andb_true_iff in H. destruct H as (H & H3). apply andb_true_iff in H. destruct H as (H1 & H2).
  split; [apply Z.leb_le; exact H1|]. split; [destruct x as [y z]; cbn [snd] in *; intros ->; discriminate H2|]. split; [apply ascii_valid, asciib_ok; exact H3|apply Nat.leb_le; exact H4].
Qed.

(** a stem is empty only if step 0 leaves nothing *)
Definition alive (a b : bytes) : Prop := a <> [] -> b <> [].
Lemma app_ne (p : bytes) c t : p ++ c :: t <> []. Proof. destruct p; discriminate. Qed.
Lemma bs_ne c t : bs (String c t) <> []. Proof. discriminate. Qed.
Ltac ne := unfold alive; intros _; match goal with
  | |- _ ++ _ :: _ <> [] => apply app_ne
  | _ => idtac end.
Lemma tidy_ne p1 w : alive w (tidy p1 w).
Proof. apply (rules_rel alive); [|exact (fun h => h)]. all_rules; ne. Qed.
Lemma step1a_ne w : alive w (step1a w).
Proof. apply (rules_rel alive); [|exact (fun h => h)]. all_rules; ne. intros ->. discriminate E. Qed.
Lemma step1b_ne p1 w : alive w (step1b p1 w).
Proof. apply (rules_rel alive); [|exact (fun h => h)]. all_rules; ne; apply tidy_ne; intros ->; discriminate E. Qed.
Lemma step1c_ne w : alive w (step1c w).
Proof. apply (rules_rel alive); [|exact (fun h => h)]. all_rules; ne. Qed.
Lemma in_ne n p : 0 < n -> inR1 n p = true -> p <> [].
Proof. unfold inR1. intros H E ->. change (zlen []) with 0 in E. lia. Qed.
Lemma step2_ne p1 w : 0 < p1 -> alive w (step2 p1 w).
Proof. intros Hp. apply (rules_rel alive); [|exact (fun h => h)]. all_rules; ne. rewrite app_nil_r. exact (in_ne _ _ Hp E0). Qed.
Lemma step3_ne p1 p2 w : 0 < p1 -> alive w (step3 p1 p2 w).
Proof. intros Hp. apply (rules_rel alive); [|exact (fun h => h)]. all_rules; ne; rewrite app_nil_r; [exact (in_ne _ _ Hp E0)|exact (in_ne _ _ Hp E)..]. Qed.
Lemma step4_ne p2 w : 0 < p2 -> alive w (step4 p2 w).
Proof. intros Hp. apply (rules_rel alive); [|exact (fun h => h)]. all_rules; ne; first [exact (in_ne _ _ Hp E)|exact (in_ne _ _ Hp E0)]. Qed.
Lemma step5_ne p1 p2 w : 0 < p1 -> 0 < p2 -> alive w (step5 p1 p2 w).
Proof.
  intros H1 H2. apply (rules_rel alive); [|exact (fun h => h)]. all_rules; ne; [|exact (in_ne _ _ H2 E0)].
  apply orb_true_iff in E. destruct E as [E|E]; [exact (in_ne _ _ H2 E)|]. apply andb_true_iff in E. exact (in_ne _ _ H1 (proj1 E)).
Qed.
Lemma after_len is l : Forall piece l -> l <> [] -> zlen (concat (StemEnSpec.after is l)) < zlen (concat l).
Proof.
  induction 1 as [|ch l H Ht IH]; [contradiction|]. intros _. cbn [StemEnSpec.after concat]. pose proof (piece_pos ch H). rewrite zlen_app. pose proof (zlen_nonneg (concat l)). destruct (is ch); [lia|].
  destruct l as [|c l]; [cbn; lia|]. specialize (IH ltac:(discriminate)). lia.
Qed.
Lemma after_Forall (P : bytes -> Prop) is l : Forall P l -> Forall P (StemEnSpec.after is l).
Proof. induction 1 as [|ch l H Ht IH]; [constructor|]. cbn [StemEnSpec.after]. destruct (is ch); assumption. Qed.
Lemma after_le is l : Forall piece l -> zlen (concat (StemEnSpec.after is l)) <= zlen (concat l).
Proof. intros H. destruct l as [|c l]; [cbn; lia|]. pose proof (after_len is _ H ltac:(discriminate)). lia. Qed.
Lemma region_len v : v <> [] -> zlen (region v) < zlen v.
Proof.
  intros H. unfold region. pose proof (chars_Forall v) as Hp. pose proof (after_le nonvowel _ (after_Forall _ vowel _ Hp)). pose proof (after_len vowel _ Hp (fun E => H (chars_nil v E))). rewrite concat_chars in *. lia.
Qed.
Lemma region_le v : zlen (region v) <= zlen v.
Proof. destruct v as [|c v]; [cbn; lia|]. pose proof (region_len (c :: v) ltac:(discriminate)). lia. Qed.
Lemma skipn_lt n (v : bytes) s : (0 < n)%nat -> firstn n v = s -> s <> [] -> zlen (skipn n v) < zlen v.
Proof. intros Hn E Hs. destruct n as [|n]; [lia|]. destruct v as [|c v]; [rewrite firstn_nil in E; exfalso; apply Hs; symmetry; exact E|]. cbn [skipn]. rewrite zlen_cons. unfold zlen. rewrite skipn_length. lia. Qed.
Lemma R1_len v : v <> [] -> zlen (R1 v) < zlen v.
Proof.
  intros H. unfold R1. destruct (beqb (firstn 5 v) (bs "gener")) eqn:E1; [apply beqb_true in E1; apply (skipn_lt 5 v _ (Nat.lt_0_succ _) E1); discriminate|].
  destruct (beqb (firstn 6 v) (bs "commun")) eqn:E2; [apply beqb_true in E2; apply (skipn_lt 6 v _ (Nat.lt_0_succ _) E2); discriminate|].
  destruct (beqb (firstn 5 v) (bs "arsen")) eqn:E3; [apply beqb_true in E3; apply (skipn_lt 5 v _ (Nat.lt_0_succ _) E3); discriminate|]. exact (region_len v H).
Qed.
Lemma step0_empty v : step0 v = [] -> v = [] \/ v = bs "'s'" \/ v = bs "'s" \/ v = bs "'".
Proof.
  unfold step0. cbn [rules]. intros H. destruct (strip (bs "'s'") v) as [p|] eqn:E1; [cbn [del] in H; apply strip_some in E1; rewrite H in E1; right; left; exact E1|].
  destruct (strip (bs "'s") v) as [p|] eqn:E2; [cbn [del] in H; apply strip_some in E2; rewrite H in E2; right; right; left; exact E2|].
  destruct (strip (bs "'") v) as [p|] eqn:E3; [cbn [del] in H; apply strip_some in E3; rewrite H in E3; right; right; right; exact E3|]. left. exact H.
Qed.
