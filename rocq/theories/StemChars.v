(** The Snowball run-time on arbitrary byte strings: characters are pieces between boundaries. *)
From Coq Require Import Bool Lia ZifyBool.
From Verif Require Import Base BaseLemmas Text TextProofs TextProofs2 GoMap Snowball StemSpec StemProofs StemFwdProofs.
From Verif Require Import StemEnSpec.
Local Open Scope Z_scope.
Ltac Zify.zify_post_hook ::= Z.div_mod_to_equations.

(** ** pieces *)
Definition piece (ch : bytes) : Prop := match ch with [] => False | _ :: t => Forall (fun b => RuneStart b = false) t end.
Definition clean (s : bytes) : Prop := s = [] \/ starts_char s.
Definition pieces (l : list bytes) : Prop := Forall piece l /\ Forall starts_char (tl l).

Lemma continuation_start b : continuation b = negb (RuneStart b).
Proof. unfold continuation, RuneStart. rewrite negb_involutive. reflexivity. Qed.
Lemma chars_cons b t : exists r ch, chars (b :: t) = (b :: ch) :: r.
Proof. cbn [chars]. destruct (chars t) as [|[|x ch] r]; [eexists _, _; reflexivity..|]. destruct (continuation x); eexists _, _; reflexivity. Qed.
Lemma concat_chars s : concat (chars s) = s.
Proof.
  induction s as [|b t IH]; [reflexivity|]. cbn [chars]. destruct (chars t) as [|[|x ch] r]; [cbn in *; congruence| |].
  - cbn [concat app] in *. rewrite IH. reflexivity.
  - destruct (continuation x); cbn [concat app] in *; rewrite IH; reflexivity.
Qed.
Lemma chars_pieces s : pieces (chars s).
Proof.
  induction s as [|b t (H1 & H2)]; [split; constructor|]. cbn [chars]. destruct (chars t) as [|[|x ch] r].
  - split; cbn [tl]; repeat constructor.
  - exfalso. exact (Forall_inv H1).
  - rewrite continuation_start. destruct (RuneStart x) eqn:Ex; cbn [negb tl] in *.
    + split; [constructor; [constructor|exact H1]|]. constructor; [exact Ex|exact H2].
    + split; [|exact H2]. constructor; [|exact (Forall_inv_tail H1)]. cbn [piece]. constructor; [exact Ex|]. exact (Forall_inv H1).
Qed.
Lemma chars_nil s : chars s = [] -> s = [].
Proof. destruct s as [|b t]; [reflexivity|]. destruct (chars_cons b t) as (r & ch & ->). discriminate. Qed.
Lemma clean_hd s r x ch : clean s -> chars s = (x :: ch) :: r -> RuneStart x = true.
Proof. intros [->|H] Hc; [discriminate|]. destruct s as [|b t]; [destruct H|]. destruct (chars_cons b t) as (r' & ch' & E). rewrite E in Hc. injection Hc as -> _ _. exact H. Qed.
Lemma chars_app p q : clean q -> chars (p ++ q) = chars p ++ chars q.
Proof.
  intros Hq. induction p as [|b p IH]; [reflexivity|]. cbn [app chars]. rewrite IH. destruct (chars p) as [|[|x ch] r] eqn:Ep; cbn [app].
  - apply chars_nil in Ep. subst. cbn [app] in IH. destruct (chars q) as [|[|x ch] r] eqn:Eq; [reflexivity|reflexivity|]. rewrite continuation_start, (clean_hd q r x ch Hq Eq). reflexivity.
  - pose proof (chars_pieces p) as (H1 & _). rewrite Ep in H1. destruct (Forall_inv H1).
  - destruct (continuation x); reflexivity.
Qed.
Lemma pieces_tl ch l : pieces (ch :: l) -> pieces l.
Proof. intros (H1 & H2). split; [exact (Forall_inv_tail H1)|]. cbn [tl] in H2. destruct l as [|c l]; [constructor|]. exact (Forall_inv_tail H2). Qed.
Lemma starts_app a b : starts_char a -> starts_char (a ++ b). Proof. destruct a; [intros []|]. intros H. exact H. Qed.
Lemma clean_concat ch l : pieces (ch :: l) -> clean (concat l).
Proof. intros (_ & H2). cbn [tl] in H2. destruct l as [|c l]; [left; reflexivity|]. right. cbn [concat]. apply starts_app. exact (Forall_inv H2). Qed.
Lemma chars_piece ch : piece ch -> chars ch = [ch].
Proof.
  destruct ch as [|h t]; [intros []|]. cbn [piece]. revert h. induction t as [|x t IH]; intros h Ht; [reflexivity|].
  change (chars (h :: x :: t)) with (match chars (x :: t) with ((y :: _) as ch) :: r => if continuation y then (h :: ch) :: r else [h] :: ch :: r | r => [h] :: r end).
  rewrite IH by exact (Forall_inv_tail Ht). rewrite continuation_start. pose proof (Forall_inv Ht) as Hx. cbn beta in Hx. rewrite Hx. reflexivity.
Qed.
Lemma chars_concat l : pieces l -> chars (concat l) = l.
Proof.
  induction l as [|ch l IH]; [reflexivity|]. intros H. cbn [concat]. rewrite chars_app by exact (clean_concat ch l H). rewrite (IH (pieces_tl ch l H)), chars_piece by exact (Forall_inv (proj1 H)). reflexivity.
Qed.
Lemma chars_uncons s ch l : chars s = ch :: l -> piece ch /\ clean (concat l) /\ s = ch ++ concat l /\ chars (concat l) = l.
Proof.
  intros H. pose proof (chars_pieces s) as Hp. rewrite H in Hp. pose proof (concat_chars s) as Hs. rewrite H in Hs. cbn [concat] in Hs.
  split; [exact (Forall_inv (proj1 Hp))|]. split; [exact (clean_concat ch l Hp)|]. split; [symmetry; exact Hs|]. apply chars_concat. exact (pieces_tl ch l Hp).
Qed.
Lemma pieces_init l ch : pieces (l ++ [ch]) -> pieces l /\ piece ch /\ (l = [] \/ starts_char ch).
Proof.
  intros (H1 & H2). apply Forall_app in H1. destruct H1 as (H1 & H3). split; [|split; [exact (Forall_inv H3)|]].
  - split; [exact H1|]. destruct l as [|c l]; [constructor|]. cbn [app tl] in *. apply Forall_app in H2. exact (proj1 H2).
  - destruct l as [|c l]; [left; reflexivity|right]. cbn [app tl] in H2. apply Forall_app in H2. exact (Forall_inv (proj2 H2)).
Qed.
Lemma chars_unsnoc p l ch : chars p = l ++ [ch] -> piece ch /\ (l = [] \/ starts_char ch) /\ p = concat l ++ ch /\ chars (concat l) = l.
Proof.
  intros H. pose proof (chars_pieces p) as Hp. rewrite H in Hp. destruct (pieces_init l ch Hp) as (H1 & H2 & H3). pose proof (concat_chars p) as Hs. rewrite H, concat_app in Hs. cbn [concat] in Hs. rewrite app_nil_r in Hs.
  split; [exact H2|]. split; [exact H3|]. split; [symmetry; exact Hs|]. apply chars_concat. exact H1.
Qed.
Lemma rev_snoc {A} (l : list A) x r : rev l = x :: r -> l = rev r ++ [x].
Proof. intros H. rewrite <- (rev_involutive l), H. reflexivity. Qed.
Lemma chars_len s : (length (chars s) <= length s)%nat.
Proof.
  rewrite <- (concat_chars s) at 2. destruct (chars_pieces s) as (H & _). induction H as [|ch l Hc Hl IH]; [reflexivity|]. cbn [concat length]. rewrite app_length. destruct ch; [destruct Hc|]. cbn [length]. lia.
Qed.
Lemma piece_pos ch : piece ch -> 0 < zlen ch. Proof. destruct ch; [intros []|]. intros _. rewrite zlen_cons. pose proof (zlen_nonneg ch). lia. Qed.

(** decoding looks no further than the piece *)
Lemma cont_not_start lo hi b : 128 <= lo -> hi <= 191 -> cont lo hi b = true -> RuneStart b = false.
Proof.
  intros Hl Hh H. unfold cont in H. assert (128 <= b <= 191) as Hb by lia. unfold RuneStart. assert (forallb (fun x => Z.land x 192 =? 128) (map Z.of_nat (seq 128 64)) = true) as Hall by (vm_compute; reflexivity).
  rewrite forallb_forall in Hall. rewrite Hall; [reflexivity|]. apply in_map_iff. exists (Z.to_nat b). split; [lia|apply in_seq; lia].
Qed.
Lemma start_not_cont lo hi b : 128 <= lo -> hi <= 191 -> RuneStart b = true -> cont lo hi b = false.
Proof. intros Hl Hh Hs. destruct (cont lo hi b) eqn:E; [|reflexivity]. rewrite (cont_not_start lo hi b Hl Hh E) in Hs. discriminate. Qed.
Lemma code_app ch s : piece ch -> clean s -> fst (decode_rune (ch ++ s)) = code ch.
Proof.
  intros Hp Hs. unfold code. destruct Hs as [->|Hs]; [rewrite app_nil_r; reflexivity|]. destruct s as [|x s]; [destruct Hs|]. cbn [starts_char] in Hs.
  destruct ch as [|a t]; [destruct Hp|]. cbn [app]. unfold decode_rune.
  destruct (a <? 128); [reflexivity|]. destruct (a <? 194); [reflexivity|].
  destruct (a <? 224).
  { destruct t as [|b t]; cbn [app]; [rewrite (start_not_cont 128 191 x) by (lia || exact Hs)|]; reflexivity. }
  destruct (a <? 240).
  { destruct t as [|b [|c t]]; cbn [app]; try reflexivity.
    - destruct s as [|y s]; [reflexivity|]. rewrite (start_not_cont _ _ x); [reflexivity|destruct (a =? 224); lia|destruct (a =? 237); lia|exact Hs].
    - rewrite (start_not_cont 128 191 x) by (lia || exact Hs). rewrite andb_false_r. reflexivity. }
  destruct (a <? 245); [|reflexivity].
  destruct t as [|b [|c [|d t]]]; cbn [app]; try reflexivity.
  - destruct s as [|y [|z s]]; try reflexivity. rewrite (start_not_cont _ _ x); [reflexivity|destruct (a =? 240); lia|destruct (a =? 244); lia|exact Hs].
  - destruct s as [|y s]; try reflexivity. rewrite (start_not_cont 128 191 x) by (lia || exact Hs). rewrite andb_false_r. reflexivity.
  - rewrite (start_not_cont 128 191 x) by (lia || exact Hs). rewrite andb_false_r. reflexivity.
Qed.

(** ** forwards *)
Definition fw (a s : bytes) (e : env) : Prop := cur e = a ++ s /\ Cursor e = zlen a /\ Limit e = zlen (a ++ s).
Lemma next_piece a ch s : piece ch -> clean s -> next_char (a ++ ch ++ s) (zlen a) = zlen (a ++ ch).
Proof.
  intros Hp Hs. destruct ch as [|h t]; [destruct Hp|]. unfold next_char. replace (zlen a + 1) with (zlen (a ++ [h])) by (rewrite zlen_app; reflexivity).
  replace (a ++ (h :: t) ++ s) with ((a ++ [h]) ++ t ++ s) by (rewrite <- app_assoc; reflexivity).
  rewrite up_skip; [rewrite <- app_assoc; reflexivity|exact Hp|destruct a; discriminate| |exact Hs]. rewrite !app_length. cbn [length]. lia.
Qed.
Lemma fw_next a s e ch l : fw a s e -> chars s = ch :: l -> NextChar e = set_Cursor (zlen (a ++ ch)) e /\ fw (a ++ ch) (concat l) (NextChar e).
Proof.
  intros (H1 & H2 & H3) Hc. destruct (chars_uncons s ch l Hc) as (Hp & Hcl & Hs & Hl). unfold NextChar. rewrite H1, H2, Hs, next_piece by assumption. split; [reflexivity|].
  unfold fw. cbn [cur Cursor Limit set_Cursor]. rewrite <- app_assoc, <- Hs. split; [exact H1|]. split; [reflexivity|exact H3].
Qed.
Lemma fw_limit a s e : fw a s e -> (Limit e <=? Cursor e) = match chars s with [] => true | _ => false end.
Proof.
  intros (H1 & H2 & H3). rewrite H2, H3, zlen_app. destruct s as [|b t]; [cbn [chars]; change (zlen (@nil Z)) with 0; lia|]. destruct (chars_cons b t) as (r & ch & ->). rewrite zlen_cons. pose proof (zlen_nonneg t). lia.
Qed.
Lemma fw_slice a s e : fw a s e -> slice (cur e) (Cursor e) (zlen (cur e)) = Ret s.
Proof. intros (H1 & H2 & H3). rewrite H1, H2. apply slice_tail; reflexivity. Qed.
Lemma fw_code a s e ch l : fw a s e -> chars s = ch :: l -> fst (decode_rune s) = code ch.
Proof. intros _ Hc. destruct (chars_uncons s ch l Hc) as (Hp & Hcl & Hs & _). rewrite Hs. apply code_app; assumption. Qed.

Definition ftests (test : env -> res (bool * env)) (P : bytes -> bool) : Prop := forall a s e, fw a s e ->
  test e = match chars s with ch :: _ => if P ch then Ret (true, NextChar e) else Ret (false, e) | [] => Ret (false, e) end.
Lemma in_ftests g lo hi P : group_pred g lo hi P -> ftests (InGrouping g lo hi) (fun ch => negb (code ch =? RuneError) && (lo <=? code ch) && (code ch <=? hi) && P (code ch)).
Proof.
  intros Hg a s e Hf. unfold InGrouping. rewrite (fw_limit a s e Hf). destruct (chars s) as [|ch l] eqn:Ec; [reflexivity|]. rewrite (fw_slice a s e Hf). cbn [bind]. rewrite (fw_code a s e ch l Hf Ec).
  set (c := code ch). destruct (c =? RuneError); [reflexivity|]. cbn [negb andb]. destruct ((hi <? c) || (c <? lo)) eqn:E.
  - replace ((lo <=? c) && (c <=? hi)) with false by lia. reflexivity.
  - replace ((lo <=? c) && (c <=? hi)) with true by lia. rewrite Hg by lia. cbn [bind andb]. reflexivity.
Qed.
Lemma out_ftests g lo hi P : group_pred g lo hi P -> ftests (OutGrouping g lo hi) (fun ch => negb (code ch =? RuneError) && negb ((lo <=? code ch) && (code ch <=? hi) && P (code ch))).
Proof.
  intros Hg a s e Hf. unfold OutGrouping. rewrite (fw_limit a s e Hf). destruct (chars s) as [|ch l] eqn:Ec; [reflexivity|]. rewrite (fw_slice a s e Hf). cbn [bind]. rewrite (fw_code a s e ch l Hf Ec).
  set (c := code ch). destruct (c =? RuneError); [reflexivity|]. cbn [negb andb]. destruct ((hi <? c) || (c <? lo)) eqn:E.
  - replace ((lo <=? c) && (c <=? hi)) with false by lia. reflexivity.
  - replace ((lo <=? c) && (c <=? hi)) with true by lia. rewrite Hg by lia. cbn [bind andb]. destruct (P c); reflexivity.
Qed.
Lemma ftests_ext test P Q : (forall c, P c = Q c) -> ftests test P -> ftests test Q.
Proof. intros He Ht a s e Hf. rewrite (Ht a s e Hf). destruct (chars s) as [|c l]; [reflexivity|]. rewrite (He c). reflexivity. Qed.
Lemma go_past_fw test P : ftests test P -> forall fuel a s e, fw a s e -> (length (chars s) < fuel)%nat ->
  exists a', a ++ s = a' ++ concat (StemEnSpec.after P (chars s)) /\ chars (concat (StemEnSpec.after P (chars s))) = StemEnSpec.after P (chars s) /\
    go_past test fuel e = Ret (existsb P (chars s), set_Cursor (zlen a') e) /\ fw a' (concat (StemEnSpec.after P (chars s))) (set_Cursor (zlen a') e).
Proof.
  intros Ht. induction fuel as [|f IH]; intros a s e Hf Hn; [lia|]. cbn [go_past]. rewrite (Ht a s e Hf). destruct (chars s) as [|ch l] eqn:Ec.
  - cbn [bind existsb StemEnSpec.after]. rewrite (fw_limit a s e Hf), Ec. exists a. apply chars_nil in Ec. subst s. split; [reflexivity|]. split; [reflexivity|]. pose proof Hf as (_ & <- & _). rewrite set_Cursor_same. split; [reflexivity|exact Hf].
  - destruct (fw_next a s e ch l Hf Ec) as (Hn1 & Hn2). destruct (chars_uncons s ch l Ec) as (Hp & Hcl & Hs & Hl). cbn [existsb StemEnSpec.after]. destruct (P ch) eqn:Ep; cbn [bind].
    + exists (a ++ ch). split; [rewrite Hs, <- app_assoc at 1; reflexivity|]. split; [exact Hl|]. rewrite <- Hn1. split; [reflexivity|exact Hn2].
    + rewrite (fw_limit a s e Hf), Ec. destruct (IH (a ++ ch) (concat l) (NextChar e) Hn2) as (a' & E1 & E2 & E3 & E4); [rewrite Hl; cbn in Hn; lia|]. rewrite Hl in *.
      exists a'. split; [rewrite <- E1, Hs, <- app_assoc at 1; reflexivity|]. split; [exact E2|]. split; [rewrite E3, Hn1; reflexivity|]. rewrite Hn1 in E4. exact E4.
Qed.
Lemma fw_fuel a s e : fw a s e -> (length (chars s) < fuel_of e)%nat.
Proof. intros (H & _). unfold fuel_of. rewrite H, app_length. pose proof (chars_len s). lia. Qed.

(** a character as a string of one ASCII byte *)
Lemma code_ascii b t : b < 128 -> code (b :: t) = b.
Proof. intros H. unfold code, decode_rune. replace (b <? 128) with true by lia. reflexivity. Qed.

Lemma code_small b t : code (b :: t) < 128 -> b = code (b :: t).
Proof.
  unfold code. intros H. assert (b :: t <> []) as Hne by discriminate. pose proof (decode_shape (b :: t) Hne) as Hs.
  destruct (decode_rune (b :: t)) as [c w]. cbn [fst] in *. inversion Hs as [E|a t' E Ha E2|a b' t' E Ha Hb E2|a b' c' t' E Ha Hb Hc E2|a b' c' d t' E Ha Hb Hc Hd E2]; subst.
  - discriminate.
  - injection E as -> _. reflexivity.
  - injection E as -> ->. exfalso. clear Hs Hne. lia.
  - exfalso. clear Hs. destruct (Z.eqb_spec a 224); destruct (Z.eqb_spec a 237); lia.
  - exfalso. clear Hs. destruct (Z.eqb_spec a 240); destruct (Z.eqb_spec a 244); lia.
Qed.
Lemma ascii_clean d : 0 <= d < 128 -> RuneStart d = true.
Proof.
  intros H. assert (forallb RuneStart (map Z.of_nat (seq 0 128)) = true) as Hall by (vm_compute; reflexivity). rewrite forallb_forall in Hall. apply Hall. apply in_map_iff. exists (Z.to_nat d). split; [lia|apply in_seq; lia].
Qed.
Lemma eqs_fw a s d e : fw a s e -> 0 <= d < 128 ->
  EqS [d] e = match chars s with ch :: _ => if code ch =? d then Ret (true, NextChar e) else Ret (false, e) | [] => Ret (false, e) end.
Proof.
  intros Hf Hd. unfold EqS. rewrite (fw_limit a s e Hf). destruct (chars s) as [|ch l] eqn:Ec; [reflexivity|]. rewrite (fw_slice a s e Hf). cbn [bind]. destruct (chars_uncons s ch l Ec) as (Hp & Hcl & Hs & Hl).
  destruct ch as [|b t]; [destruct Hp|]. destruct (code (b :: t) =? d) eqn:E.
  - apply Z.eqb_eq in E. assert (b = d) as -> by (rewrite <- E; apply code_small; lia).
    rewrite (proj2 (has_prefix_ok s [d])) by (exists (t ++ concat l); exact Hs). destruct Hf as (H1 & H2 & H3). unfold NextChar, next_char. rewrite H2. change (zlen [d]) with 1. reflexivity.
  - apply Z.eqb_neq in E. destruct (has_prefix s [d]) eqn:Eh; [|reflexivity]. exfalso. apply has_prefix_ok in Eh. destruct Eh as (u & Eu). rewrite Eu in Hs. injection Hs as -> _. apply E. apply code_ascii. lia.
Qed.

(** replacing throughout *)
Section Repeat.
  Variables (find : env -> res (bool * env)) (to : bytes) (F : list bytes -> list bytes) (G : list bytes -> bool) (weight : list bytes -> nat).
  Hypothesis Hto : piece to /\ starts_char to.
  Hypothesis Hfind : forall a s e, fw a s e -> exists ok e', find e = Ret (ok, e') /\ cur e' = cur e /\ Limit e' = Limit e /\ LimitBackward e' = LimitBackward e /\
    (ok = true -> exists k x r, chars s = k ++ x :: r /\ Bra e' = zlen (a ++ concat k) /\ Ket e' = zlen (a ++ concat k ++ x) /\
       F (chars s) = F (k ++ to :: r) /\ G (chars s) = true /\ (weight (k ++ to :: r) < weight (chars s))%nat) /\
    (ok = false -> match chars s with c :: t => F (c :: t) = c :: F t /\ G (c :: t) = G t /\ (weight t <= weight (c :: t))%nat | [] => F [] = [] /\ G [] = false end).

  Lemma goto_fw : forall fuel a s e, fw a s e -> (length (chars s) < fuel)%nat ->
    exists ok e', goto_find find fuel e = Ret (ok, e') /\ cur e' = cur e /\ Limit e' = Limit e /\ LimitBackward e' = LimitBackward e /\
    (ok = true -> exists l0 k x r, chars s = l0 ++ k ++ x :: r /\ Cursor e' = zlen (a ++ concat l0) /\ Bra e' = zlen (a ++ concat l0 ++ concat k) /\ Ket e' = zlen (a ++ concat l0 ++ concat k ++ x) /\
       F (chars s) = l0 ++ F (k ++ to :: r) /\ G (chars s) = true /\ (weight (k ++ to :: r) < weight (chars s))%nat) /\
    (ok = false -> F (chars s) = chars s /\ G (chars s) = false).
  Proof.
    induction fuel as [|f IH]; intros a s e Hf Hn; [lia|]. cbn [goto_find]. destruct (Hfind a s e Hf) as (ok & e1 & -> & H1 & H2 & H3 & Hy & Hno). cbn [bind].
    assert (fw a s (set_Cursor (Cursor e) e1)) as Hf1 by (destruct Hf as (F1 & F2 & F3); split; [cbn; congruence|]; split; [exact F2|cbn; congruence]).
    destruct ok.
    - eexists true, _. split; [reflexivity|]. split; [exact H1|]. split; [exact H2|]. split; [exact H3|]. split; [|discriminate]. intros _.
      destruct (Hy eq_refl) as (k & x & r & Hc & Hb & Hk & HF & HG & Hw). exists [], k, x, r. cbn [app concat]. rewrite app_nil_r. split; [exact Hc|]. split; [exact (proj1 (proj2 Hf1))|]. auto.
    - specialize (Hno eq_refl). rewrite (fw_limit a s _ Hf1). destruct (chars s) as [|c l] eqn:Ec.
      + eexists false, _. split; [reflexivity|]. split; [exact H1|]. split; [exact H2|]. split; [exact H3|]. split; [discriminate|]. intros _. exact Hno.
      + destruct (fw_next a s _ c l Hf1 Ec) as (_ & Hn2). destruct (chars_uncons s c l Ec) as (_ & _ & _ & Hl). destruct (IH (a ++ c) (concat l) _ Hn2) as (ok & e' & -> & G1 & G2 & G3 & Gy & Gn); [rewrite Hl; cbn in Hn; lia|]. rewrite Hl in *.
        cbn [cur Limit LimitBackward NextChar set_Cursor] in G1, G2, G3. exists ok, e'. split; [reflexivity|]. split; [congruence|]. split; [congruence|]. split; [congruence|]. destruct Hno as (N1 & N2 & N3). split.
        * intros Hok. destruct (Gy Hok) as (l0 & k & x & r & Hc & Hcu & Hb & Hk & HF & HG & Hw). exists (c :: l0), k, x, r. cbn [app concat]. rewrite <- !app_assoc in *. split; [rewrite Hc; reflexivity|]. split; [exact Hcu|]. split; [exact Hb|]. split; [exact Hk|].
          split; [rewrite N1, HF; reflexivity|]. split; [rewrite N2; exact HG|]. lia.
        * intros Hok. destruct (Gn Hok) as (N4 & N5). rewrite N1, N2, N4, N5. auto.
  Qed.
  Lemma pieces_swap l0 x r : pieces (l0 ++ x :: r) -> pieces (l0 ++ to :: r).
  Proof.
    intros (H1 & H2). destruct Hto as (T1 & T2). apply Forall_app in H1. destruct H1 as (H1 & H3). split.
    - apply Forall_app. split; [exact H1|]. constructor; [exact T1|exact (Forall_inv_tail H3)].
    - destruct l0 as [|c l0]; cbn [app tl] in *; [exact H2|]. apply Forall_app in H2. destruct H2 as (H2 & H4). apply Forall_app. split; [exact H2|]. constructor; [exact T2|exact (Forall_inv_tail H4)].
  Qed.
  Lemma repeat_fw : forall fuel found a s e, fw a s e -> (weight (chars s) < fuel)%nat ->
    exists e', repeat_replace find to fuel found e = Ret (found || G (chars s), e') /\ cur e' = a ++ concat (F (chars s)) /\ Limit e' = zlen (cur e') /\ LimitBackward e' = LimitBackward e.
  Proof.
    induction fuel as [|f IH]; intros found a s e Hf Hn; [lia|]. cbn [repeat_replace].
    destruct (goto_fw (fuel_of e) a s e Hf (fw_fuel a s e Hf)) as (ok & e1 & -> & H1 & H2 & H3 & Hy & Hno). cbn [bind]. destruct ok.
    - destruct (Hy eq_refl) as (l0 & k & x & r & Hc & Hcu & Hb & Hk & HF & HG & Hw).
      pose proof (chars_pieces s) as Hps. rewrite Hc, app_assoc in Hps. pose proof (pieces_swap _ _ _ Hps) as Hps2.
      assert (cur e1 = (a ++ concat l0 ++ concat k) ++ x ++ concat r) as Hcur.
      { rewrite H1. destruct Hf as (-> & _). rewrite <- (concat_chars s), Hc, !concat_app. cbn [concat]. rewrite <- !app_assoc. reflexivity. }
      assert (Ket e1 = zlen ((a ++ concat l0 ++ concat k) ++ x)) as Hk2 by (rewrite Hk, <- !app_assoc; reflexivity).
      unfold SliceFrom. rewrite (ReplaceS_split _ x (concat r) to e1 (Bra e1) (Ket e1) Hcur Hb Hk2). cbn [bind]. set (e2 := mkEnv _ _ _ _ _ _).
      assert (piece x) as Hpx by (destruct Hps as (P1 & _); apply Forall_app in P1; exact (Forall_inv (proj2 P1))).
      assert (fw (a ++ concat l0) (concat (k ++ to :: r)) e2) as Hf2.
      { split; [|split].
        - unfold e2. cbn [cur]. rewrite concat_app. cbn [concat]. rewrite <- !app_assoc. reflexivity.
        - unfold e2. cbn [Cursor]. rewrite Hcu, Hk, Hb. pose proof (piece_pos x Hpx). rewrite !zlen_app. pose proof (zlen_nonneg (concat k)).
          replace (zlen a + (zlen (concat l0) + (zlen (concat k) + zlen x)) <=? zlen a + zlen (concat l0)) with false by lia.
          replace (zlen a + (zlen (concat l0) + zlen (concat k)) <? zlen a + zlen (concat l0)) with false by lia. reflexivity.
        - unfold e2. cbn [Limit]. rewrite H2. destruct Hf as (_ & _ & ->). rewrite <- (concat_chars s), Hc, !concat_app. cbn [concat]. rewrite !zlen_app. ring. }
      assert (chars (concat (k ++ to :: r)) = k ++ to :: r) as Hch.
      { apply chars_concat. destruct l0 as [|c0 l0]; [exact Hps2|]. rewrite <- app_assoc in Hps2. destruct Hps2 as (P1 & P2). apply Forall_app in P1. split; [exact (proj2 P1)|].
        cbn [app tl] in P2. apply Forall_app in P2. destruct P2 as (_ & P2). destruct (k ++ to :: r); [constructor|exact (Forall_inv_tail P2)]. }
      destruct (IH true (a ++ concat l0) (concat (k ++ to :: r)) e2 Hf2) as (e' & -> & R1 & R2 & R3); [rewrite Hch; lia|]. rewrite Hch in *.
      exists e'. rewrite HG, orb_true_r. split; [reflexivity|]. split; [|split; [exact R2|rewrite R3; exact H3]]. rewrite R1, HF, concat_app, <- app_assoc. reflexivity.
    - destruct (Hno eq_refl) as (N1 & N2). eexists. rewrite N2, orb_false_r, N1, concat_chars. split; [reflexivity|]. cbn [cur Limit LimitBackward set_Cursor]. rewrite H1, H2. destruct Hf as (-> & _ & ->). auto.
  Qed.
End Repeat.

(** ** backwards *)
Definition bw (p q : bytes) (e : env) : Prop := cur e = p ++ q /\ Cursor e = zlen p /\ Limit e = zlen (p ++ q) /\ LimitBackward e = 0 /\ (p = [] \/ clean q).
Lemma nth_mid (a : bytes) x q : nth (Z.to_nat (zlen a)) (a ++ x :: q) 0 = x.
Proof. unfold zlen. rewrite Nat2Z.id, app_nth2, Nat.sub_diag by lia. reflexivity. Qed.
Lemma down_skip : forall t fuel a h q, Forall (fun b => RuneStart b = false) t -> (a = [] \/ RuneStart h = true) -> (length t < fuel)%nat ->
  down_to_boundary fuel (a ++ (h :: t) ++ q) (zlen (a ++ h :: t) - 1) = zlen a.
Proof.
  intros t. induction t as [|x t IH] using rev_ind; intros fuel a h q Ht Hh Hf; (destruct fuel as [|f]; [lia|]); cbn [down_to_boundary].
  - rewrite zlen_app. change (zlen [h]) with 1. replace (zlen a + 1 - 1) with (zlen a) by ring. cbn [app].
    assert (onCharBoundary (a ++ h :: q) (zlen a) = true) as ->; [|reflexivity]. unfold onCharBoundary. rewrite nth_mid. destruct Hh as [->| ->]; [reflexivity|apply orb_true_r].
  - apply Forall_app in Ht. destruct Ht as (Ht & Hx). pose proof (Forall_inv Hx) as Hx0. cbn beta in Hx0.
    replace (zlen (a ++ h :: t ++ [x]) - 1) with (zlen (a ++ h :: t)) by (rewrite !zlen_app, !zlen_cons, zlen_app; change (zlen [x]) with 1; ring).
    replace (a ++ (h :: t ++ [x]) ++ q) with ((a ++ h :: t) ++ x :: q) by (rewrite <- !app_assoc; cbn [app]; rewrite <- app_assoc; reflexivity).
    assert (onCharBoundary ((a ++ h :: t) ++ x :: q) (zlen (a ++ h :: t)) = false) as ->.
    { unfold onCharBoundary. rewrite nth_mid, Hx0, zlen_app, zlen_cons, (zlen_app _ (x :: q)), zlen_app, !zlen_cons. pose proof (zlen_nonneg a). pose proof (zlen_nonneg t). pose proof (zlen_nonneg q). lia. }
    replace ((a ++ h :: t) ++ x :: q) with (a ++ (h :: t) ++ x :: q) by (rewrite <- app_assoc; reflexivity). apply IH; [exact Ht|exact Hh|]. rewrite app_length in Hf. cbn in Hf. lia.
Qed.
Lemma prev_piece a ch q : piece ch -> (a = [] \/ starts_char ch) -> prev_char (a ++ ch ++ q) (zlen (a ++ ch)) = zlen a.
Proof.
  destruct ch as [|h t]; [intros []|]. cbn [piece starts_char]. intros Ht Hh. unfold prev_char. apply down_skip; [exact Ht|exact Hh|]. rewrite !app_length. cbn [length]. lia.
Qed.
Lemma concat_nil_pieces l : pieces l -> concat l = [] -> l = [].
Proof. intros (H & _) Hc. destruct l as [|c l]; [reflexivity|]. pose proof (Forall_inv H) as Hp. destruct c; [destruct Hp|discriminate]. Qed.
Lemma bw_unsnoc p q l ch : chars p = l ++ [ch] -> (p = [] \/ clean q) -> clean q /\ p = concat l ++ ch /\ chars (concat l) = l /\ piece ch /\ (concat l = [] \/ starts_char ch).
Proof.
  intros Hc Hq. destruct (chars_unsnoc p l ch Hc) as (H1 & H2 & H3 & H4). split; [destruct Hq as [->|Hq]; [destruct l; discriminate|exact Hq]|]. split; [exact H3|]. split; [exact H4|]. split; [exact H1|]. destruct H2 as [->|H2]; [left; reflexivity|right; exact H2].
Qed.
Lemma bw_prev p q e l ch : bw p q e -> chars p = l ++ [ch] -> PrevChar e = set_Cursor (zlen (concat l)) e.
Proof.
  intros (H1 & H2 & H3 & H4 & H5) Hc. destruct (bw_unsnoc p q l ch Hc H5) as (Hq & -> & _ & Hp & Hs). unfold PrevChar. rewrite H1, H2, <- app_assoc, prev_piece by assumption. reflexivity.
Qed.
Lemma bw_back p q e l ch : bw p q e -> chars p = l ++ [ch] -> NextChar (PrevChar e) = e.
Proof.
  intros Hb Hc. rewrite (bw_prev p q e l ch Hb Hc). destruct Hb as (H1 & H2 & H3 & H4 & H5). destruct (bw_unsnoc p q l ch Hc H5) as (Hq & -> & _ & Hp & Hs). unfold NextChar. cbn [cur Cursor set_Cursor]. rewrite H1, <- app_assoc, next_piece by assumption.
  rewrite <- H2. apply (set_Cursor_same e).
Qed.
Lemma bw_slice p q e l ch : bw p q e -> chars p = l ++ [ch] -> slice (cur (PrevChar e)) (Cursor (PrevChar e)) (zlen (cur (PrevChar e))) = Ret (ch ++ q).
Proof.
  intros Hb Hc. rewrite (bw_prev p q e l ch Hb Hc). destruct Hb as (H1 & H2 & H3 & H4 & H5). destruct (bw_unsnoc p q l ch Hc H5) as (Hq & -> & _ & Hp & Hs). cbn [cur Cursor set_Cursor]. rewrite H1, <- app_assoc. apply slice_tail; reflexivity.
Qed.
Lemma bw_limit p q e : bw p q e -> (Cursor e <=? LimitBackward e) = match rev (chars p) with [] => true | _ => false end.
Proof.
  intros (H1 & H2 & H3 & H4 & H5). rewrite H2, H4. destruct (rev (chars p)) as [|ch l] eqn:Er.
  - replace p with (@nil Z); [reflexivity|]. symmetry. apply chars_nil. apply length_zero_iff_nil. rewrite <- rev_length, Er. reflexivity.
  - destruct p as [|b t]; [discriminate|]. rewrite zlen_cons. pose proof (zlen_nonneg t). lia.
Qed.
(* one character back *)
Lemma bw_step p q e l ch : bw p q e -> rev (chars p) = ch :: l ->
  bw (concat (rev l)) (ch ++ q) (set_Cursor (zlen p - zlen ch) e) /\ p = concat (rev l) ++ ch /\ chars (concat (rev l)) = rev l /\ piece ch.
Proof.
  intros (H1 & H2 & H3 & H4 & H5) Hr. apply rev_snoc in Hr. destruct (bw_unsnoc p q (rev l) ch Hr H5) as (Hq & Hp & Hl & Hpc & Hs). split; [|auto].
  subst p. split; [cbn; rewrite H1, <- app_assoc; reflexivity|]. split; [cbn; rewrite zlen_app; ring|]. split; [cbn; rewrite H3, <- app_assoc; reflexivity|]. split; [exact H4|]. destruct Hs as [Hs|Hs]; [left; exact Hs|right; right; apply starts_app; exact Hs].
Qed.
Definition btests (test : env -> res (bool * env)) (P : bytes -> bool) : Prop := forall p q e, bw p q e ->
  test e = match rev (chars p) with ch :: _ => if P ch then Ret (true, set_Cursor (zlen p - zlen ch) e) else Ret (false, e) | [] => Ret (false, e) end.
Lemma in_btests g lo hi P : group_pred g lo hi P -> btests (InGroupingB g lo hi) (fun ch => negb (code ch =? RuneError) && (lo <=? code ch) && (code ch <=? hi) && P (code ch)).
Proof.
  intros Hg p q e Hb. unfold InGroupingB. rewrite (bw_limit p q e Hb). destruct (rev (chars p)) as [|ch l] eqn:Er; [reflexivity|]. apply rev_snoc in Er.
  rewrite (bw_slice p q e (rev l) ch Hb Er), (bw_back p q e (rev l) ch Hb Er). cbn [bind].
  destruct (bw_unsnoc p q (rev l) ch Er (proj2 (proj2 (proj2 (proj2 Hb))))) as (Hq & Hp & _ & Hpc & _). rewrite (code_app ch q Hpc Hq).
  rewrite (bw_prev p q e (rev l) ch Hb Er). replace (zlen (concat (rev l))) with (zlen p - zlen ch) by (rewrite Hp, zlen_app; ring).
  set (c := code ch). destruct (c =? RuneError); [reflexivity|]. cbn [negb andb]. destruct ((hi <? c) || (c <? lo)) eqn:E.
  - replace ((lo <=? c) && (c <=? hi)) with false by lia. reflexivity.
  - replace ((lo <=? c) && (c <=? hi)) with true by lia. rewrite Hg by lia. cbn [bind andb]. reflexivity.
Qed.
Lemma out_btests g lo hi P : group_pred g lo hi P -> btests (OutGroupingB g lo hi) (fun ch => negb (code ch =? RuneError) && negb ((lo <=? code ch) && (code ch <=? hi) && P (code ch))).
Proof.
  intros Hg p q e Hb. unfold OutGroupingB. rewrite (bw_limit p q e Hb). destruct (rev (chars p)) as [|ch l] eqn:Er; [reflexivity|]. apply rev_snoc in Er.
  rewrite (bw_slice p q e (rev l) ch Hb Er), (bw_back p q e (rev l) ch Hb Er). cbn [bind].
  destruct (bw_unsnoc p q (rev l) ch Er (proj2 (proj2 (proj2 (proj2 Hb))))) as (Hq & Hp & _ & Hpc & _). rewrite (code_app ch q Hpc Hq).
  rewrite (bw_prev p q e (rev l) ch Hb Er). replace (zlen (concat (rev l))) with (zlen p - zlen ch) by (rewrite Hp, zlen_app; ring).
  set (c := code ch). destruct (c =? RuneError); [reflexivity|]. cbn [negb andb]. destruct ((hi <? c) || (c <? lo)) eqn:E.
  - replace ((lo <=? c) && (c <=? hi)) with false by lia. reflexivity.
  - replace ((lo <=? c) && (c <=? hi)) with true by lia. rewrite Hg by lia. cbn [bind andb]. destruct (P c); reflexivity.
Qed.
Lemma btests_ext test P Q : (forall c, P c = Q c) -> btests test P -> btests test Q.
Proof. intros He Ht p q e Hb. rewrite (Ht p q e Hb). destruct (rev (chars p)) as [|c l]; [reflexivity|]. rewrite (He c). reflexivity. Qed.

Lemma go_past_b_bw test P : btests test P -> forall fuel p q e, bw p q e -> (length (chars p) < fuel)%nat ->
  exists c, go_past_b test fuel e = Ret (existsb P (chars p), set_Cursor c e) /\ 0 <= c <= Limit e.
Proof.
  intros Ht. induction fuel as [|f IH]; intros p q e Hb Hn; [lia|]. cbn [go_past_b]. rewrite (Ht p q e Hb). pose proof (bw_limit p q e Hb) as Hlim. destruct (rev (chars p)) as [|ch l] eqn:Er.
  - cbn [bind]. rewrite Hlim. exists (Cursor e). rewrite set_Cursor_same. replace (chars p) with (@nil bytes) by (symmetry; apply length_zero_iff_nil; rewrite <- rev_length, Er; reflexivity). split; [reflexivity|].
    destruct Hb as (H1 & H2 & H3 & _). rewrite H2, H3, zlen_app. pose proof (zlen_nonneg p). pose proof (zlen_nonneg q). lia.
  - destruct (bw_step p q e l ch Hb Er) as (Hb2 & Hp & Hl & Hpc). pose proof (rev_snoc _ _ _ Er) as Er'. assert (existsb P (chars p) = P ch || existsb P (rev l)) as -> by (rewrite Er', existsb_app; cbn [existsb]; rewrite orb_false_r; apply orb_comm).
    pose proof (piece_pos ch Hpc) as Hpos. pose proof (zlen_nonneg (concat (rev l))). assert (zlen p - zlen ch = zlen (concat (rev l))) as Hz by (rewrite Hp, zlen_app; ring). destruct (P ch) eqn:Ep; cbn [bind orb].
    + exists (zlen p - zlen ch). split; [reflexivity|]. destruct Hb as (_ & _ & -> & _). rewrite zlen_app. pose proof (zlen_nonneg q). lia.
    + rewrite Hlim. rewrite (bw_prev p q e (rev l) ch Hb Er'), <- Hz. destruct (IH _ _ _ Hb2) as (c & -> & Hc).
      * rewrite Hl, rev_length. rewrite <- rev_length, Er in Hn. cbn in Hn. lia.
      * rewrite Hl. exists c. split; [reflexivity|exact Hc].
Qed.
Lemma bw_fuel p q e : bw p q e -> (length (chars p) < fuel_of e)%nat.
Proof. intros (H & _). unfold fuel_of. rewrite H, app_length. pose proof (chars_len p). lia. Qed.
(* two characters back *)
Lemma prev_zero s : prev_char s 0 = -1.
Proof. unfold prev_char. change (0 - 1) with (-1). destruct (length s); reflexivity. Qed.
Lemma prev_neg s p : p <= 0 -> prev_char s p = p - 1.
Proof. intros Hp. unfold prev_char. destruct (length s) as [|n]; [reflexivity|]. cbn [down_to_boundary]. unfold onCharBoundary. replace (p - 1 <=? 0) with true by lia. reflexivity. Qed.
Lemma hop_back2 p q e : bw p q e -> hop_back 2 e <= Limit e /\ (hop_back 2 e <? 0) = negb (two_chars p).
Proof.
  intros Hb. unfold hop_back, two_chars. change (Nat.iter 2 (prev_char (cur e)) (Cursor e)) with (prev_char (cur e) (prev_char (cur e) (Cursor e))). pose proof Hb as (H1 & H2 & H3 & H4 & H5). destruct (rev (chars p)) as [|ch l] eqn:Er.
  - assert (chars p = []) as Hc by (apply length_zero_iff_nil; rewrite <- rev_length, Er; reflexivity). rewrite Hc. apply chars_nil in Hc. subst p. assert (Cursor e = 0) as H20 by (rewrite H2; reflexivity). rewrite !H20, prev_zero, prev_neg by lia. rewrite H3. pose proof (zlen_nonneg ([] ++ q)). cbn [length Nat.leb negb]. lia.
  - destruct (bw_step p q e l ch Hb Er) as (Hb2 & Hp & Hl & Hpc). pose proof (rev_snoc _ _ _ Er) as Er'. pose proof (bw_prev p q e (rev l) ch Hb Er') as Hpv. apply (f_equal Cursor) in Hpv. unfold PrevChar in Hpv. cbn [Cursor set_Cursor] in Hpv. rewrite Hpv.
    assert (zlen p - zlen ch = zlen (concat (rev l))) as Hz by (rewrite Hp, zlen_app; ring). destruct l as [|ch2 l].
    + cbn [rev concat]. change (zlen []) with 0. rewrite prev_zero, Er', H3. pose proof (zlen_nonneg (p ++ q)). cbn [length rev app Nat.leb negb]. lia.
    + assert (rev (chars (concat (rev (ch2 :: l)))) = ch2 :: l) as Er2 by (rewrite Hl, rev_involutive; reflexivity). destruct (bw_step _ _ _ l ch2 Hb2 Er2) as (Hb3 & Hp2 & Hl2 & Hpc2).
      pose proof (bw_prev _ _ _ (rev l) ch2 Hb2 (rev_snoc _ _ _ Er2)) as Hpv2. apply (f_equal Cursor) in Hpv2. unfold PrevChar in Hpv2. cbn [Cursor set_Cursor cur] in Hpv2. rewrite Hz in Hpv2. rewrite Hpv2.
      rewrite Er', app_length, rev_length. cbn [length]. replace (2 <=? S (length l) + 1)%nat with true by (symmetry; apply Nat.leb_le; lia). cbn [negb]. pose proof (zlen_nonneg (concat (rev l))).
      assert (zlen (concat (rev l)) <= zlen p) as Hle by (rewrite Hp, Hp2, !zlen_app; pose proof (zlen_nonneg ch); pose proof (zlen_nonneg ch2); lia). rewrite H3, zlen_app. pose proof (zlen_nonneg q). lia.
Qed.
