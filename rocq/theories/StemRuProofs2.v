(** The Russian stemmer: the forward phase and the whole. *)
From Coq Require Import ZifyBool.
From Verif Require Import Base BaseLemmas Text TextProofs TextProofs2 AnalysisSpec VGram VGramSpec VGramProofs3 GoMap Snowball StemRu StemSpec StemProofs StemRuProofs StemFwdProofs.
Local Open Scope Z_scope.

Lemma all32 (f : Z -> bool) : forallb f (map Z.of_nat (seq 0 32)) = true -> forall x, 0 <= x < 32 -> f x = true.
Proof. intros H x Hx. rewrite forallb_forall in H. apply H. apply in_map_iff. exists (Z.to_nat x). split; [lia|apply in_seq; lia]. Qed.
Lemma G_v_vowel : group_pred G_v 1072 1103 vowel.
Proof.
  intros r Hr. assert (match in_group G_v (r - 1072) with Ret b => Bool.eqb b (vowel r) | _ => false end = true) as H.
  { replace (vowel r) with (vowel ((r - 1072) + 1072)) by (f_equal; ring).
    apply (all32 (fun x => match in_group G_v x with Ret b => Bool.eqb b (vowel (x + 1072)) | _ => false end)); [vm_compute; reflexivity|lia]. }
  destruct (in_group G_v (r - 1072)) as [b| | |]; try discriminate. apply eqb_prop in H. rewrite H. reflexivity.
Qed.
Lemma vowel_range c : vowel c = true -> 1072 <= c <= 1103.
Proof. unfold vowel. intros H. apply existsb_exists in H. destruct H as (x & Hx & He). apply Z.eqb_eq in He. subst x. cbn [In] in Hx. lia. Qed.
Lemma in_v_tests : tests in_v vowel.
Proof.
  eapply tests_ext; [|exact (in_tests _ _ _ _ G_v_vowel)]. intros c _. cbn beta. destruct (vowel c) eqn:E; [|apply andb_false_r]. pose proof (vowel_range c E). unfold RuneError. lia.
Qed.
Lemma out_v_tests : tests out_v consonant.
Proof.
  eapply tests_ext; [|exact (out_tests _ _ _ _ G_v_vowel)]. intros c _. cbn beta. unfold consonant. destruct (vowel c) eqn:E; [pose proof (vowel_range c E)|]; lia.
Qed.
Lemma G_v_fits : table_fits G_v 1072 1103.
Proof. intros r Hr. rewrite (G_v_vowel r Hr). eexists. reflexivity. Qed.
Lemma in_v_moves : moves_on in_v. Proof. exact (in_moves_on _ _ _ G_v_fits). Qed.
Lemma out_v_moves : moves_on out_v. Proof. exact (out_moves_on _ _ _ G_v_fits). Qed.

(** any bytes *)
Lemma split_at3 (s : bytes) a b : 0 <= a <= b -> b <= zlen s -> exists x m y, s = x ++ m ++ y /\ zlen x = a /\ zlen (x ++ m) = b.
Proof.
  intros H1 H2. exists (firstn (Z.to_nat a) s), (firstn (Z.to_nat (b - a)) (skipn (Z.to_nat a) s)), (skipn (Z.to_nat (b - a)) (skipn (Z.to_nat a) s)).
  split; [rewrite firstn_skipn, firstn_skipn; reflexivity|]. assert (zlen (firstn (Z.to_nat a) s) = a) as Ha by (apply zlen_firstn; lia). split; [exact Ha|].
  rewrite zlen_app, Ha, zlen_firstn; [ring|]. rewrite zlen_skipn; lia.
Qed.
(* a finder that marks an occurrence of [s] at the cursor *)
Definition find_at (s : bytes) (e : env) : res (bool * env) :=
  let e := set_Bra (Cursor e) e in
  '(ok, e) <- EqS s e ;;
  if ok : bool then Ret (true, set_Ket (Cursor e) e) else Ret (false, e).
Lemma eqs_total s e : wf e -> exists ok c, EqS s e = Ret (ok, set_Cursor c e) /\ Cursor e <= c <= Limit e /\
  (ok = true -> Cursor e + zlen s <= c /\ exists x y, cur e = x ++ s ++ y /\ zlen x = Cursor e).
Proof.
  intros (H1 & H2). unfold EqS. destruct (Limit e <=? Cursor e) eqn:E.
  { exists false, (Cursor e). rewrite set_Cursor_same. split; [reflexivity|]. split; [lia|discriminate]. }
  destruct (split_at3 (cur e) (Cursor e) (zlen (cur e))) as (x & m & y & Hc & Hx & Hm); [lia|lia|].
  assert (y = []) as -> by (apply length_zero_iff_nil; rewrite Hc in Hm; unfold zlen, bytes in *; rewrite !app_length in Hm; lia).
  rewrite app_nil_r in Hc. rewrite Hc, (slice_tail x m) by (rewrite ?Hx; reflexivity). cbn [bind]. destruct (has_prefix m s) eqn:Eh.
  - apply has_prefix_ok in Eh. destruct Eh as (t & ->). exists true. eexists. split; [reflexivity|].
    pose proof (zlen_nonneg s). pose proof (zlen_nonneg t). assert (Cursor e + zlen s <= zlen (x ++ s ++ t)) as Hle by (rewrite !zlen_app; lia).
    pose proof (up_bounds (length (x ++ s ++ t)) (x ++ s ++ t) (Cursor e + zlen s)) as Hu. rewrite H1, Hc. split; [lia|]. intros _. split; [lia|]. exists x, t. split; [reflexivity|exact Hx].
  - exists false, (Cursor e). rewrite set_Cursor_same. split; [reflexivity|]. split; [lia|discriminate].
Qed.
Lemma find_at_finds s b : In b s -> finds (find_at s) b (zlen s).
Proof.
  intros Hb e He. unfold find_at. assert (wf (set_Bra (Cursor e) e)) as He' by exact He. destruct (eqs_total s _ He') as (ok & c & -> & Hc & Hok). cbn [bind]. cbn [Cursor Limit set_Bra] in *.
  destruct ok; eexists _, _; (split; [reflexivity|]); cbn [cur Limit LimitBackward set_Ket set_Cursor set_Bra Bra Ket Cursor]; (split; [reflexivity|]); (split; [reflexivity|]); (split; [reflexivity|]); [|discriminate].
  intros _. destruct (Hok eq_refl) as (Hle & x & y & Hx & Hxl). destruct He as (W1 & W2). cbn [cur set_Bra] in Hx.
  destruct (split_at3 (cur e) (Cursor e) c) as (x' & m & y' & E1 & E2 & E3); [lia|lia|]. exists x', m, y'. split; [exact E1|]. split; [congruence|]. split; [congruence|]. split; [lia|].
  assert (exists t, m = s ++ t) as (t & ->); [|split; [apply in_app_iff; left; exact Hb|rewrite zlen_app; pose proof (zlen_nonneg t); lia]].
  exists (skipn (length s) m). rewrite Hx in E1. assert (length x = length x') as Hl by (unfold zlen in *; lia).
  assert (x = x' /\ s ++ y = m ++ y') as [-> E4].
  { clear - E1 Hl. revert x' Hl E1. induction x as [|u x IH]; intros [|v x'] Hl E1; try discriminate; [split; [reflexivity|exact E1]|]. cbn in E1. injection E1 as -> E1. destruct (IH x') as [-> E2]; [now injection Hl|exact E1|]. split; [reflexivity|exact E2]. }
  rewrite zlen_app in E3. assert (length s <= length m)%nat as Hlm by (unfold zlen, bytes in *; lia).
  rewrite <- (firstn_skipn (length s) m) at 1. f_equal. assert (firstn (length s) (s ++ y) = firstn (length s) (m ++ y')) as Hf by (rewrite E4; reflexivity).
  rewrite !firstn_app, Nat.sub_diag, firstn_all in Hf. cbn [firstn] in Hf. rewrite app_nil_r in Hf. replace (length s - length m)%nat with 0%nat in Hf by lia. cbn [firstn] in Hf. rewrite app_nil_r in Hf. symmetry. exact Hf.
Qed.
Lemma find_yo_finds : finds find_yo 145 2.
Proof. apply (find_at_finds (u8 [1105])). right. left. reflexivity. Qed.
(* a replacement of no more bytes than it removes *)
Lemma set_set a b e : set_Cursor a (set_Cursor b e) = set_Cursor a e. Proof. reflexivity. Qed.
Lemma mark_total e ctx : wf e -> exists ctx', r_mark_regions e ctx = Ret (e, ctx') /\ Cursor e <= i_pV ctx' <= Limit e /\ (0 < Limit e -> 0 < i_pV ctx') /\ i_pV ctx' <= i_p2 ctx' <= Limit e.
Proof.
  intros He. unfold r_mark_regions. pose proof He as (W1 & W2).
  assert (forall c, Cursor e <= c <= Limit e -> wf (set_Cursor c e)) as Hw by (intros c Hc; split; [exact W1|cbn; lia]).
  assert (forall c, set_Cursor (Cursor e) (set_Cursor c e) = e) as Hs by (intros c; destruct e; reflexivity).
  destruct (go_past_total in_v in_v_moves (fuel_of e) e He (fuel_enough e He)) as (ok & c & -> & Hc & Hok). cbn [bind]. destruct ok; cbn [negb]; rewrite ?Hs.
  2:{ rewrite ?set_set, ?set_Cursor_same. eexists. split; [reflexivity|]. cbn. lia. }
  specialize (Hok eq_refl). pose proof (Hw c Hc) as H1.
  destruct (go_past_total out_v out_v_moves (fuel_of (set_Cursor c e)) _ H1 (fuel_enough _ H1)) as (ok & c2 & -> & Hc2 & _). cbn [Cursor Limit set_Cursor] in Hc2. cbn [bind]. destruct ok; cbn [negb].
  2:{ rewrite ?set_set, ?set_Cursor_same. eexists. split; [reflexivity|]. cbn. lia. }
  assert (wf (set_Cursor c2 (set_Cursor c e))) as H2 by (split; [exact W1|cbn; lia]).
  destruct (go_past_total in_v in_v_moves (fuel_of (set_Cursor c2 (set_Cursor c e))) _ H2 (fuel_enough _ H2)) as (ok & c3 & -> & Hc3 & _). cbn [Cursor Limit set_Cursor] in Hc3. cbn [bind]. destruct ok; cbn [negb].
  2:{ rewrite ?set_set, ?set_Cursor_same. eexists. split; [reflexivity|]. cbn. lia. }
  assert (wf (set_Cursor c3 (set_Cursor c2 (set_Cursor c e)))) as H3 by (split; [exact W1|cbn; lia]).
  destruct (go_past_total out_v out_v_moves (fuel_of (set_Cursor c3 (set_Cursor c2 (set_Cursor c e)))) _ H3 (fuel_enough _ H3)) as (ok & c4 & -> & Hc4 & _). cbn [Cursor Limit set_Cursor] in Hc4. cbn [bind]. destruct ok; cbn [negb].
  2:{ rewrite ?set_set, ?set_Cursor_same. eexists. split; [reflexivity|]. cbn. lia. }
  rewrite ?set_set, ?set_Cursor_same. eexists. split; [reflexivity|]. cbn. lia.
Qed.

(** the backward phase as a whole *)
Definition back_steps (v_6 : Z) (ctx : Context) (e : env) : res (bool * env) :=
  let v_7 := Limit e - Cursor e in
  e <- r_step1 e ;;
  let e := set_Cursor (Limit e - v_7) e in
  let v_11 := Limit e - Cursor e in
  let e := set_Ket (Cursor e) e in
  '(ok, e) <- EqSB (u8 [1080]) e ;;
  e <- (if ok : bool then SliceDel (set_Bra (Cursor e) e) else Ret (set_Cursor (Limit e - v_11) e)) ;;
  let v_12 := Limit e - Cursor e in
  '(_, e) <- r_derivational e ctx ;;
  let e := set_Cursor (Limit e - v_12) e in
  let v_13 := Limit e - Cursor e in
  '(_, e) <- r_tidy_up e ;;
  let e := set_Cursor (Limit e - v_13) e in
  let e := set_LimitBackward v_6 e in
  Ret (true, set_Cursor (LimitBackward e) e).
Definition back (e : env) (ctx : Context) : res (bool * env) :=
  let e := set_LimitBackward (Cursor e) e in
  let e := set_Cursor (Limit e) e in
  if Cursor e <? i_pV ctx then Ret (false, e) else
  back_steps (LimitBackward e) ctx (set_LimitBackward (i_pV ctx) e).
Lemma Stem_split e : Stem e = ('(_, e1) <- repeat_replace find_yo (u8 [1077]) (fuel_of e) false e ;;
  '(e2, ctx) <- r_mark_regions (set_Cursor (Cursor e) e1) (mkContext 0 0) ;; back e2 ctx).
Proof. reflexivity. Qed.
Definition steps (p2 : Z) : bytes -> bytes -> Prop := and_then step1 (and_then step2 (and_then (step3 p2) step4)).
Lemma back_ok e ctx keep r : cur e = keep ++ r -> Limit e = zlen (keep ++ r) -> i_pV ctx = zlen keep ->
  exists p e', back e ctx = Ret (true, e') /\ cur e' = keep ++ p /\ steps (i_p2 ctx - zlen keep) r p.
Proof.
  intros H1 H2 H3. unfold back. cbn [Cursor set_Cursor Limit set_LimitBackward LimitBackward]. pose proof (zlen_nonneg r).
  replace (Limit e <? i_pV ctx) with false by (rewrite H2, H3, zlen_app; lia).
  set (e1 := set_LimitBackward (i_pV ctx) _). assert (at_end keep r e1) as He1 by (split; [exact H1|split; [exact H3|split; exact H2]]).
  clearbody e1. unfold back_steps.
  destruct (step1_does keep r e1 He1) as (p1 & e2 & S1 & -> & B2). cbn [bind]. pose proof (back_to_end _ _ _ _ _ He1 B2) as He2.
  set (e3 := set_Cursor (Limit e2 - (Limit e1 - Cursor e1)) e2) in *. clearbody e3.
  destruct (step2_does keep p1 e3 He2) as (p2 & e4 & e5 & ok & S2 & Hq & Hd & He5).
  rewrite Hq. cbn [bind]. rewrite Hd. cbn [bind].
  destruct (step3_does keep ctx p2 e5 He5) as (p3 & e6 & ok3 & S3 & -> & B6). cbn [bind]. pose proof (back_to_end _ _ _ _ _ He5 B6) as He7. set (e7 := set_Cursor (Limit e6 - (Limit e5 - Cursor e5)) e6) in *. clearbody e7.
  destruct (step4_does keep p3 e7 He7) as (p4 & e8 & ok4 & S4 & -> & B8). cbn [bind]. exists p4. eexists. split; [reflexivity|]. split; [exact (proj1 B8)|].
  exists p1. split; [exact S1|]. exists p2. split; [exact S2|]. exists p3. split; [exact S3|exact S4].
Qed.

Lemma or_else_prefix (R S : bytes -> bytes -> Prop) : (forall w p, R w p -> exists t, w = p ++ t) -> (forall w p, S w p -> exists t, w = p ++ t) -> forall w p, or_else R S w p -> exists t, w = p ++ t.
Proof. intros HR HS w p [H|[_ H]]; auto. Qed.
Lemma eq_prefix (w p : bytes) : w = p -> exists t, w = p ++ t. Proof. intros ->. exists []. symmetry. apply app_nil_r. Qed.
Lemma optional_prefix (R : bytes -> bytes -> Prop) : (forall w p, R w p -> exists t, w = p ++ t) -> forall w p, optional R w p -> exists t, w = p ++ t.
Proof. intros HR. apply or_else_prefix; [exact HR|exact eq_prefix]. Qed.
Lemma and_then_prefix (R S : bytes -> bytes -> Prop) : (forall w p, R w p -> exists t, w = p ++ t) -> (forall w p, S w p -> exists t, w = p ++ t) -> forall w p, and_then R S w p -> exists t, w = p ++ t.
Proof. intros HR HS w p (u & H1 & H2). apply HR in H1. apply HS in H2. destruct H1 as (t1 & ->), H2 as (t2 & ->). exists (t2 ++ t1). symmetry. apply app_assoc. Qed.
Lemma removes_prefix es w p : removes es w p -> exists t, w = p ++ t. Proof. intros (s & H & _). exists s. exact H. Qed.
Lemma removes2_prefix g1 g2 w p : removes2 g1 g2 w p -> exists t, w = p ++ t. Proof. intros (s & (H & _) & _). exists s. exact H. Qed.
Lemma steps_prefix p2 w p : steps p2 w p -> exists t, w = p ++ t.
Proof.
  revert w p. unfold steps, step1, step2, step3, step4, adjectival.
  repeat first [exact (removes_prefix _)|exact (removes2_prefix _ _)|apply optional_prefix|apply and_then_prefix|apply or_else_prefix].
  - intros w p [H _]. exact (removes_prefix _ _ _ H).
  - intros w p (_ & ->). eexists. reflexivity.
  - intros w p (_ & ->). eexists. reflexivity.
Qed.

(** any bytes: it ends, and only ever takes an ending off the normalised word *)
Lemma ru_any w : exists s keep r p p2 e, Stem (NewEnv w) = Ret (true, e) /\ replaced 145 (u8 [1077]) w s /\ s = keep ++ r /\ cur e = keep ++ p /\ steps p2 r p /\ (s <> [] -> keep <> []).
Proof.
  rewrite Stem_split. assert (wf (NewEnv w)) as Hw by (split; [reflexivity|cbn; pose proof (zlen_nonneg w); lia]).
  destruct (repeat_total find_yo 145 (u8 [1077]) 2 find_yo_finds ltac:(vm_compute; discriminate) ltac:(vm_compute; intuition discriminate) (fuel_of (NewEnv w)) false (NewEnv w) Hw) as (r0 & e1 & -> & R1 & R2 & R3 & _).
  { unfold fuel_of. pose proof (count_le 145 w). cbn [cur NewEnv]. lia. }
  cbn [bind]. change (cur (NewEnv w)) with w in R1. set (e2 := set_Cursor (Cursor (NewEnv w)) e1).
  assert (wf e2) as Hw2 by (split; [exact R2|cbn; rewrite R2; pose proof (zlen_nonneg (cur e1)); lia]).
  destruct (mark_total e2 (mkContext 0 0) Hw2) as (ctx & -> & Hp1 & Hp2 & _). cbn [bind]. change (Cursor e2) with 0 in Hp1. change (Limit e2) with (Limit e1) in *.
  set (s := cur e1) in *. destruct (split_at3 s 0 (i_pV ctx)) as (x & keep & r & Hs & Hx & Hk); [lia|lia|].
  assert (x = []) as -> by (destruct x; [reflexivity|rewrite zlen_cons in Hx; pose proof (zlen_nonneg x); lia]). cbn [app] in Hs, Hk.
  destruct (back_ok e2 ctx keep r) as (p & e' & Hb & Hc & Hst); [exact Hs|change (Limit e2) with (Limit e1); rewrite R2, <- Hs; reflexivity|symmetry; exact Hk|].
  exists s, keep, r, p, (i_p2 ctx - zlen keep), e'. split; [exact Hb|]. split; [exact R1|]. split; [exact Hs|]. split; [exact Hc|]. split; [exact Hst|].
  intros Hne -> . change (zlen (@nil Z)) with 0 in Hk. enough (0 < Limit e1) by lia. rewrite R2. fold s. destruct s as [|b s']; [exfalso; apply Hne; reflexivity|]. rewrite zlen_cons. pose proof (zlen_nonneg s'). lia.
Qed.

(** valid UTF-8: exactly the specification *)
Lemma find_yo_char : finds_char find_yo 1105.
Proof.
  intros a b e Hb Hr. unfold find_yo. rewrite u8_letter. unfold letter. assert (between a b (set_Bra (Cursor e) e)) as Hb' by exact Hb.
  rewrite (eqs_enc a b 1105 _ Hb' Hr eq_refl). destruct b as [|c b].
  - cbn [bind]. eexists. split; [reflexivity|]. split; [reflexivity|]. split; [reflexivity|]. split; [reflexivity|discriminate].
  - destruct (c =? 1105) eqn:E; cbn [bind]; eexists; (split; [reflexivity|]); (split; [reflexivity|]); (split; [reflexivity|]); (split; [reflexivity|]); [|discriminate].
    intros _. apply Z.eqb_eq in E. subst c. destruct (between_next a 1105 b _ Hb') as (-> & _). destruct Hb as (_ & H & _). split; [exact H|reflexivity].
Qed.
Lemma after_skip P l : exists a, l = a ++ after P l.
Proof. induction l as [|c l (a & IH)]; [exists []; reflexivity|]. cbn [after]. destruct (P c); [exists [c]; reflexivity|]. exists (c :: a). cbn [app]. rewrite <- IH. reflexivity. Qed.
Lemma after_none P l : existsb P l = false -> after P l = [].
Proof. induction l as [|c l IH]; [reflexivity|]. cbn [existsb after]. destruct (P c); [discriminate|exact IH]. Qed.
Lemma after_ok P l : runes_ok l -> runes_ok (after P l).
Proof. intros H. destruct (after_skip P l) as (a & E). rewrite E in H. apply Forall_app in H. exact (proj2 H). Qed.
Lemma between_fuel a b e : between a b e -> (length b < fuel_of e)%nat.
Proof.
  intros (H & _). unfold fuel_of. rewrite H, enc_app, app_length. clear. enough (length b <= length (enc b))%nat by lia. induction b as [|c b IH]; [cbn; lia|]. rewrite enc_cons, app_length. pose proof (encode_nonempty c). destruct (encode_rune c); [contradiction|]. cbn [length]. lia.
Qed.
Lemma between_pos a b e : between a b e -> Cursor e = Limit e - zlen (enc b).
Proof. intros (_ & -> & ->). rewrite enc_app, zlen_app. ring. Qed.
Lemma mark_enc l e ctx : between [] l e -> runes_ok l ->
  r_mark_regions e ctx = Ret (e, mkContext (Limit e - zlen (enc (R2 l))) (Limit e - zlen (enc (RV l)))).
Proof.
  intros Hb Hr. unfold r_mark_regions, R2, RV. assert (Cursor e = 0) as Hc0 by (destruct Hb as (_ & -> & _); reflexivity).
  change (zlen (enc (after consonant (after vowel (after consonant (after vowel l)))))) with (zlen (enc (after consonant (after vowel (after consonant (after vowel l)))))).
  destruct (go_past_enc in_v vowel in_v_tests (fuel_of e) l [] e Hb Hr (between_fuel _ _ _ Hb)) as (a1 & e1 & _ & -> & Hb1 & E1). cbn [bind].
  assert (Hlim : zlen (enc []) = 0) by reflexivity.
  destruct (existsb vowel l) eqn:X1; cbn [negb].
  2:{ rewrite (after_none _ _ X1). cbn [after]. rewrite E1, set_set, set_Cursor_same, Hlim, Z.sub_0_r. reflexivity. }
  pose proof (after_ok vowel l Hr) as Hr1. set (l1 := after vowel l) in *.
  assert (Limit e1 = Limit e) as L1 by (rewrite E1; reflexivity).
  destruct (go_past_enc out_v consonant out_v_tests (fuel_of e1) l1 a1 e1 Hb1 Hr1 (between_fuel _ _ _ Hb1)) as (a2 & e2 & _ & -> & Hb2 & E2). cbn [bind i_p2 i_pV].
  rewrite (between_pos _ _ _ Hb1), L1. destruct (existsb consonant l1) eqn:X2; cbn [negb].
  2:{ rewrite (after_none _ _ X2). cbn [after]. rewrite E2, E1, !set_set, set_Cursor_same, Hlim, Z.sub_0_r. reflexivity. }
  pose proof (after_ok consonant l1 Hr1) as Hr2. set (l2 := after consonant l1) in *.
  destruct (go_past_enc in_v vowel in_v_tests (fuel_of e2) l2 a2 e2 Hb2 Hr2 (between_fuel _ _ _ Hb2)) as (a3 & e3 & _ & -> & Hb3 & E3). cbn [bind].
  destruct (existsb vowel l2) eqn:X3; cbn [negb].
  2:{ rewrite (after_none _ _ X3). cbn [after]. rewrite E3, E2, E1, !set_set, set_Cursor_same, Hlim, Z.sub_0_r. reflexivity. }
  pose proof (after_ok vowel l2 Hr2) as Hr3. set (l3 := after vowel l2) in *.
  destruct (go_past_enc out_v consonant out_v_tests (fuel_of e3) l3 a3 e3 Hb3 Hr3 (between_fuel _ _ _ Hb3)) as (a4 & e4 & _ & -> & Hb4 & E4). cbn [bind].
  destruct (existsb consonant l3) eqn:X4; cbn [negb].
  2:{ rewrite (after_none _ _ X4). rewrite E4, E3, E2, E1, !set_set, set_Cursor_same, Hlim, Z.sub_0_r. reflexivity. }
  rewrite (between_pos _ _ _ Hb4), E4, E3, E2, E1, !set_set, set_Cursor_same. reflexivity.
Qed.
Lemma swap_no_yo l : map (swap 1105 1077) l = map no_yo l. Proof. reflexivity. Qed.
Lemma no_yo_ok l : runes_ok l -> runes_ok (map no_yo l).
Proof. intros H. apply Forall_map. eapply Forall_impl; [|exact H]. intros c Hc. unfold no_yo. destruct (c =? 1105); [reflexivity|exact Hc]. Qed.
Lemma ru_exact l : runes_ok l -> exists e, Stem (NewEnv (enc l)) = Ret (true, e) /\ stem_of l (cur e).
Proof.
  intros Hr. rewrite Stem_split. set (e0 := NewEnv (enc l)). assert (between [] l e0) as Hb by (split; [reflexivity|split; reflexivity]).
  destruct (repeat_enc find_yo 1105 1077 find_yo_char eq_refl ltac:(discriminate) (fuel_of e0) false l [] e0 Hb Hr) as (r0 & e1 & H0 & R1 & R2 & R3).
  { pose proof (between_fuel _ _ _ Hb). unfold occ. pose proof (count_le 1105 l) as Hcl. unfold count in Hcl. lia. }
  rewrite u8_letter. unfold letter. rewrite H0. cbn [bind app] in *. rewrite swap_no_yo in R1. set (m := map no_yo l) in *.
  set (e2 := set_Cursor (Cursor e0) e1). assert (between [] m e2) as Hb2 by (split; [exact R1|split; [reflexivity|cbn [Limit e2 set_Cursor app]; rewrite R2, R1; reflexivity]]).
  pose proof (no_yo_ok l Hr) as Hm. rewrite (mark_enc m e2 _ Hb2 Hm). cbn [bind]. destruct (after_skip vowel m) as (k & Hk). fold (RV m) in Hk.
  assert (Limit e2 = zlen (enc m)) as HL by exact (proj2 (proj2 Hb2)).
  assert (firstn (length m - length (RV m)) m = k) as Hfk.
  { rewrite Hk at 1 3. rewrite app_length, Nat.add_sub, firstn_app, Nat.sub_diag, firstn_all. cbn [firstn]. apply app_nil_r. }
  assert (zlen (enc m) = zlen (enc k) + zlen (enc (RV m))) as Hz by (rewrite Hk at 1; rewrite enc_app, zlen_app; reflexivity).
  destruct (back_ok e2 (mkContext (Limit e2 - zlen (enc (StemSpec.R2 m))) (Limit e2 - zlen (enc (RV m)))) (enc k) (enc (RV m))) as (p & e' & -> & Hc & Hst).
  - rewrite <- enc_app, <- Hk. exact R1.
  - rewrite <- enc_app, <- Hk. exact HL.
  - cbn [i_pV]. rewrite HL, Hz. ring.
  - exists e'. split; [reflexivity|]. unfold stem_of. fold m. rewrite Hfk. exists p. split; [exact Hc|]. cbn [i_p2] in Hst.
    replace (Limit e2 - zlen (enc (StemSpec.R2 m)) - zlen (enc k)) with (zlen (text (RV m)) - zlen (text (StemSpec.R2 m))) in Hst; [exact Hst|].
    rewrite HL, Hz. change (text (RV m)) with (enc (RV m)). change (text (StemSpec.R2 m)) with (enc (StemSpec.R2 m)). ring.
Qed.
