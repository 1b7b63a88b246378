(** The English stemmer computes [porter2], continued. *)
From Coq Require Import Bool Lia ZifyBool String.
From Verif Require Import Base BaseLemmas Text TextProofs TextProofs2 GoMap Snowball StemSpec StemProofs StemFwdProofs StemEn StemEnSpec StemChars StemEnProofs.
Local Open Scope Z_scope.
Local Notation length := List.length.

Lemma two_rev p : two_chars p = match rev (chars p) with _ :: _ :: _ => true | _ => false end.
Proof. unfold two_chars. rewrite <- (rev_length (chars p)). destruct (rev (chars p)) as [|a [|b l]]; reflexivity. Qed.
Lemma yi_out p m e : found p m e -> outcome ('(ok, e) <- out_v_b e ;; if negb ok then Ret (false, e) else if negb (LimitBackward e <? Cursor e) then Ret (false, e) else e <- SliceFrom (bs "i") e ;; Ret (true, e)) (acted yi p (p ++ m)).
Proof.
  intros Hf. unfold yi. rewrite acted_when, acted_put, two_rev. unfold last_is. pose proof (test_b out_v_b nonvowel p m e out_v_bt (proj1 Hf)) as T. destruct (rev (chars p)) as [|ch l].
  - rewrite T. cbn [bind negb andb]. exact (keep_out _ _ _ _ Hf).
  - destruct T as (T & Hb1 & Er). rewrite T. cbn [bind]. destruct (nonvowel ch); cbn [negb]; [|destruct l; cbn [andb]; exact (keep_out _ _ _ _ Hf)].
    rewrite (at_start _ _ _ Hb1), Er. destruct l; cbn [andb]; [exact (same_out _ _ _ _ _ Hf)|apply (move_out _ _ _ _ _ Hf)].
Qed.
Lemma step1c_ok w e : bw w [] e -> outcome (r_Step_1c e) (step1c w).
Proof.
  intros Hb. unfold r_Step_1c, step1c. cbv zeta. pose proof Hb as (H1 & H2 & H3 & H4 & H5). rewrite app_nil_r in H1, H3. assert (cur (set_Ket (Cursor e) e) = [] ++ w ++ []) as H1' by (rewrite app_nil_r; exact H1).
  assert (forall s, starts_char s -> (exists p, w = p ++ s /\ EqSB s (set_Ket (Cursor e) e) = Ret (true, set_Cursor (zlen p) (set_Ket (Cursor e) e)) /\ found p s (set_Bra (zlen p) (set_Cursor (zlen p) (set_Ket (Cursor e) e)))) \/ (strip s w = None /\ EqSB s (set_Ket (Cursor e) e) = Ret (false, set_Ket (Cursor e) e))) as Heq.
  { intros s Hs. destruct (eqs_b [] w [] s (set_Ket (Cursor e) e) H1' H4 H2 Hs) as (Hy & Hn). destruct (strip s w) as [p|] eqn:E; [left|right].
    - apply strip_ok in E. exists p. split; [exact E|]. rewrite Hy by (exists p; exact E). change (Cursor (set_Ket (Cursor e) e)) with (Cursor e). replace (Cursor e - zlen s) with (zlen p) by (rewrite H2, E, zlen_app; lia). split; [reflexivity|].
      split; [|split; [reflexivity|cbn; rewrite H2, E; reflexivity]]. split; [cbn; rewrite H1; exact E|]. split; [reflexivity|]. split; [cbn; rewrite H3, E; reflexivity|]. split; [exact H4|]. right. right. exact Hs.
    - split; [reflexivity|]. apply Hn. intros (p & Hp). apply strip_ok in Hp. congruence. }
  cbn [rules]. destruct (Heq (bs "y") eq_refl) as [(p & Hp & -> & Hf)|(En & ->)]; cbn [bind negb].
  - rewrite (proj2 (strip_ok _ _ _) Hp). fold (acted yi p w). rewrite Hp. exact (yi_out _ _ _ Hf).
  - rewrite En. rewrite back_reset. destruct (Heq (bs "Y") eq_refl) as [(p & Hp & -> & Hf)|(En2 & ->)]; cbn [bind negb].
    + rewrite (proj2 (strip_ok _ _ _) Hp). fold (acted yi p w). rewrite Hp. exact (yi_out _ _ _ Hf).
    + rewrite En2. eexists _, _. split; [reflexivity|]. split; [exact H1|]. split; [exact H3|exact H4].
Qed.

(* the end of step 1b *)
Lemma insert_ok p e : bw p [] e -> outcome (e <- insert_e e ;; Ret (true, e)) (p ++ bs "e").
Proof.
  intros (H1 & H2 & H3 & H4 & H5). unfold insert_e, Insert. cbv zeta. rewrite app_nil_r in H1, H3. assert (cur e = p ++ [] ++ []) as H1' by (cbn [app]; rewrite app_nil_r; exact H1).
  rewrite (ReplaceS_split p [] [] (bs "e") e (Cursor e) (Cursor e) H1' H2) by (rewrite app_nil_r; exact H2). cbn [bind].
  set (e1 := mkEnv _ _ _ _ _ _). assert (holds (p ++ bs "e") e1) as Hh by (split; [unfold e1; cbn [cur]; rewrite app_nil_r; reflexivity|]; split; [unfold e1; cbn [Limit]; rewrite H3, zlen_app; change (zlen []) with 0; change (zlen (bs "e")) with 1; ring|exact H4]).
  clearbody e1. eexists _, _. split; [reflexivity|]. destruct (_ <=? _); destruct (_ <=? _); exact Hh.
Qed.
Lemma undouble_ok p b e : bw (p ++ [b; b]) [] e -> 0 <= b < 128 -> outcome (e <- SliceDel (set_Bra (Cursor (PrevChar (set_Ket (Cursor e) e))) (PrevChar (set_Ket (Cursor e) e))) ;; Ret (true, e)) (p ++ [b]).
Proof.
  intros Hb Hbb. assert (bw (p ++ [b; b]) [] (set_Ket (Cursor e) e)) as Hb1 by exact Hb.
  assert (chars (p ++ [b; b]) = chars (p ++ [b]) ++ [[b]]) as Hc.
  { change [b; b] with ([b] ++ [b]). rewrite app_assoc, chars_app by (right; apply ascii_clean; exact Hbb). rewrite (chars_piece [b]) by constructor. reflexivity. }
  rewrite (bw_prev _ _ _ _ _ Hb1 Hc), concat_chars. destruct Hb as (H1 & H2 & H3 & H4 & H5). rewrite app_nil_r in H1, H3.
  assert (p ++ [b; b] = (p ++ [b]) ++ [b]) as Hp by (rewrite <- app_assoc; reflexivity). rewrite Hp in *.
  destruct (slice_end (p ++ [b]) [b] [] (set_Bra (zlen (p ++ [b])) (set_Cursor (zlen (p ++ [b])) (set_Ket (Cursor e) e))) H1 H3 H4 eq_refl H2) as (e' & E & Hh & _).
  cbn [Cursor set_Cursor] in *. unfold SliceDel. rewrite E. cbn [bind]. exists true, e'. split; [reflexivity|]. rewrite app_nil_r in Hh. exact Hh.
Qed.
Lemma tidy_ok ctx p e : bw p [] e -> outcome (
    let v_3 := Limit e - Cursor e in
    '(among_var, e) <- FindAmongB A_3 e ;;
    if among_var =? 0 then Ret (false, e) else
    let e := set_Cursor (Limit e - v_3) e in
    if among_var =? 1 then e <- insert_e e ;; Ret (true, e)
    else if among_var =? 2 then
      let e := set_Ket (Cursor e) e in
      if Cursor e <=? LimitBackward e then Ret (false, e) else
      let e := PrevChar e in
      let e := set_Bra (Cursor e) e in
      e <- SliceDel e ;; Ret (true, e)
    else if among_var =? 3 then
      if negb (Cursor e =? i_p1 ctx) then Ret (false, e) else
      let v_4 := Limit e - Cursor e in
      '(ok, e) <- r_shortv e ;;
      if negb ok then Ret (false, e) else
      e <- insert_e (set_Cursor (Limit e - v_4) e) ;; Ret (true, e)
    else Ret (true, e)) (tidy (i_p1 ctx) p).
Proof.
  intros Hb. unfold tidy. cbv zeta. match goal with |- outcome _ (rules ?rs ?w) => destruct (find_table A_3 rs w e Hb) as [(u & act & a & E1 & E2 & E3 & E4 & E5 & E6)|(E5 & E4)]; [vm_compute; reflexivity|apply clean_table_ok; vm_compute; reflexivity| |] end.
  - rewrite E5, E4. cbn [bind]. assert (forall c, set_Cursor (Limit (set_Cursor c e) - (Limit e - Cursor e)) (set_Cursor c e) = e) as Hre by (intros c; change (Limit (set_Cursor c e)) with (Limit e); apply (bw_reset _ _ _ _ Hb)). rewrite !Hre. clear Hre E4 E5 E6.
    pose proof (bw_holds _ _ _ Hb) as Hh. rewrite app_nil_r in Hh.
    assert ((Cursor (set_Ket (Cursor e) e) <=? LimitBackward (set_Ket (Cursor e) e)) = match p with [] => true | _ => false end) as Hlim.
    { cbn. destruct Hb as (_ & -> & _ & -> & _). destruct p as [|x p]; [reflexivity|]. rewrite zlen_cons. pose proof (zlen_nonneg p). lia. }
    each_entry E2; cbn [Str Res Z.eqb Pos.eqb] in *; pick E3; rewrite ?acted_put.
    all: try (subst p; replace (u ++ bs "ble") with ((u ++ bs "bl") ++ bs "e") by (rewrite <- app_assoc; reflexivity); apply insert_ok; exact Hb).
    all: try (subst p; replace (u ++ bs "ate") with ((u ++ bs "at") ++ bs "e") by (rewrite <- app_assoc; reflexivity); apply insert_ok; exact Hb).
    all: try (subst p; replace (u ++ bs "ize") with ((u ++ bs "iz") ++ bs "e") by (rewrite <- app_assoc; reflexivity); apply insert_ok; exact Hb).
    all: try (rewrite Hlim; destruct p as [|x p]; [destruct u; discriminate|]; rewrite E1 in Hb; first [apply (undouble_ok u 98 e Hb)|apply (undouble_ok u 100 e Hb)|apply (undouble_ok u 102 e Hb)|apply (undouble_ok u 103 e Hb)|apply (undouble_ok u 109 e Hb)|apply (undouble_ok u 110 e Hb)|apply (undouble_ok u 112 e Hb)|apply (undouble_ok u 114 e Hb)|apply (undouble_ok u 116 e Hb)]; lia).
    rewrite app_nil_r in E1. subst u. rewrite acted_when, acted_put. unfold short_word. pose proof Hb as (_ & -> & _). destruct (zlen p =? i_p1 ctx); cbn [negb andb]; [|exists false, e; split; [reflexivity|exact Hh]].
    destruct (shortv_ok p _ e Hb) as (c & ->). cbn [bind]. destruct (short_syllable p); cbn [negb]; [|eexists _, _; split; [reflexivity|exact Hh]].
    replace (set_Cursor (Limit (set_Cursor c e) - (Limit e - zlen p)) (set_Cursor c e)) with e; [apply insert_ok; exact Hb|]. rewrite set_set. change (Limit (set_Cursor c e)) with (Limit e). destruct Hb as (_ & Hc & _). replace (Limit e - (Limit e - zlen p)) with (Cursor e) by lia. symmetry. apply set_Cursor_same.
  - rewrite E5, E4. cbn [bind Z.eqb]. exists false, e. split; [reflexivity|]. pose proof (bw_holds _ _ _ Hb) as Hh. rewrite app_nil_r in Hh. exact Hh.
Qed.

Lemma step1b_ok ctx w e : bw w [] e -> outcome (r_Step_1b e ctx) (step1b (i_p1 ctx) w).
Proof.
  intros Hb. unfold r_Step_1b, step1b. cbv zeta. by_table A_4 Hb.
  all: try (rewrite acted_when, acted_put, (found_R1 ctx _ _ _ Hf); destruct (inR1 (i_p1 ctx) p); cbn [negb]; [apply (put_out _ _ _ _ Hf)|rewrite Hw; exact (keep_out _ _ _ _ Hf)]).
  all: unfold past; rewrite acted_when; unfold has_vowel; destruct (go_past_b_bw in_v_b vowel in_v_bt (fuel_of st) p _ st (proj1 Hf) (bw_fuel _ _ _ (proj1 Hf))) as (c & -> & _); cbn [bind];
    destruct (existsb vowel (chars p)); cbn [negb]; [|rewrite Hw; exact (same_out _ _ _ _ _ Hf)];
    assert (set_Cursor (Limit (set_Cursor c st) - (Limit st - Cursor st)) (set_Cursor c st) = st) as -> by (change (Limit (set_Cursor c st)) with (Limit st); apply (bw_reset _ _ _ _ (proj1 Hf)));
    destruct (found_put p _ [] st Hf) as (e' & Ed & _ & Hb'); unfold SliceDel at 1; rewrite Ed; cbn [bind]; specialize (Hb' eq_refl);
    pose proof (tidy_ok ctx p e' Hb') as Ht; cbv zeta in Ht; exact Ht.
Qed.

Lemma step0_ok w e : bw w [] e -> exists x e1 e', FindAmongB A_1 (set_Ket (Cursor e) e) = Ret (x, e1) /\
  (if x =? 0 then Ret (set_Cursor (Limit e1 - (Limit e - Cursor e)) e1) else SliceDel (set_Bra (Cursor e1) e1)) = Ret e' /\ bw (step0 w) [] e'.
Proof.
  intros Hb. unfold step0. match goal with |- context [bw (rules ?rs w)] => destruct (step_find A_1 rs w _ Hb) as [(p & act & a & e1 & Hw & Ha & Hact & Hr & E & Hf)|(e1 & E & Hf & Hr)]; [vm_compute; reflexivity|vm_compute; reflexivity| |] end; rewrite Hr; eexists _, e1.
  - assert (acted act p w = p) as Hap by (each_entry Ha; cbn [Str] in Hact; pick Hact; reflexivity). rewrite Hap.
    destruct (found_put p _ [] _ Hf) as (e' & Ed & _ & Hb'). exists e'. split; [exact E|]. replace (Res a =? 0) with false by (each_entry Ha; reflexivity). split; [exact Ed|]. apply Hb'. reflexivity.
  - eexists. split; [exact E|]. split; [reflexivity|]. destruct Hf as (F1 & F2 & F3). destruct Hb as (H1 & H2 & H3 & H4 & H5). rewrite app_nil_r in *. unfold bw. cbn [cur Cursor Limit LimitBackward set_Cursor]. rewrite app_nil_r. split; [exact F1|]. split; [rewrite F2, H2, H3; ring|]. split; [exact F2|]. split; [exact F3|]. right. left. reflexivity.
Qed.
Lemma ie_out p m e : found p m e ->
  outcome (if (hop_back 2 e <? LimitBackward e) || (Limit e <? hop_back 2 e)
    then e <- SliceFrom (bs "ie") (set_Cursor (Limit e - (Limit e - Cursor e)) e) ;; Ret (true, e)
    else e <- SliceFrom (bs "i") (set_Cursor (hop_back 2 e) e) ;; Ret (true, e)) (acted ie p (p ++ m)).
Proof.
  intros Hf. destruct (hop_back2 p m e (proj1 Hf)) as (Hle & Hlt). destruct Hf as (Hb & Hf). pose proof Hb as (_ & _ & _ & H0 & _). rewrite H0, Hlt. replace (Limit e <? hop_back 2 e) with false by lia. rewrite orb_false_r.
  unfold acted, ie. destruct (two_chars p); cbn [negb]; apply (move_out p m); split; assumption.
Qed.
Lemma s_out p m e : found p m e ->
  outcome (if Cursor e <=? LimitBackward e then Ret (false, e) else
    '(ok, e) <- go_past_b in_v_b (fuel_of (PrevChar e)) (PrevChar e) ;;
    if negb ok then Ret (false, e) else e <- SliceDel e ;; Ret (true, e)) (acted (when earlier_vowel del) p (p ++ m)).
Proof.
  intros Hf. pose proof Hf as (Hb & _). rewrite acted_when, acted_del. unfold earlier_vowel. rewrite (bw_limit _ _ _ Hb). destruct (rev (chars p)) as [|ch l] eqn:Er.
  - replace (chars p) with (@nil bytes) by (symmetry; apply length_zero_iff_nil; rewrite <- rev_length, Er; reflexivity). cbn [removelast existsb]. exact (keep_out _ _ _ _ Hf).
  - destruct (bw_step p m e l ch Hb Er) as (Hb2 & Hp & Hl & Hpc). pose proof (rev_snoc _ _ _ Er) as Er'. rewrite (bw_prev p m e (rev l) ch Hb Er'). replace (zlen (concat (rev l))) with (zlen p - zlen ch) by (rewrite Hp, zlen_app; lia).
    destruct (go_past_b_bw in_v_b vowel in_v_bt _ _ _ _ Hb2 (bw_fuel _ _ _ Hb2)) as (c & -> & _). cbn [bind]. rewrite Er', removelast_last, Hl. destruct (existsb vowel (rev l)); cbn [negb]; rewrite set_set; [apply (move_out _ _ _ _ _ Hf)|exact (same_out _ _ _ _ _ Hf)].
Qed.
Lemma step1a_ok w e : bw w [] e -> outcome (r_Step_1a e) (step1a (step0 w)).
Proof.
  intros Hb. destruct (step0_ok w e Hb) as (x & e1 & e' & E0 & E1 & Hb'). unfold r_Step_1a. cbv zeta. rewrite E0. cbn [bind]. rewrite E1. cbn [bind]. clear e1 E0 E1 Hb e. generalize dependent (step0 w). clear w x. intros w Hb. unfold step1a.
  by_table A_2 Hb.
  all: try (rewrite Hw; apply (ie_out _ _ _ Hf)).
  all: try (rewrite Hw; apply (s_out _ _ _ Hf)).
  all: try (rewrite acted_put; apply (put_out _ _ _ _ Hf)).
  all: try (rewrite Hw; exact (keep_out _ _ _ _ Hf)).
Qed.
