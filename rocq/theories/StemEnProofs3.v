(** The English stemmer computes [porter2]: the whole. *)
From Coq Require Import Bool Lia ZifyBool String.
From Verif Require Import Base BaseLemmas Text TextProofs TextProofs2 GoMap Snowball StemSpec StemProofs StemFwdProofs StemEn StemEnSpec StemChars StemEnProofs StemEnProofs2.
Local Open Scope Z_scope.
Local Notation length := List.length.

Definition mem_str (A : list among) (l : list bytes) : bool := forallb (fun a => mem (Str a) l) A && forallb (fun s => mem s (map Str A)) l.
Lemma app_same_nil (p s t : bytes) : p ++ s = t -> (length t <= length s)%nat -> p = [] /\ s = t.
Proof. intros <- H. rewrite app_length in H. assert (p = []) as -> by (apply length_zero_iff_nil; lia). auto. Qed.
Lemma exception2_ok u e : bw u [] e -> exists e', r_exception2 e = Ret (existsb (beqb u) left_alone, e') /\ holds u e'.
Proof.
  intros Hb. unfold r_exception2. cbv zeta. pose proof (bw_holds _ _ _ Hb) as Hh. rewrite app_nil_r in Hh. pose proof Hb as (H1 & H2 & H3 & H4 & H5). rewrite app_nil_r in H1, H3.
  assert (at_end [] u (set_Ket (Cursor e) e)) as Hat by (split; [exact H1|]; split; [exact H4|]; split; [exact H2|exact H3]). rewrite (find_b [] u A_9 _ Hat).
  assert (mem_str A_9 left_alone = true) as Hm by (vm_compute; reflexivity). apply andb_true_iff in Hm. destruct Hm as (M1 & M2). rewrite forallb_forall in M1, M2.
  destruct (longest (has_suffix u) A_9) as [a|] eqn:E; cbn [bind].
  - apply longest_some in E. destruct E as (Ha & Hs & Hmax). apply has_suffix_ok in Hs. destruct Hs as (p & Hp). assert (Res a =? 0 = false) as -> by (each_entry Ha; reflexivity).
    change (LimitBackward (set_Bra _ (set_Cursor ?c ?e))) with (LimitBackward e). cbn [Cursor set_Bra set_Cursor set_Ket LimitBackward]. rewrite H4, H2, Hp, zlen_app. replace (zlen p + zlen (Str a) - zlen (Str a)) with (zlen p) by ring. rewrite <- Hp.
    destruct (0 <? zlen p) eqn:Ez.
    + assert (existsb (beqb u) left_alone = false) as ->; [|eexists; split; [reflexivity|exact Hh]]. destruct (existsb (beqb u) left_alone) eqn:Ex; [|reflexivity]. exfalso. fold (mem u left_alone) in Ex. apply mem_in in Ex. specialize (M2 u Ex). apply mem_in in M2. apply in_map_iff in M2. destruct M2 as (b & Eb & Hb').
      specialize (Hmax b Hb'). rewrite Eb in Hmax. assert (has_suffix u u = true) as Hself by (apply has_suffix_ok; exists []; reflexivity). specialize (Hmax Hself). rewrite Hp, zlen_app in Hmax. lia.
    + assert (existsb (beqb u) left_alone = true) as ->; [|eexists; split; [reflexivity|exact Hh]]. assert (p = []) as -> by (destruct p; [reflexivity|]; rewrite zlen_cons in Ez; pose proof (zlen_nonneg p); lia). cbn [app] in Hp. rewrite Hp. apply (M1 a Ha).
  - cbn [Z.eqb]. assert (existsb (beqb u) left_alone = false) as ->; [|eexists; split; [reflexivity|exact Hh]]. destruct (existsb (beqb u) left_alone) eqn:Ex; [|reflexivity]. exfalso. fold (mem u left_alone) in Ex. apply mem_in in Ex. specialize (M2 u Ex). apply mem_in in M2. apply in_map_iff in M2. destruct M2 as (b & Eb & Hb').
    pose proof (longest_none _ _ E b Hb') as Hn. rewrite Eb in Hn. assert (has_suffix u u = true) as Hself by (apply has_suffix_ok; exists []; reflexivity). congruence.
Qed.

(** ** the beginning *)
Lemma exception1_ok w : exists ok e', r_exception1 (NewEnv w) = Ret (ok, e') /\
  match find (fun x => beqb (fst x) w) exceptions with
  | Some x => ok = true /\ cur e' = snd x
  | None => ok = false /\ holds w e'
  end.
Proof.
  unfold r_exception1. cbv zeta. unfold FindAmong. cbn [cur Cursor Limit set_Bra NewEnv]. change (slice w 0 (zlen w)) with (slice ([] ++ w) (zlen (@nil Z)) (zlen ([] ++ w))). rewrite (slice_tail [] w _ _ eq_refl eq_refl). cbn [bind].
  assert (forallb (fun x => mem (fst x) (map Str A_10)) exceptions = true) as M by (vm_compute; reflexivity). rewrite forallb_forall in M.
  assert (forall a, longest (has_prefix w) A_10 = Some a -> zlen (Str a) < zlen w -> find (fun x => beqb (fst x) w) exceptions = None) as Hshort.
  { intros a E Hlt. apply longest_some in E. destruct E as (_ & _ & Hmax). destruct (find _ exceptions) as [x|] eqn:Ef; [|reflexivity]. exfalso. apply find_some in Ef. destruct Ef as (Hx & Ex). apply beqb_true in Ex. specialize (M x Hx). apply mem_in in M. rewrite Ex in M. apply in_map_iff in M. destruct M as (b & Eb & Hb).
    specialize (Hmax b Hb). rewrite Eb in Hmax. assert (has_prefix w w = true) as Hself by (apply has_prefix_ok; exists []; symmetry; apply app_nil_r). specialize (Hmax Hself). lia. }
  destruct (longest (has_prefix w) A_10) as [a|] eqn:E; cbn [bind].
  - specialize (Hshort a eq_refl). apply longest_some in E. destruct E as (Ha & Hs & _). apply has_prefix_ok in Hs. destruct Hs as (t & Ht). assert (Res a =? 0 = false) as -> by (each_entry Ha; reflexivity). cbn [Cursor Limit set_Cursor set_Ket set_Bra]. rewrite Z.add_0_l. change (Limit (NewEnv w)) with (zlen w).
    destruct (zlen (Str a) <? zlen w) eqn:El.
    + rewrite Hshort by lia. eexists _, _. split; [reflexivity|]. split; [reflexivity|]. split; [reflexivity|]. split; reflexivity.
    + clear Hshort. rewrite Ht, zlen_app in El. assert (t = []) as -> by (destruct t; [reflexivity|]; rewrite zlen_cons in El; pose proof (zlen_nonneg t); lia). rewrite app_nil_r in Ht. subst w. clear El M. each_entry Ha; cbn [Str Res]; exists true; eexists; (split; [reflexivity|]; split; reflexivity).
  - cbn [Z.eqb]. assert (find (fun x => beqb (fst x) w) exceptions = None) as ->; [|eexists _, _; split; [reflexivity|]; split; [reflexivity|]; split; [reflexivity|]; split; reflexivity].
    destruct (find _ exceptions) as [x|] eqn:Ef; [|reflexivity]. exfalso. apply find_some in Ef. destruct Ef as (Hx & Ex). apply beqb_true in Ex. specialize (M x Hx). apply mem_in in M. rewrite Ex in M. apply in_map_iff in M. destruct M as (b & Eb & Hb).
    pose proof (longest_none _ _ E b Hb) as Hn. rewrite Eb in Hn. assert (has_prefix w w = true) as Hself by (apply has_prefix_ok; exists []; symmetry; apply app_nil_r). congruence.
Qed.

Lemma next_end s p : zlen s <= p -> next_char s p = p + 1.
Proof. intros H. unfold next_char. destruct (length s); [reflexivity|]. cbn [up_to_boundary]. unfold onCharBoundary. replace (zlen s <=? p + 1) with true by lia. rewrite orb_true_r. reflexivity. Qed.
Lemma next_at a s : match chars s with ch :: l => next_char (a ++ s) (zlen a) = zlen (a ++ ch) /\ s = ch ++ concat l /\ chars (concat l) = l | [] => next_char (a ++ s) (zlen a) = zlen (a ++ s) + 1 end.
Proof.
  destruct (chars s) as [|ch l] eqn:E.
  - apply chars_nil in E. subst s. rewrite app_nil_r. apply next_end. lia.
  - destruct (chars_uncons s ch l E) as (H1 & H2 & H3 & H4). split; [|auto]. rewrite H3. apply next_piece; assumption.
Qed.
Lemma hop3_ok w e : holds w e -> Cursor e = 0 -> ((hop_fwd 3 e <? 0) || (Limit e <? hop_fwd 3 e)) = (length (chars w) <? 3)%nat.
Proof.
  intros (H1 & H2 & _) H3. unfold hop_fwd. rewrite H1, H2, H3. change (Nat.iter 3 (next_char w) 0) with (next_char w (next_char w (next_char w 0))).
  pose proof (next_at [] w) as N1. change (zlen (@nil Z)) with 0 in N1. cbn [app] in N1. destruct (chars w) as [|c1 l1]; [rewrite N1, (next_end w (zlen w + 1)), (next_end w (zlen w + 1 + 1)) by lia; pose proof (zlen_nonneg w); cbn [length]; lia|]. destruct N1 as (N1 & S1 & L1). rewrite N1.
  pose proof (next_at c1 (concat l1)) as N2. rewrite L1, <- S1 in N2. destruct l1 as [|c2 l2]; [rewrite N2, next_end by lia; pose proof (zlen_nonneg w); cbn [length]; lia|]. destruct N2 as (N2 & S2 & L2). rewrite N2.
  pose proof (next_at (c1 ++ c2) (concat l2)) as N3. rewrite <- app_assoc, <- S2, <- S1, L2 in N3. destruct l2 as [|c3 l3]; [rewrite N3; pose proof (zlen_nonneg w); cbn [length]; lia|]. destruct N3 as (N3 & S3 & L3). rewrite N3.
  assert (zlen w = zlen ((c1 ++ c2) ++ c3) + zlen (concat l3)) as Hz by (rewrite S1, S2, S3, !zlen_app; lia). pose proof (zlen_nonneg ((c1 ++ c2) ++ c3)). pose proof (zlen_nonneg (concat l3)). cbn [length]. lia.
Qed.

(** marking *)
Definition codes (c : Z) (l : list bytes) : nat := length (filter (fun ch => code ch =? c) l).
Lemma codes_len c l : (codes c l <= length l)%nat. Proof. unfold codes. induction l as [|x l IH]; cbn [filter]; [reflexivity|]. destruct (code x =? c); cbn [length] in *; lia. Qed.
Lemma codes_cons c x l : codes c (x :: l) = ((if (code x =? c)%Z then 1 else 0) + codes c l)%nat. Proof. unfold codes. cbn [filter]. destruct (code x =? c); reflexivity. Qed.
Lemma next_zlen a s e ch l : fw a s e -> chars s = ch :: l -> Cursor (NextChar e) = zlen (a ++ ch). Proof. intros Hf Hc. destruct (fw_next a s e ch l Hf Hc) as (-> & _). reflexivity. Qed.
Lemma find_vy_ok : forall a s e, fw a s e -> exists ok e', find_vy e = Ret (ok, e') /\ cur e' = cur e /\ Limit e' = Limit e /\ LimitBackward e' = LimitBackward e /\
    (ok = true -> exists k x r, chars s = k ++ x :: r /\ Bra e' = zlen (a ++ concat k) /\ Ket e' = zlen (a ++ concat k ++ x) /\
       mark false (chars s) = mark false (k ++ bs "Y" :: r) /\ marked false (chars s) = true /\ (codes 121 (k ++ bs "Y" :: r) < codes 121 (chars s))%nat) /\
    (ok = false -> match chars s with c :: t => mark false (c :: t) = c :: mark false t /\ marked false (c :: t) = marked false t /\ (codes 121 t <= codes 121 (c :: t))%nat | [] => mark false [] = [] /\ marked false [] = false end).
Proof.
  intros a s e Hf. unfold find_vy. rewrite (in_v_f a s e Hf). destruct (chars s) as [|c t] eqn:Ec.
  { cbn [bind negb]. eexists _, _. split; [reflexivity|]. repeat (split; [reflexivity|]). split; [discriminate|]. intros _. split; reflexivity. }
  destruct (fw_next a s e c t Hf Ec) as (Hn1 & Hn2). destruct (chars_uncons s c t Ec) as (_ & _ & _ & Hl). destruct (vowel c) eqn:Ev; cbn [bind negb].
  - assert (fw (a ++ c) (concat t) (set_Bra (Cursor (NextChar e)) (NextChar e))) as Hf2 by exact Hn2. change (bs "y") with [121]; rewrite (eqs_fw _ _ 121 _ Hf2) by lia. rewrite Hl. destruct t as [|y t].
    { cbn [bind]. eexists _, _. split; [reflexivity|]. repeat (split; [reflexivity|]). split; [discriminate|]. intros _. cbn [mark marked andb]. rewrite codes_cons. split; [reflexivity|]. split; [reflexivity|lia]. }
    destruct (code y =? 121) eqn:Ey; cbn [bind].
    + eexists true, _. split; [reflexivity|]. repeat (split; [reflexivity|]). split; [|discriminate]. intros _. exists [c], y, t. cbn [app concat]. rewrite app_nil_r. split; [reflexivity|]. split; [exact (next_zlen a s e c _ Hf Ec)|]. split.
      * destruct (chars_uncons s c (y :: t) Ec) as (_ & _ & Hs & _). pose proof (fw_next _ _ _ y t Hf2 Hl) as (Hn3 & _). cbn [Ket set_Ket]. rewrite Hn3. cbn [Cursor set_Cursor]. rewrite <- app_assoc. reflexivity.
      * cbn [mark marked andb]. rewrite Ev, Ey. cbn [andb mark]. change (code (bs "Y") =? 121) with false. change (vowel (bs "Y")) with false. cbn [andb]. split; [reflexivity|]. split; [reflexivity|]. rewrite !codes_cons, Ey. change (code (bs "Y") =? 121) with false. destruct (code c =? 121); lia.
    + eexists false, _. split; [reflexivity|]. repeat (split; [reflexivity|]). split; [discriminate|]. intros _. cbn [mark marked andb]. rewrite Ev, Ey. cbn [andb]. split; [reflexivity|]. split; [reflexivity|]. rewrite (codes_cons _ c). lia.
  - eexists false, _. split; [reflexivity|]. repeat (split; [reflexivity|]). split; [discriminate|]. intros _. cbn [mark marked andb]. rewrite Ev. split; [reflexivity|]. split; [reflexivity|]. rewrite (codes_cons _ c). lia.
Qed.
Definition has_Y (l : list bytes) : bool := existsb (fun ch => code ch =? 89) l.
Lemma find_Y_ok : forall a s e, fw a s e -> exists ok e', find_Y e = Ret (ok, e') /\ cur e' = cur e /\ Limit e' = Limit e /\ LimitBackward e' = LimitBackward e /\
    (ok = true -> exists k x r, chars s = k ++ x :: r /\ Bra e' = zlen (a ++ concat k) /\ Ket e' = zlen (a ++ concat k ++ x) /\
       unmark (chars s) = unmark (k ++ bs "y" :: r) /\ has_Y (chars s) = true /\ (codes 89 (k ++ bs "y" :: r) < codes 89 (chars s))%nat) /\
    (ok = false -> match chars s with c :: t => unmark (c :: t) = c :: unmark t /\ has_Y (c :: t) = has_Y t /\ (codes 89 t <= codes 89 (c :: t))%nat | [] => unmark [] = [] /\ has_Y [] = false end).
Proof.
  intros a s e Hf. unfold find_Y. cbv zeta. assert (fw a s (set_Bra (Cursor e) e)) as Hf1 by exact Hf. change (bs "Y") with [89]; rewrite (eqs_fw _ _ 89 _ Hf1) by lia. destruct (chars s) as [|c t] eqn:Ec.
  { cbn [bind]. eexists _, _. split; [reflexivity|]. repeat (split; [reflexivity|]). split; [discriminate|]. intros _. split; reflexivity. }
  destruct (code c =? 89) eqn:Ey; cbn [bind].
  - eexists true, _. split; [reflexivity|]. repeat (split; [reflexivity|]). split; [|discriminate]. intros _. exists [], c, t. cbn [app concat]. rewrite app_nil_r. split; [reflexivity|]. split; [exact (proj1 (proj2 Hf))|]. split; [exact (next_zlen a s _ c t Hf1 Ec)|].
    unfold unmark. cbn [map]. rewrite Ey. change (code (bs "y") =? 89) with false. split; [reflexivity|]. split; [unfold has_Y; cbn [existsb]; rewrite Ey; reflexivity|]. rewrite !codes_cons, Ey. change (code (bs "y") =? 89) with false. cbv iota. lia.
  - eexists false, _. split; [reflexivity|]. repeat (split; [reflexivity|]). split; [discriminate|]. intros _. unfold unmark, has_Y. cbn [map existsb]. rewrite Ey. split; [reflexivity|]. split; [reflexivity|]. rewrite codes_cons. lia.
Qed.

Lemma fw_start w e : holds w e -> Cursor e = 0 -> fw [] w e. Proof. intros (H1 & H2 & _) H3. split; [exact H1|]. split; [exact H3|exact H2]. Qed.
Lemma start_fw w e : fw [] w e -> LimitBackward e = 0 -> holds w e. Proof. intros (H1 & _ & H2) H3. split; [exact H1|]. split; [exact H2|exact H3]. Qed.
(* replacing the first character *)
Lemma replace_first w e ch l s : fw [] w e -> chars w = ch :: l ->
  exists e', SliceFrom s (set_Ket (Cursor (NextChar (set_Bra (Cursor e) e))) (NextChar (set_Bra (Cursor e) e))) = Ret e' /\ fw [] (s ++ concat l) (set_Cursor 0 e') /\ LimitBackward e' = LimitBackward e.
Proof.
  intros Hf Hc. assert (fw [] w (set_Bra (Cursor e) e)) as Hf1 by exact Hf. destruct (fw_next [] w _ ch l Hf1 Hc) as (Hn & _). rewrite Hn. destruct (chars_uncons w ch l Hc) as (_ & _ & Hs & _). destruct Hf as (H1 & H2 & H3). cbn [app] in H1, H3.
  unfold SliceFrom. cbn [Bra Ket set_Ket set_Bra set_Cursor Cursor app]. assert (w = [] ++ ch ++ concat l) as Hw by exact Hs.
  set (e0 := set_Ket _ _). assert (cur e0 = [] ++ ch ++ concat l) as Hcu by (unfold e0; cbn; congruence). rewrite (ReplaceS_split [] ch (concat l) s e0 (Cursor e) (zlen ch) Hcu H2 eq_refl). eexists. split; [reflexivity|]. split; [|reflexivity].
  split; [reflexivity|]. split; [reflexivity|]. cbn [Limit set_Cursor]. unfold e0. cbn [Limit set_Ket set_Cursor set_Bra app]. rewrite H3, Hs, !zlen_app. lia.
Qed.
Lemma prelude_ok w e ctx : holds w e -> Cursor e = 0 -> exists e' ctx', r_prelude e ctx = Ret (e', ctx') /\ b_Y_found ctx' = marked true (no_quote (chars w)) /\
  holds (concat (mark true (no_quote (chars w)))) e' /\ Cursor e' = 0.
Proof.
  intros Hh Hc. pose proof (fw_start w e Hh Hc) as Hf. unfold r_prelude. cbv zeta.
  (* the apostrophe *)
  assert (exists e1, ('(ok, e) <- EqS (bs "'") (set_Bra (Cursor e) e) ;; (if ok : bool then SliceDel (set_Ket (Cursor e) e) else Ret e)) = Ret e1 /\ fw [] (concat (no_quote (chars w))) (set_Cursor 0 e1) /\ LimitBackward e1 = 0) as (e1 & E1 & Hf1 & Hb1).
  { assert (fw [] w (set_Bra (Cursor e) e)) as Hf0 by exact Hf. change (bs "'") with [39]; rewrite (eqs_fw _ _ 39 _ Hf0) by lia. unfold no_quote. destruct (chars w) as [|ch l] eqn:Ec.
    - cbn [bind]. eexists. split; [reflexivity|]. apply chars_nil in Ec. subst w. split; [|exact (proj2 (proj2 Hh))]. split; [exact (proj1 Hf)|]. split; [reflexivity|exact (proj2 (proj2 Hf))].
    - destruct (code ch =? 39); cbn [bind].
      + destruct (replace_first w e ch l [] Hf Ec) as (e1 & E1 & Hf1 & Hb1). exists e1. split; [exact E1|]. split; [exact Hf1|]. rewrite Hb1. exact (proj2 (proj2 Hh)).
      + eexists. split; [reflexivity|]. rewrite <- Ec, concat_chars. split; [|exact (proj2 (proj2 Hh))]. split; [exact (proj1 Hf)|]. split; [reflexivity|exact (proj2 (proj2 Hf))]. }
  destruct (EqS (bs "'") (set_Bra (Cursor e) e)) as [[ok e0]| | |]; try discriminate. cbn [bind] in E1 |- *. rewrite E1. cbn [bind]. rewrite Hc. set (l := no_quote (chars w)) in *.
  assert (chars (concat l) = l) as Hl by (unfold l, no_quote; destruct (chars w) as [|ch t] eqn:Ec; [reflexivity|]; destruct (code ch =? 39); [exact (proj2 (proj2 (proj2 (chars_uncons w ch t Ec))))|rewrite <- Ec, concat_chars; reflexivity]). clearbody l. clear E1 e0 ok Hf Hh Hc w e.
  set (e := set_Cursor 0 e1) in *. change (Cursor e) with 0. assert (LimitBackward e = 0) as Hlb by exact Hb1. assert (Cursor e = 0) as Hcu by reflexivity. clearbody e. clear e1 Hb1. rename Hf1 into Hf.
  (* the first character *)
  assert (exists e1 b s, ('(ok, e) <- EqS (bs "y") (set_Bra 0 e) ;; (if ok : bool then e <- SliceFrom (bs "Y") (set_Ket (Cursor e) e) ;; Ret (e, set_Y true (set_Y false ctx)) else Ret (e, set_Y false ctx))) = Ret (e1, set_Y b ctx) /\ fw [] s (set_Cursor 0 e1) /\ LimitBackward e1 = 0 /\
    mark true l = mark false (chars s) /\ marked true l = b || marked false (chars s)) as (e1 & b & s & E1 & Hf1 & Hb1 & Hm & Hm2).
  { assert (fw [] (concat l) (set_Bra 0 e)) as Hf0 by exact Hf. change (bs "y") with [121]; rewrite (eqs_fw _ _ 121 _ Hf0) by lia. rewrite Hl. destruct l as [|ch t] eqn:Ec.
    - cbn [bind]. exists (set_Bra 0 e), false, []. split; [reflexivity|]. split; [|split; [exact Hlb|split; reflexivity]]. split; [exact (proj1 Hf)|]. split; [reflexivity|exact (proj2 (proj2 Hf))].
    - destruct (code ch =? 121) eqn:Ey; cbn [bind].
      + replace (set_Bra 0 e) with (set_Bra (Cursor e) e) by (rewrite Hcu; reflexivity). destruct (replace_first _ e ch t (bs "Y") Hf Hl) as (e1 & E1 & Hf1 & Hb1). rewrite E1. cbn [bind]. exists e1, true, (bs "Y" ++ concat t). split; [reflexivity|]. split; [exact Hf1|]. split; [rewrite Hb1; exact Hlb|].
        destruct (chars_uncons _ ch t Hl) as (_ & Hcl & _ & Ht). rewrite chars_app by exact Hcl. rewrite Ht. change (chars (bs "Y")) with [bs "Y"]. cbn [app mark marked andb orb]. rewrite Ey. cbn [andb]. split; reflexivity.
      + exists (set_Bra 0 e), false, (concat (ch :: t)). split; [reflexivity|]. split; [split; [exact (proj1 Hf)|]; split; [reflexivity|exact (proj2 (proj2 Hf))]|]. split; [exact Hlb|]. rewrite Hl. cbn [mark marked andb orb]. rewrite Ey. split; reflexivity. }
  destruct (EqS (bs "y") (set_Bra 0 e)) as [[ok e0]| | |]; try discriminate. cbn [bind] in E1 |- *. rewrite E1. cbn [bind]. clear E1 e0 ok Hf Hl Hlb Hcu e.
  set (e := set_Cursor 0 e1) in *. assert (LimitBackward e = 0) as Hlb by exact Hb1. assert (Cursor e = 0) as Hcu by reflexivity. clearbody e. clear e1 Hb1. rename Hf1 into Hf. cbn [b_Y_found set_Y].
  assert (codes 121 (chars s) < fuel_of e)%nat as Hfu by (pose proof (fw_fuel _ _ _ Hf); pose proof (codes_len 121 (chars s)); lia).
  assert (piece (bs "Y") /\ starts_char (bs "Y")) as Hto by (split; [constructor|reflexivity]).
  destruct (repeat_fw find_vy (bs "Y") (mark false) (marked false) (codes 121) Hto find_vy_ok (fuel_of e) b [] s e Hf Hfu) as (e2 & -> & R1 & R2 & R3). cbn [bind].
  eexists _, _. split; [reflexivity|]. cbn [b_Y_found set_Y]. split; [symmetry; exact Hm2|]. rewrite Hm. cbn [app] in R1. split; [|exact Hcu]. split; [exact R1|]. split; [rewrite <- R1; exact R2|]. rewrite <- Hlb. exact R3.
Qed.

(** the regions *)
Lemma region_ok a s e : fw a s e -> exists c, ('(ok, e) <- go_past in_v (fuel_of e) e ;; if negb ok then Ret (false, e) else go_past out_v (fuel_of e) e) =
    Ret (existsb vowel (chars s) && existsb nonvowel (StemEnSpec.after vowel (chars s)), set_Cursor c e) /\
  (existsb vowel (chars s) && existsb nonvowel (StemEnSpec.after vowel (chars s)) = true -> c = zlen (a ++ s) - zlen (region s) /\ exists a', fw a' (region s) (set_Cursor c e)) /\
  (existsb vowel (chars s) && existsb nonvowel (StemEnSpec.after vowel (chars s)) = false -> region s = []).
Proof.
  intros Hf. unfold region. destruct (go_past_fw in_v vowel in_v_f _ a s e Hf (fw_fuel _ _ _ Hf)) as (a1 & A1 & A2 & -> & Hf1). cbn [bind].
  assert (forall P l, existsb P l = false -> StemEnSpec.after P l = []) as Hnone.
  { intros P l. induction l as [|x l IH]; [reflexivity|]. cbn [existsb StemEnSpec.after]. destruct (P x); [discriminate|]. exact IH. }
  destruct (existsb vowel (chars s)) eqn:E1; cbn [negb andb].
  - destruct (go_past_fw out_v nonvowel out_v_f _ _ _ _ Hf1 (fw_fuel _ _ _ Hf1)) as (a2 & B1 & B2 & -> & Hf2). rewrite A2 in *. exists (zlen a2). rewrite set_set in *. split; [reflexivity|]. split.
    + intros _. split; [rewrite A1, B1, (zlen_app a2); lia|]. exists a2. exact Hf2.
    + intros E2. rewrite (Hnone _ _ E2). reflexivity.
  - exists (zlen a1). split; [reflexivity|]. split; [discriminate|]. intros _. rewrite (Hnone _ _ E1). reflexivity.
Qed.
Lemma longest_R1 v : match longest (has_prefix v) A_0 with Some a => v = Str a ++ R1 v /\ Res a = -1 | None => R1 v = region v end.
Proof.
  unfold A_0, R1. cbn [longest Str Res]. unfold has_prefix. change (length (bs "gener")) with 5%nat. change (length (bs "commun")) with 6%nat. change (length (bs "arsen")) with 5%nat.
  assert (forall s n, beqb (firstn n v) s = true -> v = s ++ skipn n v) as Hsk by (intros s n H; apply beqb_true in H; rewrite <- H; symmetry; apply firstn_skipn).
  destruct (beqb (firstn 5 v) (bs "gener")) eqn:Eg.
  - assert (beqb (firstn 6 v) (bs "commun") = false) as ->.
    { destruct (beqb (firstn 6 v) (bs "commun")) eqn:Ec; [|reflexivity]. exfalso. pose proof (Hsk _ _ Eg) as H1. pose proof (Hsk _ _ Ec) as H2. rewrite H1 in H2. discriminate H2. }
    assert (beqb (firstn 5 v) (bs "arsen") = false) as ->.
    { destruct (beqb (firstn 5 v) (bs "arsen")) eqn:Ec; [|reflexivity]. exfalso. apply beqb_true in Eg, Ec. rewrite Eg in Ec. discriminate Ec. }
    cbn [andb Str Res]. split; [apply Hsk; exact Eg|reflexivity].
  - destruct (beqb (firstn 6 v) (bs "commun")) eqn:Ec.
    + assert (beqb (firstn 5 v) (bs "arsen") = false) as ->.
      { destruct (beqb (firstn 5 v) (bs "arsen")) eqn:Ea; [|reflexivity]. exfalso. pose proof (Hsk _ _ Ea) as H1. pose proof (Hsk _ _ Ec) as H2. rewrite H1 in H2. discriminate H2. }
      cbn [andb Str Res]. split; [apply Hsk; exact Ec|reflexivity].
    + destruct (beqb (firstn 5 v) (bs "arsen")) eqn:Ea; [|reflexivity]. cbn [Str Res]. split; [apply Hsk; exact Ea|reflexivity].
Qed.
Lemma mark_ok v e ctx : holds v e -> Cursor e = 0 -> r_mark_regions e ctx = Ret (e, mkContext (b_Y_found ctx) (zlen v - zlen (region (R1 v))) (zlen v - zlen (R1 v))).
Proof.
  intros Hh Hc. pose proof (fw_start v e Hh Hc) as Hf. unfold r_mark_regions. cbv zeta. cbn [b_Y_found i_p1 i_p2]. unfold FindAmong. destruct Hh as (H1 & H2 & H3). rewrite H1, H2, Hc.
  change (slice v 0 (zlen v)) with (slice ([] ++ v) (zlen (@nil Z)) (zlen ([] ++ v))). rewrite (slice_tail [] v _ _ eq_refl eq_refl). cbn [bind].
  assert (forall c, set_Cursor 0 (set_Cursor c e) = e) as Hre by (intros c; rewrite set_set, <- Hc; apply set_Cursor_same).
  (* the second half, from the beginning of R1 *)
  assert (forall a e1, a ++ R1 v = v -> fw a (R1 v) (set_Cursor (zlen a) e) -> e1 = set_Cursor (zlen a) e ->
    ('(ok, e) <- go_past in_v (fuel_of e1) e1 ;; if negb ok then Ret (set_Cursor 0 e, mkContext (b_Y_found ctx) (zlen v) (Cursor e1)) else
     '(ok, e) <- go_past out_v (fuel_of e) e ;; if negb ok then Ret (set_Cursor 0 e, mkContext (b_Y_found ctx) (zlen v) (Cursor e1)) else
     Ret (set_Cursor 0 e, mkContext (b_Y_found ctx) (Cursor e) (Cursor e1))) = Ret (e, mkContext (b_Y_found ctx) (zlen v - zlen (region (R1 v))) (zlen v - zlen (R1 v)))) as Hhalf.
  { intros a e1 Ha Hfa ->. assert (zlen a = zlen v - zlen (R1 v)) as Hza by (rewrite <- Ha at 1; rewrite zlen_app; lia). destruct (region_ok a (R1 v) _ Hfa) as (c & Hg & Hy & Hn). cbn [Cursor set_Cursor]. rewrite Hza in *. rewrite ?set_set in Hg.
    destruct (go_past in_v _ _) as [[ok e2]| | |]; try discriminate. cbn [bind] in *. destruct ok; cbn [negb] in *.
    - rewrite Hg. cbn [bind]. destruct (_ && _); cbn [negb]; rewrite ?set_set; (rewrite Hre || (rewrite <- Hc; rewrite set_Cursor_same)).
      + destruct (Hy eq_refl) as (-> & _). cbn [Cursor set_Cursor]. rewrite Ha. reflexivity.
      + rewrite (Hn eq_refl). change (zlen []) with 0. rewrite Z.sub_0_r. reflexivity.
    - injection Hg as Hb He. rewrite He. rewrite ?set_set. rewrite <- Hc at 1. rewrite set_Cursor_same. rewrite (Hn (eq_sym Hb)). change (zlen []) with 0. rewrite Z.sub_0_r. reflexivity. }
  pose proof (longest_R1 v) as HR. destruct (longest (has_prefix v) A_0) as [a|]; cbn [bind].
  - destruct HR as (HR & ->). cbn [Z.eqb negb bind]. rewrite Z.add_0_l. apply (Hhalf (Str a)); [symmetry; exact HR| |reflexivity].
    split; [cbn; rewrite H1; exact HR|]. split; [reflexivity|]. cbn. rewrite H2, <- HR. reflexivity.
  - cbn [Z.eqb negb]. assert (set_Cursor 0 e = e) as He0 by (rewrite <- Hc; apply set_Cursor_same). rewrite He0. destruct (region_ok [] v e Hf) as (c & Hg & Hy & Hn). rewrite Hg. cbn [bind]. destruct (_ && _); cbn [negb].
    + destruct (Hy eq_refl) as (Hcc & a' & Hfa). apply (Hhalf a').
      * rewrite HR. destruct Hfa as (Ha & _). cbn [cur set_Cursor] in Ha. rewrite <- Ha. exact H1.
      * rewrite HR. destruct Hfa as (F1 & F2 & F3). split; [exact F1|]. split; [reflexivity|exact F3].
      * destruct Hfa as (_ & F2 & _). cbn [Cursor set_Cursor] in F2. rewrite <- F2. reflexivity.
    + rewrite Hre, HR, (Hn eq_refl). change (zlen []) with 0. change (region []) with (@nil Z). change (zlen (@nil Z)) with 0. rewrite Z.sub_0_r. reflexivity.
Qed.

Lemma postlude_ok u e ctx : holds u e -> Cursor e = 0 -> exists ok e', r_postlude e ctx = Ret (ok, e') /\ cur e' = (if b_Y_found ctx then concat (unmark (chars u)) else u).
Proof.
  intros Hh Hc. unfold r_postlude. destruct (b_Y_found ctx); cbn [negb]; [|exists false, e; split; [reflexivity|exact (proj1 Hh)]]. pose proof (fw_start u e Hh Hc) as Hf.
  assert (codes 89 (chars u) < fuel_of e)%nat as Hfu by (pose proof (fw_fuel _ _ _ Hf); pose proof (codes_len 89 (chars u)); lia).
  assert (piece (bs "y") /\ starts_char (bs "y")) as Hto by (split; [constructor|reflexivity]).
  destruct (repeat_fw find_Y (bs "y") unmark has_Y (codes 89) Hto find_Y_ok (fuel_of e) false [] u e Hf Hfu) as (e2 & -> & R1 & R2 & R3). cbn [bind]. eexists _, _. split; [reflexivity|exact R1].
Qed.

Theorem en_exact w : exists e, Stem (NewEnv w) = Ret (true, e) /\ cur e = porter2 w.
Proof.
  unfold Stem, porter2. cbv zeta. destruct (exception1_ok w) as (ok & e0 & E0 & H0). rewrite E0. cbn [bind]. destruct (find _ exceptions) as [x|].
  { destruct H0 as (-> & H0). exists e0. split; [reflexivity|exact H0]. }
  destruct H0 as (-> & H0). change (Cursor (NewEnv w)) with 0. clear E0. set (e1 := set_Cursor 0 e0). assert (holds w e1) as Hh by exact H0. assert (Cursor e1 = 0) as Hc by reflexivity. clearbody e1. clear e0 H0.
  rewrite (hop3_ok w e1 Hh Hc). destruct (length (chars w) <? 3)%nat; [eexists; split; [reflexivity|exact (proj1 Hh)]|]. rewrite set_set.
  assert (set_Cursor 0 e1 = e1) as -> by (rewrite <- Hc; apply set_Cursor_same).
  destruct (prelude_ok w e1 (mkContext false 0 0) Hh Hc) as (e2 & ctx & -> & HY & Hh2 & Hc2). cbn [bind]. set (v := concat (mark true (no_quote (chars w)))) in *. rewrite <- HY. clearbody v. clear HY Hh Hc e1 w.
  rewrite (mark_ok v e2 ctx Hh2 Hc2). cbn [bind]. set (p1 := zlen v - zlen (R1 v)). set (p2 := zlen v - zlen (region (R1 v))). set (c2 := mkContext (b_Y_found ctx) p2 p1). change (b_Y_found ctx) with (b_Y_found c2). change p1 with (i_p1 c2). change p2 with (i_p2 c2). clearbody c2. clear p1 p2.
  set (e3 := set_Cursor _ _). assert (bw v [] e3) as Hb.
  { destruct Hh2 as (K1 & K2 & K3). unfold bw. rewrite app_nil_r. split; [exact K1|]. split; [exact K2|]. split; [exact K2|]. split; [exact Hc2|]. right. left. reflexivity. }
  clearbody e3. clear Hh2 Hc2 e2.
  destruct (do_b_ok r_Step_1a v _ e3 Hb (step1a_ok v e3 Hb)) as (e4 & -> & Hb4). cbn [bind]. set (u := step1a (step0 v)) in *. clearbody u. clear Hb e3 v.
  destruct (exception2_ok u e4 Hb4) as (e5 & -> & Hh5). cbn [bind].
  assert (exists e6, (if existsb (beqb u) left_alone then Ret e5 else
        e <- do_b (fun e => r_Step_1b e c2) (set_Cursor (Limit e5 - (Limit e4 - Cursor e4)) e5) ;;
        e <- do_b r_Step_1c e ;;
        e <- do_b (fun e => r_Step_2 e c2) e ;;
        e <- do_b (fun e => r_Step_3 e c2) e ;;
        e <- do_b (fun e => r_Step_4 e c2) e ;;
        do_b (fun e => r_Step_5 e c2) e) = Ret e6 /\
      holds (if existsb (beqb u) left_alone then u else step5 (i_p1 c2) (i_p2 c2) (step4 (i_p2 c2) (step3 (i_p1 c2) (i_p2 c2) (step2 (i_p1 c2) (step1c (step1b (i_p1 c2) u)))))) e6) as (e6 & -> & Hh6).
  { destruct (existsb (beqb u) left_alone); [exists e5; auto|]. set (e := set_Cursor _ _). assert (bw u [] e) as Hb.
    { destruct Hh5 as (K1 & K2 & K3). destruct Hb4 as (_ & B2 & B3 & _). rewrite app_nil_r in B3. unfold bw. rewrite app_nil_r. split; [exact K1|]. split; [unfold e; cbn [Cursor set_Cursor]; lia|]. split; [exact K2|]. split; [exact K3|]. right. left. reflexivity. }
    clearbody e.
    destruct (do_b_ok (fun e => r_Step_1b e c2) _ _ _ Hb (step1b_ok c2 _ _ Hb)) as (f1 & -> & B1). cbn [bind].
    destruct (do_b_ok r_Step_1c _ _ _ B1 (step1c_ok _ _ B1)) as (f2 & -> & B2). cbn [bind].
    destruct (do_b_ok (fun e => r_Step_2 e c2) _ _ _ B2 (step2_ok c2 _ _ B2)) as (f3 & -> & B3). cbn [bind].
    destruct (do_b_ok (fun e => r_Step_3 e c2) _ _ _ B3 (step3_ok c2 _ _ B3)) as (f4 & -> & B4). cbn [bind].
    destruct (do_b_ok (fun e => r_Step_4 e c2) _ _ _ B4 (step4_ok c2 _ _ B4)) as (f5 & -> & B5). cbn [bind].
    destruct (do_b_ok (fun e => r_Step_5 e c2) _ _ _ B5 (step5_ok c2 _ _ B5)) as (f6 & -> & B6). exists f6. split; [reflexivity|]. pose proof (bw_holds _ _ _ B6) as Hh. rewrite app_nil_r in Hh. exact Hh. }
  cbn [bind]. set (z := if existsb (beqb u) left_alone then u else _) in *. clearbody z. pose proof Hh6 as (K1 & K2 & K3). rewrite K3.
  destruct (postlude_ok z (set_Cursor 0 e6) c2 Hh6 eq_refl) as (ok & e7 & -> & Hcur). cbn [bind]. eexists. split; [reflexivity|]. exact Hcur.
Qed.
