(** The Russian stemmer computes its specification: the backward phase. *)
From Coq Require Import ZifyBool.
From Verif Require Import Base BaseLemmas Text TextProofs TextProofs2 GoMap Snowball StemRu StemSpec StemProofs.
Local Open Scope Z_scope.

Lemma app_inv_len {A} (a b c d : list A) : a ++ b = c ++ d -> length b = length d -> a = c /\ b = d.
Proof.
  intros H Hl. assert (length a = length c) as Hl2 by (apply (f_equal (@length A)) in H; rewrite !app_length in H; lia). clear Hl.
  revert c Hl2 H. induction a as [|x a IH]; intros [|y c] Hl2 H; try discriminate; [split; [reflexivity|exact H]|].
  cbn in H. injection H as -> H. destruct (IH c) as [-> ->]; [now injection Hl2|exact H|]. split; reflexivity.
Qed.
Lemma takes_off_fun es s w p s' p' : takes_off es s w p -> takes_off es s' w p' -> s = s' /\ p = p'.
Proof.
  intros (H1 & H2 & H3) (H1' & H2' & H3'). assert (length s = length s') as Hl.
  { apply Nat.le_antisymm; [apply H3'; [exact H2|exists p; exact H1]|apply H3; [exact H2'|exists p'; exact H1']]. }
  rewrite H1 in H1'. destruct (app_inv_len p s p' s' H1' Hl). split; assumption.
Qed.
Definition same_set (t : list among) (es : list bytes) : Prop := forall s, In s (map Str t) <-> In s es.
Lemma longest_takes t es r a : same_set t es -> longest (has_suffix r) t = Some a -> exists p, takes_off es (Str a) r p /\ In a t.
Proof.
  intros Hs Hl. apply longest_some in Hl. destruct Hl as (Hi & Ho & Hm). apply has_suffix_ok in Ho. destruct Ho as (p & Hp).
  exists p. split; [|exact Hi]. split; [exact Hp|]. split; [apply Hs; apply in_map; exact Hi|]. intros s' Hi' He. apply Hs in Hi'. apply in_map_iff in Hi'.
  destruct Hi' as (b & <- & Hb). specialize (Hm b Hb (proj2 (has_suffix_ok _ _) He)). unfold zlen, bytes in *. lia.
Qed.
Lemma longest_no_takes t es r : same_set t es -> longest (has_suffix r) t = None -> ~ exists s p, takes_off es s r p.
Proof.
  intros Hs Hl (s & p & H1 & H2 & H3). apply Hs in H2. apply in_map_iff in H2. destruct H2 as (b & <- & Hb). pose proof (longest_none _ _ Hl b Hb) as Hf.
  assert (has_suffix r (Str b) = true) by (apply has_suffix_ok; exists p; exact H1). congruence.
Qed.
Definition mem (s : bytes) (l : list bytes) : bool := existsb (beqb s) l.
Lemma mem_ok s l : mem s l = true <-> In s l.
Proof. unfold mem. rewrite existsb_exists. split; [intros (x & Hx & He); apply beqb_true in He; subst; exact Hx|intros H; exists s; split; [exact H|apply beqb_refl]]. Qed.
Definition same_setb (t : list among) (es : list bytes) : bool := forallb (fun a => mem (Str a) es) t && forallb (fun s => mem s (map Str t)) es.
Lemma same_setb_ok t es : same_setb t es = true -> same_set t es.
Proof.
  intros H. apply andb_prop in H. destruct H as [H1 H2]. rewrite forallb_forall in H1, H2. intros s. split; intros Hi.
  - apply in_map_iff in Hi. destruct Hi as (a & <- & Ha). apply mem_ok. exact (H1 a Ha).
  - apply mem_ok. exact (H2 s Hi).
Qed.
(* in a two-group table result 1 marks the first group *)
Definition groupsb (t : list among) (g1 g2 : list bytes) : bool :=
  same_setb t (g1 ++ g2) && forallb (fun a => (Res a =? 1) && mem (Str a) g1 || (Res a =? 2) && negb (mem (Str a) g1)) t.
Definition nonzero (t : list among) : bool := forallb (fun a => negb (Res a =? 0)) t.

(** what a backward routine does to the part it may touch *)
Definition does (f : env -> res (bool * env)) (R : bytes -> bytes -> Prop) : Prop := forall keep r e, at_end keep r e ->
  (exists p e', R r p /\ f e = Ret (true, e') /\ behind keep p e') \/ (~ (exists p, R r p)) /\ exists e', f e = Ret (false, e') /\ behind keep r e'.
Definition does_end (f : env -> res (bool * env)) (R : bytes -> bytes -> Prop) : Prop := forall keep r e, at_end keep r e ->
  (exists p e', R r p /\ f e = Ret (true, e') /\ at_end keep p e') \/ (~ (exists p, R r p)) /\ exists e', f e = Ret (false, e') /\ at_end keep r e'.
Lemma does_end_does f R : does_end f R -> does f R.
Proof.
  intros H keep r e He. destruct (H keep r e He) as [(p & e' & Hr & Hf & Ha)|(Hn & e' & Hf & Ha)]; [left; exists p, e'|right; split; [exact Hn|]; exists e'];
    repeat split; try assumption; apply Ha.
Qed.

(* deleting the slice marked before and after the ending *)
Lemma del_ending keep p s e : cur e = keep ++ p ++ s -> LimitBackward e = zlen keep -> Limit e = zlen (keep ++ p ++ s) -> Bra e = zlen (keep ++ p) -> Ket e = Limit e ->
  Cursor e <= Bra e -> exists e', SliceDel e = Ret e' /\ behind keep p e' /\ (Cursor e = Bra e -> Cursor e' = zlen (keep ++ p)).
Proof.
  intros H1 H2 H3 H4 H5 H6. unfold SliceDel, SliceFrom. rewrite (ReplaceS_split (keep ++ p) s [] [] e (Bra e) (Ket e)).
  - eexists. split; [reflexivity|]. split; [split; [|split]; cbn [cur LimitBackward Limit]|].
    + rewrite !app_nil_r. reflexivity.
    + exact H2.
    + rewrite H3, !zlen_app. change (zlen (@nil Z)) with 0. ring.
    + intros Hc. cbn [Cursor]. rewrite Hc, H4. rewrite H5, H3, app_assoc, (zlen_app (keep ++ p) s). pose proof (zlen_nonneg s).
      destruct (zlen (keep ++ p) + zlen s <=? zlen (keep ++ p)) eqn:E; [change (zlen (@nil Z)) with 0; lia|]. destruct (_ <? _); reflexivity.
  - rewrite app_nil_r, H1, app_assoc. reflexivity.
  - exact H4.
  - rewrite H5, H3, app_assoc. reflexivity.
Qed.

Ltac ends_tac := intros ->; rewrite !zlen_app; ring.
Lemma strip_ending_does t es : same_setb t es = true -> nonzero t = true -> does_end (strip_ending t) (removes es).
Proof.
  intros Hs Hz keep r e (H1 & H2 & H3 & H4). apply same_setb_ok in Hs. unfold strip_ending. rewrite (find_b keep r t (set_Ket (Cursor e) e)) by (split; [exact H1|split; [exact H2|split; assumption]]).
  destruct (longest (has_suffix r) t) as [a|] eqn:El.
  - destruct (longest_takes t es r a Hs El) as (p & Ht & Hi). cbn [bind]. unfold nonzero in Hz. rewrite forallb_forall in Hz. specialize (Hz a Hi). rewrite negb_true_iff in Hz. rewrite Hz.
    pose proof Ht as (Hr & _). left.
    set (e1 := set_Bra _ _).
    assert (cur e1 = keep ++ p ++ Str a) as E1 by (unfold e1; cbn; rewrite H1, Hr; reflexivity).
    assert (LimitBackward e1 = zlen keep) as E2 by exact H2. assert (Limit e1 = zlen (keep ++ p ++ Str a)) as E3 by (unfold e1; cbn; rewrite H4, Hr; reflexivity).
    assert (Bra e1 = zlen (keep ++ p)) as E4 by (unfold e1; cbn; rewrite H3, Hr, !zlen_app; ring). assert (Ket e1 = Limit e1) as E5 by (unfold e1; cbn; rewrite H3, H4; reflexivity).
    assert (Cursor e1 = Bra e1) as E6 by reflexivity. clearbody e1.
    destruct (del_ending keep p (Str a) e1) as (e2 & Hd & Hb & Hc); try assumption; [lia|].
    exists p, e2. split; [exists (Str a); exact Ht|]. rewrite Hd. cbn [bind]. split; [reflexivity|]. destruct Hb as (B1 & B2 & B3). split; [exact B1|]. split; [exact B2|]. split; [|exact B3].
      apply Hc. exact E6.
  - cbn [bind]. right. split; [intros (p & s & Ht); apply (longest_no_takes t es r Hs El); exists s, p; exact Ht|].
    exists (set_Ket (Cursor e) e). split; [reflexivity|]. split; [exact H1|]. split; [exact H2|]. split; assumption.
Qed.

Lemma starts_u8 c : RuneStart (hd 0 (encode_rune c)) = true -> starts_char (u8 [c]).
Proof. unfold u8. cbn [map concat]. rewrite app_nil_r. pose proof (encode_nonempty c). destruct (encode_rune c); [contradiction|]. exact (fun h => h). Qed.
Lemma u8_letter c : u8 [c] = letter c. Proof. unfold u8, letter. cbn [map concat]. apply app_nil_r. Qed.
Lemma ends_dec p s : ends p s \/ ~ ends p s.
Proof. destruct (has_suffix p s) eqn:E; [left; apply has_suffix_ok; exact E|right; intros H; apply has_suffix_ok in H; congruence]. Qed.

(* a_or_ya with the cursor after [p] *)
Lemma a_or_ya_at keep p s e : cur e = keep ++ p ++ s -> LimitBackward e = zlen keep -> Cursor e = zlen (keep ++ p) ->
  (ends p (letter 1072) \/ ends p (letter 1103) -> exists c, a_or_ya e = Ret (true, set_Cursor c e) /\ c <= Cursor e) /\
  (~ (ends p (letter 1072) \/ ends p (letter 1103)) -> a_or_ya e = Ret (false, e)).
Proof.
  intros H1 H2 H3. unfold a_or_ya.
  destruct (eqs_b keep p s (u8 [1072]) e H1 H2 H3 (starts_u8 1072 eq_refl)) as [A1 A2]. rewrite u8_letter in A1, A2.
  assert (set_Cursor (Limit e - (Limit e - Cursor e)) e = e) as Hid by (replace (Limit e - (Limit e - Cursor e)) with (Cursor e) by ring; destruct e; reflexivity).
  destruct (eqs_b keep p s (u8 [1103]) e H1 H2 H3 (starts_u8 1103 eq_refl)) as [Y1 Y2]. rewrite u8_letter in Y1, Y2.
  rewrite !u8_letter. destruct (ends_dec p (letter 1072)) as [He|He].
  - rewrite (A1 He). cbn [bind]. split; [|intros Hn; exfalso; apply Hn; left; exact He]. intros _. eexists. split; [reflexivity|]. pose proof (zlen_nonneg (letter 1072)). cbn [Cursor set_Cursor]. lia.
  - rewrite (A2 He). cbn [bind]. rewrite Hid. destruct (ends_dec p (letter 1103)) as [Hy|Hy].
    + rewrite (Y1 Hy). split; [|intros Hn; exfalso; apply Hn; right; exact Hy]. intros _. eexists. split; [reflexivity|]. pose proof (zlen_nonneg (letter 1103)). lia.
    + rewrite (Y2 Hy). split; [intros [H|H]; contradiction|reflexivity].
Qed.

(* r_perfective_gerund and r_verb are the same code on different tables *)
Definition strip2 (t : list among) (e : env) : res (bool * env) :=
  let e := set_Ket (Cursor e) e in
  '(among_var, e) <- FindAmongB t e ;;
  if among_var =? 0 then Ret (false, e) else
  let e := set_Bra (Cursor e) e in
  if among_var =? 1 then
    '(ok, e) <- a_or_ya e ;;
    if negb ok then Ret (false, e) else e <- SliceDel e ;; Ret (true, e)
  else if among_var =? 2 then e <- SliceDel e ;; Ret (true, e)
  else Ret (true, e).
Lemma strip2_does t g1 g2 : groupsb t g1 g2 = true -> does (strip2 t) (removes2 g1 g2).
Proof.
  intros Hg keep r e (H1 & H2 & H3 & H4). apply andb_prop in Hg. destruct Hg as [Hs Hg]. apply same_setb_ok in Hs. rewrite forallb_forall in Hg.
  unfold strip2. rewrite (find_b keep r t (set_Ket (Cursor e) e)) by (split; [exact H1|split; [exact H2|split; assumption]]).
  destruct (longest (has_suffix r) t) as [a|] eqn:El.
  - destruct (longest_takes t _ r a Hs El) as (p & Ht & Hi). cbn [bind]. specialize (Hg a Hi). pose proof Ht as (Hr & _).
    set (e1 := set_Bra _ _).
    assert (cur e1 = keep ++ p ++ Str a) as E1 by (unfold e1; cbn; rewrite H1, Hr; reflexivity).
    assert (LimitBackward e1 = zlen keep) as E2 by exact H2. assert (Limit e1 = zlen (keep ++ p ++ Str a)) as E3 by (unfold e1; cbn; rewrite H4, Hr; reflexivity).
    assert (Bra e1 = zlen (keep ++ p)) as E4 by (unfold e1; cbn; rewrite H3, Hr, !zlen_app; ring). assert (Ket e1 = Limit e1) as E5 by (unfold e1; cbn; rewrite H3, H4; reflexivity).
    assert (Cursor e1 = Bra e1) as E6 by reflexivity. clearbody e1.
    destruct ((Res a =? 1) && mem (Str a) g1) eqn:Ec.
    + apply andb_prop in Ec. destruct Ec as [Er Em]. apply mem_ok in Em. apply Z.eqb_eq in Er. rewrite Er. cbn [Z.eqb Pos.eqb].
      destruct (a_or_ya_at keep p (Str a) e1 E1 E2 (eq_trans E6 E4)) as [A1 A2].
      destruct (ends_dec p (letter 1072)) as [Hx|Hx]; [|destruct (ends_dec p (letter 1103)) as [Hy|Hy]].
      1, 2: destruct A1 as (c & -> & Hc); [tauto|]; cbn [bind negb];
        destruct (del_ending keep p (Str a) (set_Cursor c e1)) as (e2 & Hd & Hb & _); [exact E1|exact E2|exact E3|exact E4|exact E5|cbn [Cursor set_Cursor Bra]; lia|];
        left; exists p, e2; rewrite Hd; cbn [bind]; split; [exists (Str a); split; [exact Ht|tauto]|split; [reflexivity|exact Hb]].
      rewrite A2 by tauto. cbn [bind negb]. right. split.
      * intros (p' & s' & Ht' & Ha). destruct (takes_off_fun _ _ _ _ _ _ Ht Ht') as [<- <-]. specialize (Ha Em). tauto.
      * exists e1. split; [reflexivity|]. split; [rewrite E1, Hr; reflexivity|]. split; [exact E2|rewrite E3, Hr; reflexivity].
    + cbn [orb] in Hg. apply andb_prop in Hg. destruct Hg as [Er Em]. apply Z.eqb_eq in Er. rewrite negb_true_iff in Em. rewrite Er. cbn [Z.eqb Pos.eqb].
      destruct (del_ending keep p (Str a) e1) as (e2 & Hd & Hb & _); try assumption; [lia|]. rewrite Hd. cbn [bind]. left. exists p, e2.
      split; [exists (Str a); split; [exact Ht|]|split; [reflexivity|exact Hb]]. intros Hin. apply mem_ok in Hin. congruence.
  - cbn [bind]. right. split; [intros (p & s & Ht & _); apply (longest_no_takes t _ r Hs El); exists s, p; exact Ht|].
    exists (set_Ket (Cursor e) e). split; [reflexivity|]. split; [exact H1|]. split; [exact H2|exact H4].
Qed.

Lemma gerund_does : does r_perfective_gerund (removes2 gerund1 gerund2).
Proof. apply (strip2_does A_0). vm_compute. reflexivity. Qed.
Lemma verb_does : does r_verb (removes2 verb1 verb2).
Proof. apply (strip2_does A_4). vm_compute. reflexivity. Qed.
Lemma adjective_does : does_end r_adjective (removes adjective).
Proof. apply strip_ending_does; vm_compute; reflexivity. Qed.
Lemma reflexive_does : does_end r_reflexive (removes reflexive).
Proof. apply strip_ending_does; vm_compute; reflexivity. Qed.
Lemma noun_does : does_end r_noun (removes noun).
Proof. apply strip_ending_does; vm_compute; reflexivity. Qed.

Lemma adjectival_does : does r_adjectival adjectival.
Proof.
  intros keep r e He. unfold r_adjectival.
  destruct (adjective_does keep r e He) as [(u & e1 & Hu & -> & (H1 & H2 & H3 & H4))|(Hn & e1 & -> & Ha)]; cbn [bind negb].
  2:{ right. split; [intros (p & u & Hu & _); apply Hn; exists u; exact Hu|]. exists e1. split; [reflexivity|]. apply at_end_behind. exact Ha. }
  left. rewrite (find_b keep u A_2 (set_Ket (Cursor e1) e1)) by (split; [exact H1|split; [exact H2|split; assumption]]).
  assert (groupsb A_2 participle1 participle2 = true) as Hg by (vm_compute; reflexivity).
  apply andb_prop in Hg. destruct Hg as [Hs Hg]. apply same_setb_ok in Hs. rewrite forallb_forall in Hg.
  destruct (longest (has_suffix u) A_2) as [a|] eqn:El.
  - destruct (longest_takes _ _ u a Hs El) as (p & Ht & Hi). cbn [bind]. specialize (Hg a Hi). pose proof Ht as (Hr & _).
    set (e2 := set_Bra _ _).
    assert (cur e2 = keep ++ p ++ Str a) as E1 by (unfold e2; cbn; rewrite H1, Hr; reflexivity).
    assert (LimitBackward e2 = zlen keep) as E2 by exact H2. assert (Limit e2 = zlen (keep ++ p ++ Str a)) as E3 by (unfold e2; cbn; rewrite H4, Hr; reflexivity).
    assert (Bra e2 = zlen (keep ++ p)) as E4 by (unfold e2; cbn; rewrite H3, Hr, !zlen_app; ring). assert (Ket e2 = Limit e2) as E5 by (unfold e2; cbn; rewrite H3, H4; reflexivity).
    assert (Cursor e2 = Bra e2) as E6 by reflexivity. clearbody e2.
    destruct ((Res a =? 1) && mem (Str a) participle1) eqn:Ec.
    + apply andb_prop in Ec. destruct Ec as [Er Em]. apply mem_ok in Em. apply Z.eqb_eq in Er. rewrite Er. cbn [Z.eqb Pos.eqb].
      destruct (a_or_ya_at keep p (Str a) e2 E1 E2 (eq_trans E6 E4)) as [A1 A2].
      destruct (ends_dec p (letter 1072)) as [Hx|Hx]; [|destruct (ends_dec p (letter 1103)) as [Hy|Hy]].
      1, 2: destruct A1 as (c & -> & Hc); [tauto|]; cbn [bind negb];
        destruct (del_ending keep p (Str a) (set_Cursor c e2)) as (e3 & Hd & Hb & _); [exact E1|exact E2|exact E3|exact E4|exact E5|cbn [Cursor set_Cursor Bra]; lia|];
        exists p, e3; rewrite Hd; cbn [bind]; split; [exists u; split; [exact Hu|left; exists (Str a); split; [exact Ht|tauto]]|split; [reflexivity|exact Hb]].
      rewrite A2 by tauto. cbn [bind negb]. exists u. eexists. split; [exists u; split; [exact Hu|right; split; [|reflexivity]]|split; [reflexivity|]].
      * intros (p' & s' & Ht' & Ha). destruct (takes_off_fun _ _ _ _ _ _ Ht Ht') as [<- <-]. specialize (Ha Em). tauto.
      * split; [cbn; rewrite E1, Hr; reflexivity|]. split; [exact E2|cbn; rewrite E3, Hr; reflexivity].
    + cbn [orb] in Hg. apply andb_prop in Hg. destruct Hg as [Er Em]. apply Z.eqb_eq in Er. rewrite negb_true_iff in Em. rewrite Er. cbn [Z.eqb Pos.eqb].
      destruct (del_ending keep p (Str a) e2) as (e3 & Hd & Hb & _); try assumption; [lia|]. rewrite Hd. cbn [bind]. exists p, e3.
      split; [exists u; split; [exact Hu|left; exists (Str a); split; [exact Ht|]]|split; [reflexivity|exact Hb]]. intros Hin. apply mem_ok in Hin. congruence.
  - cbn [bind]. exists u. eexists. split; [exists u; split; [exact Hu|right; split; [|reflexivity]]|split; [reflexivity|]].
    + intros (p & s & Ht & _). apply (longest_no_takes _ _ u Hs El). exists s, p. exact Ht.
    + split; [exact H1|]. split; [exact H2|exact H4].
Qed.

(* "v := env.Limit - env.Cursor" at the end, "env.Cursor = env.Limit - v" later *)
Lemma back_to_end keep r e e' q : at_end keep q e -> behind keep r e' -> at_end keep r (set_Cursor (Limit e' - (Limit e - Cursor e)) e').
Proof.
  intros (_ & _ & H3 & H4) (B1 & B2 & B3). split; [exact B1|]. split; [exact B2|]. split; [|exact B3]. cbn [Cursor set_Cursor]. rewrite B3, H3, H4. ring.
Qed.

Lemma step1_does keep r e : at_end keep r e -> exists p e', step1 r p /\ r_step1 e = Ret e' /\ behind keep p e'.
Proof.
  intros He. unfold r_step1.
  destruct (gerund_does keep r e He) as [(p & e1 & Hr & -> & Hb)|(Hn & e1 & -> & Hb)]; cbn [bind].
  { exists p, e1. split; [left; exact Hr|]. split; [reflexivity|exact Hb]. }
  pose proof (back_to_end keep r e e1 r He Hb) as He2. set (e2 := set_Cursor _ e1) in *. clearbody e2.
  assert (exists u e3 ok, optional (removes reflexive) r u /\ r_reflexive e2 = Ret (ok, e3) /\ at_end keep u (if ok : bool then e3 else set_Cursor (Limit e3 - (Limit e2 - Cursor e2)) e3)) as (u & e3 & ok & Hu & -> & Ha).
  { destruct (reflexive_does keep r e2 He2) as [(u & e3 & Hu & -> & Ha)|(Hnr & e3 & -> & Ha)].
    - exists u, e3, true. split; [left; exact Hu|]. split; [reflexivity|exact Ha].
    - exists r, e3, false. split; [right; split; [exact Hnr|reflexivity]|]. split; [reflexivity|]. apply (back_to_end keep r e2 e3 r He2). apply at_end_behind. exact Ha. }
  cbn [bind]. set (e4 := if ok then _ else _) in *. clearbody e4.
  destruct (adjectival_does keep u e4 Ha) as [(p & e5 & Hp & -> & Hb5)|(Hna & e5 & -> & Hb5)]; cbn [bind].
  { exists p, e5. split; [right; split; [exact Hn|]; exists u; split; [exact Hu|left; exact Hp]|]. split; [reflexivity|exact Hb5]. }
  pose proof (back_to_end keep u e4 e5 u Ha Hb5) as He6. set (e6 := set_Cursor _ e5) in *. clearbody e6.
  destruct (verb_does keep u e6 He6) as [(p & e7 & Hp & -> & Hb7)|(Hnv & e7 & -> & Hb7)]; cbn [bind].
  { exists p, e7. split; [right; split; [exact Hn|]; exists u; split; [exact Hu|right; split; [exact Hna|left; exact Hp]]|]. split; [reflexivity|exact Hb7]. }
  pose proof (back_to_end keep u e4 e7 u Ha Hb7) as He8. set (e8 := set_Cursor _ e7) in *. clearbody e8.
  destruct (noun_does keep u e8 He8) as [(p & e9 & Hp & -> & Hb9)|(Hnn & e9 & -> & Hb9)]; cbn [bind].
  - exists p, e9. split; [right; split; [exact Hn|]; exists u; split; [exact Hu|right; split; [exact Hna|right; split; [exact Hnv|left; exact Hp]]]|].
    split; [reflexivity|apply at_end_behind; exact Hb9].
  - exists u, e9. split; [right; split; [exact Hn|]; exists u; split; [exact Hu|right; split; [exact Hna|right; split; [exact Hnv|right; split; [exact Hnn|reflexivity]]]]|].
    split; [reflexivity|apply at_end_behind; exact Hb9].
Qed.

(* one letter at the end *)
Lemma one_letter c w p : removes [letter c] w p <-> w = p ++ letter c.
Proof.
  split.
  - intros (s & H1 & [<-|[]] & _). exact H1.
  - intros H. exists (letter c). split; [exact H|]. split; [left; reflexivity|]. intros s' [<-|[]] _. apply Nat.le_refl.
Qed.

Lemma step2_does keep r e : at_end keep r e ->
  exists p e1 e2 ok, step2 r p /\ EqSB (u8 [1080]) (set_Ket (Cursor e) e) = Ret (ok, e1) /\
    (if ok : bool then SliceDel (set_Bra (Cursor e1) e1) else Ret (set_Cursor (Limit e1 - (Limit e - Cursor e)) e1)) = Ret e2 /\ at_end keep p e2.
Proof.
  intros He. pose proof He as (H1 & H2 & H3 & H4). set (e0 := set_Ket (Cursor e) e).
  destruct (eqs_b keep r [] (u8 [1080]) e0) as [A1 A2]; [cbn; rewrite app_nil_r; exact H1|exact H2|exact H3|exact (starts_u8 1080 eq_refl)|]. rewrite u8_letter in *.
  destruct (ends_dec r (letter 1080)) as [(p & Hp)|Hn].
  - rewrite (A1 (ex_intro _ p Hp)). exists p. eexists. set (e1 := set_Bra _ _).
    destruct (del_ending keep p (letter 1080) (set_Bra (Cursor e0 - zlen (letter 1080)) (set_Cursor (Cursor e0 - zlen (letter 1080)) e0))) as (e2 & Hd & (B1 & B2 & B3) & Hc).
    + cbn. rewrite H1, Hp. reflexivity.
    + exact H2.
    + cbn. rewrite H4, Hp. reflexivity.
    + cbn [Bra set_Bra e0 set_Cursor Cursor set_Ket]. rewrite H3, Hp, !zlen_app. ring.
    + cbn [Ket set_Bra set_Cursor e0 Limit set_Ket]. rewrite H3, H4. reflexivity.
    + apply Z.le_refl.
    + exists e2, true. split; [left; apply one_letter; exact Hp|]. split; [reflexivity|]. split; [exact Hd|]. split; [exact B1|]. split; [exact B2|]. split; [apply Hc; reflexivity|exact B3].
  - rewrite (A2 Hn). exists r, e0. eexists. exists false. split; [right; split; [intros (p & Hp); apply one_letter in Hp; apply Hn; exists p; exact Hp|reflexivity]|].
    split; [reflexivity|]. split; [reflexivity|]. apply (back_to_end keep r e e0 r He). split; [exact H1|]. split; [exact H2|exact H4].
Qed.

Lemma step3_does keep ctx r e : at_end keep r e ->
  exists p e' ok, step3 (i_p2 ctx - zlen keep) r p /\ r_derivational e ctx = Ret (ok, e') /\ behind keep p e'.
Proof.
  intros (H1 & H2 & H3 & H4). unfold r_derivational.
  assert (same_set A_6 derivational) as Hs by (apply same_setb_ok; vm_compute; reflexivity).
  assert (nonzero A_6 = true) as Hz by (vm_compute; reflexivity).
  rewrite (find_b keep r A_6 (set_Ket (Cursor e) e)) by (split; [exact H1|split; [exact H2|split; assumption]]).
  destruct (longest (has_suffix r) A_6) as [a|] eqn:El.
  - destruct (longest_takes _ _ r a Hs El) as (p & Ht & Hi). cbn [bind]. unfold nonzero in Hz. rewrite forallb_forall in Hz. specialize (Hz a Hi). rewrite negb_true_iff in Hz. rewrite Hz.
    pose proof Ht as (Hr & _). set (e1 := set_Bra _ _).
    assert (cur e1 = keep ++ p ++ Str a) as E1 by (unfold e1; cbn; rewrite H1, Hr; reflexivity).
    assert (LimitBackward e1 = zlen keep) as E2 by exact H2. assert (Limit e1 = zlen (keep ++ p ++ Str a)) as E3 by (unfold e1; cbn; rewrite H4, Hr; reflexivity).
    assert (Bra e1 = zlen (keep ++ p)) as E4 by (unfold e1; cbn; rewrite H3, Hr, !zlen_app; ring). assert (Ket e1 = Limit e1) as E5 by (unfold e1; cbn; rewrite H3, H4; reflexivity).
    assert (Cursor e1 = Bra e1) as E6 by reflexivity. clearbody e1. unfold r_R2. rewrite E6, E4, zlen_app.
    destruct (i_p2 ctx <=? zlen keep + zlen p) eqn:Ep; cbn [negb].
    + destruct (del_ending keep p (Str a) e1) as (e2 & Hd & Hb & Hc); try assumption; [lia|]. rewrite Hd. cbn [bind]. exists p, e2, true.
      split; [left; split; [exists (Str a); exact Ht|lia]|]. split; [reflexivity|exact Hb].
    + exists r, e1, false. split; [right; split; [|reflexivity]|].
      * intros (p' & (s' & Ht') & Hl). destruct (takes_off_fun _ _ _ _ _ _ Ht Ht') as [_ <-]. lia.
      * split; [reflexivity|]. split; [rewrite E1, Hr; reflexivity|]. split; [exact E2|rewrite E3, Hr; reflexivity].
  - cbn [bind]. exists r. do 2 eexists. split; [right; split; [|reflexivity]|split; [reflexivity|]].
    + intros (p & (s & Ht) & _). apply (longest_no_takes _ _ r Hs El). exists s, p. exact Ht.
    + split; [exact H1|]. split; [exact H2|exact H4].
Qed.

(* the last bytes of two endings of the same word agree *)
Lemma ends_both w s t : ends w s -> ends w t -> has_suffix s t = true \/ has_suffix t s = true.
Proof.
  intros (p & Hp) (q & Hq). destruct (Nat.le_ge_cases (length t) (length s)) as [Hl|Hl]; [left|right]; apply has_suffix_ok.
  - exists (firstn (length s - length t) s). rewrite Hp in Hq.
    assert (s = firstn (length s - length t) s ++ skipn (length s - length t) s) as Hs by (symmetry; apply firstn_skipn).
    rewrite Hs in Hq at 1. rewrite app_assoc in Hq. apply app_inv_len in Hq; [|rewrite skipn_length; lia]. destruct Hq as [_ Heq]. rewrite Hs at 1. f_equal. exact Heq.
  - exists (firstn (length t - length s) t). rewrite Hq in Hp.
    assert (t = firstn (length t - length s) t ++ skipn (length t - length s) t) as Hs by (symmetry; apply firstn_skipn).
    rewrite Hs in Hp at 1. rewrite app_assoc in Hp. apply app_inv_len in Hp; [|rewrite skipn_length; lia]. destruct Hp as [_ Heq]. rewrite Hs at 1. f_equal. exact Heq.
Qed.

Lemma undouble_del keep u e : at_end keep u e ->
  exists p e1 e2 ok, optional undouble u p /\
   (' (ok, e) <- EqSB (u8 [1085]) (set_Ket (Cursor e) e) ;;
    if negb ok then Ret (false, e) else
    let e := set_Bra (Cursor e) e in
    ' (ok, e) <- EqSB (u8 [1085]) e ;;
    if negb ok then Ret (false, e) else
    e <- SliceDel e ;; Ret (true, e)) = Ret (ok, e2) /\ behind keep p e2 /\ e1 = e2.
Proof.
  intros (H1 & H2 & H3 & H4). set (e0 := set_Ket (Cursor e) e).
  destruct (eqs_b keep u [] (u8 [1085]) e0) as [A1 A2]; [cbn; rewrite app_nil_r; exact H1|exact H2|exact H3|exact (starts_u8 1085 eq_refl)|].
  destruct (ends_dec u (u8 [1085])) as [(p & Hp)|Hn].
  - rewrite (A1 (ex_intro _ p Hp)). cbn [bind negb]. set (e1 := set_Bra _ _).
    assert (cur e1 = keep ++ p ++ u8 [1085]) as E1 by (unfold e1; cbn; rewrite H1, Hp; reflexivity).
    assert (LimitBackward e1 = zlen keep) as E2 by exact H2. assert (Limit e1 = zlen (keep ++ p ++ u8 [1085])) as E3 by (unfold e1; cbn -[u8]; rewrite H4, Hp; reflexivity).
    assert (Bra e1 = zlen (keep ++ p)) as E4 by (unfold e1; cbn -[u8]; rewrite H3, Hp, !zlen_app; ring). assert (Ket e1 = Limit e1) as E5 by (unfold e1; cbn; rewrite H3, H4; reflexivity).
    assert (Cursor e1 = Bra e1) as E6 by reflexivity. clearbody e1.
    destruct (eqs_b keep p (u8 [1085]) (u8 [1085]) e1 E1 E2 (eq_trans E6 E4) (starts_u8 1085 eq_refl)) as [B1 B2].
    destruct (ends_dec p (u8 [1085])) as [Hq|Hnq].
    + rewrite (B1 Hq). cbn [bind negb]. pose proof (zlen_nonneg (u8 [1085])).
      destruct (del_ending keep p (u8 [1085]) (set_Cursor (Cursor e1 - zlen (u8 [1085])) e1)) as (e2 & Hd & Hb & _);
        [exact E1|exact E2|exact E3|exact E4|exact E5|cbn [Cursor set_Cursor Bra]; lia|].
      rewrite Hd. cbn [bind]. exists p, e2, e2, true. split; [left; split; [rewrite <- u8_letter; exact Hq|rewrite <- u8_letter; exact Hp]|]. split; [reflexivity|]. split; [exact Hb|reflexivity].
    + rewrite (B2 Hnq). cbn [bind negb]. exists u, e1, e1, false. split; [right; split; [|reflexivity]|].
      * intros (p' & He' & Hp'). rewrite <- u8_letter in *. rewrite Hp in Hp'. apply app_inv_len in Hp'; [|reflexivity]. destruct Hp' as [<- _]. contradiction.
      * split; [reflexivity|]. split; [|reflexivity]. split; [rewrite E1, Hp; reflexivity|]. split; [exact E2|rewrite E3, Hp; reflexivity].
  - rewrite (A2 Hn). cbn [bind negb]. exists u, e0, e0, false. split; [right; split; [|reflexivity]|].
    + intros (p & _ & Hp). apply Hn. exists p. rewrite u8_letter. exact Hp.
    + split; [reflexivity|]. split; [|reflexivity]. split; [exact H1|]. split; [exact H2|exact H4].
Qed.

Definition tidy_endings := [u8 [1077; 1081; 1096]; u8 [1100]; u8 [1077; 1081; 1096; 1077]; u8 [1085]].
Ltac clash H1 H2 := exfalso; let Hc := fresh "Hc" in destruct (ends_both _ _ _ H1 H2) as [Hc|Hc]; vm_compute in Hc; discriminate Hc.
Lemma step4_does keep r e : at_end keep r e -> exists p e' ok, step4 r p /\ r_tidy_up e = Ret (ok, e') /\ behind keep p e'.
Proof.
  intros (H1 & H2 & H3 & H4). unfold r_tidy_up.
  assert (same_set A_7 tidy_endings) as Hs by (apply same_setb_ok; vm_compute; reflexivity).
  rewrite (find_b keep r A_7 (set_Ket (Cursor e) e)) by (split; [exact H1|split; [exact H2|split; assumption]]).
  destruct (longest (has_suffix r) A_7) as [a|] eqn:El.
  - destruct (longest_takes _ _ r a Hs El) as (p & Ht & Hi). cbn [bind]. pose proof Ht as (Hr & _ & Hmax).
    set (e1 := set_Bra _ _).
    assert (cur e1 = keep ++ p ++ Str a) as E1 by (unfold e1; cbn; rewrite H1, Hr; reflexivity).
    assert (LimitBackward e1 = zlen keep) as E2 by exact H2. assert (Limit e1 = zlen (keep ++ p ++ Str a)) as E3 by (unfold e1; cbn; rewrite H4, Hr; reflexivity).
    assert (Bra e1 = zlen (keep ++ p)) as E4 by (unfold e1; cbn; rewrite H3, Hr, !zlen_app; ring). assert (Ket e1 = Limit e1) as E5 by (unfold e1; cbn; rewrite H3, H4; reflexivity).
    assert (Cursor e1 = Bra e1) as E6 by reflexivity. clearbody e1.
    assert (ends r (Str a)) as Hend by (exists p; exact Hr).
    assert (forall x y z, In a [Among (u8 [1077; 1081; 1096]) x 1; Among (u8 [1077; 1081; 1096; 1077]) y z] -> z = 1 ->
       exists p' e' ok, step4 r p' /\ (e <- SliceDel e1 ;;
         let e := set_Ket (Cursor e) e in
         ' (ok, e) <- EqSB (u8 [1085]) e ;;
         if negb ok then Ret (false, e) else
         let e := set_Bra (Cursor e) e in
         ' (ok, e) <- EqSB (u8 [1085]) e ;;
         if negb ok then Ret (false, e) else
         e <- SliceDel e ;; Ret (true, e)) = Ret (ok, e') /\ behind keep p' e') as Hsup.
    { intros x y z Hin ->. destruct (del_ending keep p (Str a) e1) as (e2 & Hd & (B1 & B2 & B3) & Hc); try assumption; [lia|]. rewrite Hd. cbn [bind].
      assert (at_end keep p e2) as He2 by (split; [exact B1|split; [exact B2|split; [apply Hc; exact E6|exact B3]]]).
      destruct (undouble_del keep p e2 He2) as (q & e3 & e4 & ok & Hq & Hx & Hb & _). exists q, e4, ok. split; [|split; [exact Hx|exact Hb]].
      left. right. split.
      - intros (x' & _ & Hx'). rewrite <- u8_letter in Hx'. assert (ends r (u8 [1085])) as Hy by (exists x'; exact Hx').
        destruct Hin as [<-|[<-|[]]]; cbn [Str] in Hend; clash Hend Hy.
      - left. exists p. split; [|exact Hq]. exists (Str a). split; [exact Hr|]. split; [destruct Hin as [<-|[<-|[]]]; [left|right; left]; reflexivity|].
        intros s' Hs' He'. apply Hmax; [|exact He']. destruct Hs' as [<-|[<-|[]]]; unfold tidy_endings; cbn [In]; tauto. }
    destruct Hi as [<-|[<-|[<-|[<-|[]]]]]; cbn [Res Z.eqb Pos.eqb].
    + apply (Hsup (-1) (-1) 1); [left; reflexivity|reflexivity].
    + cbn [Str] in *. destruct (del_ending keep p (u8 [1100]) e1) as (e2 & Hd & Hb & _); try assumption; [lia|]. rewrite Hd. cbn [bind]. exists p, e2, true. split; [|split; [reflexivity|exact Hb]].
      left. right. split; [|right; split].
      * intros (x' & _ & Hx'). rewrite <- u8_letter in Hx'. assert (ends r (u8 [1085])) as Hy by (exists x'; exact Hx'). clash Hend Hy.
      * intros (x' & y' & (s' & Hx' & Hin & _) & _). assert (ends r s') as Hy by (exists y'; exact Hx'). destruct Hin as [<-|[<-|[]]]; clash Hend Hy.
      * apply one_letter. rewrite <- u8_letter. exact Hr.
    + apply (Hsup (-1) (-1) 1); [right; left; reflexivity|reflexivity].
    + cbn [Str] in *. destruct (eqs_b keep p (u8 [1085]) (u8 [1085]) e1 E1 E2 (eq_trans E6 E4) (starts_u8 1085 eq_refl)) as [B1 B2].
      destruct (ends_dec p (u8 [1085])) as [Hq|Hnq].
      * rewrite (B1 Hq). cbn [bind negb]. pose proof (zlen_nonneg (u8 [1085])).
        destruct (del_ending keep p (u8 [1085]) (set_Cursor (Cursor e1 - zlen (u8 [1085])) e1)) as (e2 & Hd & Hb & _);
          [exact E1|exact E2|exact E3|exact E4|exact E5|cbn [Cursor set_Cursor Bra]; lia|].
        rewrite Hd. cbn [bind]. exists p, e2, true. split; [|split; [reflexivity|exact Hb]]. left. left. split; [rewrite <- u8_letter; exact Hq|rewrite <- u8_letter; exact Hr].
      * rewrite (B2 Hnq). cbn [bind negb]. exists r, e1, false. split; [|split; [reflexivity|split; [rewrite E1, Hr; reflexivity|split; [exact E2|rewrite E3, Hr; reflexivity]]]].
        right. split; [|reflexivity]. intros (x & [(Hxe & Hx)|(_ & [(y & (s' & Hx' & Hin & _) & _)|(_ & Hx)])]).
        -- rewrite <- u8_letter in Hxe, Hx. rewrite Hr in Hx. apply app_inv_len in Hx; [|reflexivity]. destruct Hx as [<- _]. contradiction.
        -- assert (ends r s') as Hy by (exists y; exact Hx'). destruct Hin as [<-|[<-|[]]]; clash Hend Hy.
        -- apply one_letter in Hx. rewrite <- u8_letter in Hx. assert (ends r (u8 [1100])) as Hy by (exists x; exact Hx). clash Hend Hy.
  - cbn [bind]. exists r. do 2 eexists. split; [right; split; [|reflexivity]|split; [reflexivity|]].
    + assert (forall s, In s tidy_endings -> ~ ends r s) as Hno.
      { intros s Hin He. apply Hs in Hin. apply in_map_iff in Hin. destruct Hin as (b & <- & Hb). pose proof (longest_none _ _ El b Hb). apply has_suffix_ok in He. congruence. }
      intros (x & [(Hxe & Hx)|(_ & [(y & (s' & Hx' & Hin & _) & _)|(_ & Hx)])]).
      * apply (Hno (u8 [1085])); [cbn [In tidy_endings]; tauto|]. exists x. rewrite u8_letter. exact Hx.
      * apply (Hno s'); [|exists y; exact Hx']. destruct Hin as [<-|[<-|[]]]; cbn [In tidy_endings]; [left; reflexivity|right; right; left; reflexivity].
      * apply one_letter in Hx. apply (Hno (u8 [1100])); [cbn [In tidy_endings]; tauto|]. exists x. rewrite u8_letter. exact Hx.
    + split; [exact H1|]. split; [exact H2|exact H4].
Qed.
