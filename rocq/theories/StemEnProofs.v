(** The English stemmer computes [porter2]. *)
From Coq Require Import Bool Lia ZifyBool String.
From Verif Require Import Base BaseLemmas Text TextProofs TextProofs2 GoMap Snowball StemSpec StemProofs StemFwdProofs StemEn StemEnSpec StemChars.
Local Open Scope Z_scope.
Local Notation length := List.length.

(** ** endings *)
Lemma strip_ok s w p : strip s w = Some p <-> w = p ++ s.
Proof.
  unfold strip. split.
  - destruct (beqb _ s) eqn:E; [|discriminate]. apply beqb_true in E. intros H. injection H as <-. rewrite <- E at 2. symmetry. apply firstn_skipn.
  - intros ->. replace (length (p ++ s) - length s)%nat with (length p) by (rewrite app_length; lia). rewrite skipn_app, Nat.sub_diag, skipn_all. cbn [app skipn]. rewrite beqb_refl, firstn_app, Nat.sub_diag, firstn_all. cbn [firstn]. rewrite app_nil_r. reflexivity.
Qed.
Lemma has_end_ok s p : has_end s p = true <-> ends p s.
Proof.
  unfold has_end. destruct (strip s p) as [u|] eqn:E; split; try discriminate; try reflexivity.
  - intros _. exists u. apply strip_ok. exact E.
  - intros (u & Hu). apply strip_ok in Hu. congruence.
Qed.
Lemma ends_same (a s b t : bytes) : a ++ s = b ++ t -> length s = length t -> s = t.
Proof.
  intros H Hl. assert (length a = length b) as Ha by (apply (f_equal (@length Z)) in H; rewrite !app_length in H; lia).
  revert b Ha H. induction a as [|x a IH]; intros [|y b] Ha H; try discriminate; [exact H|]. cbn in H. injection H as _ H. apply (IH b); [now injection Ha|exact H].
Qed.

Fixpoint falling (l : list nat) : bool := match l with a :: (b :: _) as t => (b <=? a)%nat && falling t | _ => true end.
Definition mem (s : bytes) (l : list bytes) : bool := existsb (beqb s) l.
(* the rules and the table have the same endings, the rules with the longest first *)
Definition matches (A : list among) (ss : list bytes) : bool :=
  falling (map (@length Z) ss) && forallb (fun a => mem (Str a) ss) A && forallb (fun s => mem s (map Str A)) ss.
Lemma mem_in s l : mem s l = true -> In s l.
Proof. unfold mem. rewrite existsb_exists. intros (x & Hx & E). apply beqb_true in E. subst. exact Hx. Qed.
Definition acted (act : bytes -> option bytes) (p w : bytes) : bytes := match act p with Some w' => w' | None => w end.
Lemma falling_tl a l : falling (a :: l) = true -> (forall b, In b l -> (b <= a)%nat) /\ falling l = true.
Proof.
  revert a. induction l as [|b l IH]; intros a H; [split; [intros b []|reflexivity]|]. cbn [falling] in H. apply andb_true_iff in H. destruct H as (H1 & H2). apply Nat.leb_le in H1. destruct (IH b H2) as (H3 & H4). split; [|exact H2].
  intros c [<-|Hc]; [exact H1|]. specialize (H3 c Hc). lia.
Qed.
Lemma rules_first (rs : list rule) w s : falling (map (@length Z) (map fst rs)) = true -> In s (map fst rs) -> ends w s -> (forall s', In s' (map fst rs) -> ends w s' -> (length s' <= length s)%nat) ->
  exists p act, w = p ++ s /\ In (s, act) rs /\ rules rs w = acted act p w.
Proof.
  induction rs as [|[s0 act0] rs IH]; intros Hf Hin He Hmax; [destruct Hin|]. cbn [map fst rules] in *. destruct (falling_tl _ _ Hf) as (Hf1 & Hf2). destruct (strip s0 w) as [p|] eqn:E.
  - apply strip_ok in E. assert (s0 = s) as ->.
    { destruct He as (u & Hu). apply (ends_same p s0 u s); [congruence|]. pose proof (Hmax s0 (or_introl eq_refl) (ex_intro _ p E)). destruct Hin as [->|Hin]; [reflexivity|]. assert (length s <= length s0)%nat by (apply Hf1; apply in_map; exact Hin). lia. }
    exists p, act0. split; [exact E|]. split; [left; reflexivity|reflexivity].
  - destruct Hin as [->|Hin]; [exfalso; destruct He as (u & Hu); apply strip_ok in Hu; congruence|].
    destruct (IH Hf2 Hin He) as (p & act & H1 & H2 & H3); [intros s' Hs'; apply Hmax; right; exact Hs'|]. exists p, act. split; [exact H1|]. split; [right; exact H2|exact H3].
Qed.
Lemma rules_none (rs : list rule) w : (forall s, In s (map fst rs) -> ~ ends w s) -> rules rs w = w.
Proof.
  induction rs as [|[s act] rs IH]; intros H; [reflexivity|]. cbn [rules]. destruct (strip s w) as [p|] eqn:E; [exfalso; apply (H s (or_introl eq_refl)); exists p; apply strip_ok; exact E|]. apply IH. intros s' Hs'. apply H. right. exact Hs'.
Qed.
Lemma table_rules A (rs : list rule) w : matches A (map fst rs) = true ->
  match longest (has_suffix w) A with
  | Some a => exists p act, w = p ++ Str a /\ In a A /\ In (Str a, act) rs /\ rules rs w = acted act p w
  | None => rules rs w = w
  end.
Proof.
  intros Hm. apply andb_true_iff in Hm. destruct Hm as (Hm & H3). apply andb_true_iff in Hm. destruct Hm as (H1 & H2). rewrite forallb_forall in H2, H3. destruct (longest (has_suffix w) A) as [a|] eqn:E.
  - apply longest_some in E. destruct E as (Ha & Hs & Hmax). apply has_suffix_ok in Hs.
    destruct (rules_first rs w (Str a) H1) as (p & act & E1 & E2 & E3); [apply mem_in; apply H2; exact Ha|exact Hs| |exists p, act; auto].
    intros s' Hs' He'. specialize (H3 s' Hs'). apply mem_in in H3. apply in_map_iff in H3. destruct H3 as (b & <- & Hb). apply has_suffix_ok in He'. specialize (Hmax b Hb He'). unfold zlen in Hmax. lia.
  - apply rules_none. intros s Hs He. specialize (H3 s Hs). apply mem_in in H3. apply in_map_iff in H3. destruct H3 as (b & <- & Hb). pose proof (longest_none _ _ E b Hb) as Hn. apply has_suffix_ok in He. congruence.
Qed.

(** ** classes of characters *)
Definition among_codes (s : bytes) (c : Z) : bool := existsb (Z.eqb c) s.
Lemma all_range (f : Z -> bool) lo n : forallb f (map (fun k => lo + Z.of_nat k) (seq 0 n)) = true -> forall x, lo <= x < lo + Z.of_nat n -> f x = true.
Proof. intros H x Hx. rewrite forallb_forall in H. apply H. apply in_map_iff. exists (Z.to_nat (x - lo)). split; [lia|apply in_seq; lia]. Qed.
Lemma group_check g lo hi s : forallb (fun r => match in_group g (r - lo) with Ret b => eqb b (among_codes s r) | _ => false end) (map (fun k => lo + Z.of_nat k) (seq 0 (Z.to_nat (hi - lo + 1)))) = true -> group_pred g lo hi (among_codes s).
Proof.
  intros H r Hr. pose proof (all_range _ _ _ H r ltac:(lia)) as Hx. cbn beta in Hx. destruct (in_group g (r - lo)); try discriminate. apply eqb_prop in Hx. congruence.
Qed.
Lemma G_v_ok : group_pred G_v 97 121 (among_codes (bs "aeiouy")). Proof. apply group_check. vm_compute. reflexivity. Qed.
Lemma G_wxy_ok : group_pred G_v_WXY 89 121 (among_codes (bs "aeiouywxY")). Proof. apply group_check. vm_compute. reflexivity. Qed.
Lemma G_li_ok : group_pred G_valid_LI 99 116 (among_codes (bs "cdeghkmnrt")). Proof. apply group_check. vm_compute. reflexivity. Qed.
Lemma class_in s lo hi c : forallb (fun x => (lo <=? x) && (x <=? hi) && negb (x =? RuneError)) s = true -> negb (c =? RuneError) && (lo <=? c) && (c <=? hi) && among_codes s c = existsb (Z.eqb c) s.
Proof.
  intros H. rewrite forallb_forall in H. unfold among_codes. destruct (existsb (Z.eqb c) s) eqn:E; [|apply andb_false_r]. apply existsb_exists in E. destruct E as (x & Hx & Ex). apply Z.eqb_eq in Ex. subst x. specialize (H c Hx). lia.
Qed.
Lemma class_out s lo hi c : forallb (fun x => (lo <=? x) && (x <=? hi) && negb (x =? RuneError)) s = true -> negb (c =? RuneError) && negb ((lo <=? c) && (c <=? hi) && among_codes s c) = negb (c =? RuneError) && negb (existsb (Z.eqb c) s).
Proof.
  intros H. rewrite forallb_forall in H. unfold among_codes. destruct (existsb (Z.eqb c) s) eqn:E; [|rewrite andb_false_r; reflexivity]. apply existsb_exists in E. destruct E as (x & Hx & Ex). apply Z.eqb_eq in Ex. subst x. specialize (H c Hx). lia.
Qed.
Lemma in_v_f : ftests in_v vowel.
Proof. refine (ftests_ext _ _ _ _ (in_ftests _ _ _ _ G_v_ok)). intros ch. apply class_in. vm_compute. reflexivity. Qed.
Lemma out_v_f : ftests out_v nonvowel.
Proof. refine (ftests_ext _ _ _ _ (out_ftests _ _ _ _ G_v_ok)). intros ch. apply class_out. vm_compute. reflexivity. Qed.
Lemma in_v_bt : btests in_v_b vowel.
Proof. refine (btests_ext _ _ _ _ (in_btests _ _ _ _ G_v_ok)). intros ch. apply class_in. vm_compute. reflexivity. Qed.
Lemma out_v_bt : btests out_v_b nonvowel.
Proof. refine (btests_ext _ _ _ _ (out_btests _ _ _ _ G_v_ok)). intros ch. apply class_out. vm_compute. reflexivity. Qed.
Lemma out_wxy_bt : btests out_wxy_b (but (bs "aeiouywxY")).
Proof. refine (btests_ext _ _ _ _ (out_btests _ _ _ _ G_wxy_ok)). intros ch. apply class_out. vm_compute. reflexivity. Qed.
Lemma in_li_bt : btests in_li_b valid_li.
Proof. refine (btests_ext _ _ _ _ (in_btests _ _ _ _ G_li_ok)). intros ch. apply class_in. vm_compute. reflexivity. Qed.

(** ** the backward steps *)
Definition holds (w : bytes) (e : env) : Prop := cur e = w /\ Limit e = zlen w /\ LimitBackward e = 0.
Definition outcome (x : res (bool * env)) (w : bytes) : Prop := exists ok e, x = Ret (ok, e) /\ holds w e.
Lemma bw_holds p q e : bw p q e -> holds (p ++ q) e. Proof. intros (H1 & H2 & H3 & H4 & H5). split; [exact H1|]. split; [exact H3|exact H4]. Qed.
Lemma holds_cursor w c e : holds w e -> holds w (set_Cursor c e). Proof. intros H. exact H. Qed.
Lemma do_b_ok r w w' e : bw w [] e -> outcome (r e) w' -> exists e', do_b r e = Ret e' /\ bw w' [] e'.
Proof.
  intros (H1 & H2 & H3 & H4 & H5) (ok & e1 & E & (K1 & K2 & K3)). unfold do_b. rewrite E. cbn [bind]. eexists. split; [reflexivity|]. rewrite app_nil_r in *. unfold bw. cbn [cur Cursor Limit LimitBackward set_Cursor]. rewrite app_nil_r.
  split; [exact K1|]. split; [rewrite K2, H2, H3; ring|]. split; [exact K2|]. split; [exact K3|]. right. left. reflexivity.
Qed.

(* replacing the ending *)
Lemma slice_end p m s e : cur e = p ++ m -> Limit e = zlen (p ++ m) -> LimitBackward e = 0 -> Bra e = zlen p -> Ket e = zlen (p ++ m) ->
  exists e', SliceFrom s e = Ret e' /\ holds (p ++ s) e' /\ (Cursor e = zlen p -> s = [] -> Cursor e' = zlen p).
Proof.
  intros H1 H2 H3 H4 H5. assert (cur e = p ++ m ++ []) as H1' by (rewrite app_nil_r; exact H1). unfold SliceFrom. rewrite (ReplaceS_split p m [] s e (Bra e) (Ket e) H1' H4 H5). eexists. split; [reflexivity|]. split.
  - split; [cbn; rewrite app_nil_r; reflexivity|]. split; [cbn [Limit]; rewrite H2, !zlen_app; ring|exact H3].
  - intros Hc ->. cbn [Cursor]. rewrite Hc, H4, H5, zlen_app. pose proof (zlen_nonneg m). change (zlen []) with 0. destruct (zlen p + zlen m <=? zlen p) eqn:E; [lia|]. rewrite Z.ltb_irrefl. reflexivity.
Qed.
(* the state after an ending [m] was found: the mark Ket at the end, Bra and the cursor before [m] *)
Definition found (p m : bytes) (e : env) : Prop := bw p m e /\ Bra e = zlen p /\ Ket e = zlen (p ++ m).
Lemma found_put p m s e : found p m e -> exists e', SliceFrom s e = Ret e' /\ holds (p ++ s) e' /\ (s = [] -> bw p [] e').
Proof.
  intros ((H1 & H2 & H3 & H4 & H5) & H6 & H7). destruct (slice_end p m s e H1 H3 H4 H6 H7) as (e' & E & Hh & Hc). exists e'. split; [exact E|]. split; [exact Hh|]. intros ->. specialize (Hc H2 eq_refl). destruct Hh as (K1 & K2 & K3). rewrite app_nil_r in *.
  unfold bw. rewrite app_nil_r. repeat (split; [assumption|]). right. left. reflexivity.
Qed.
Lemma put_out p m s e : found p m e -> outcome (e <- SliceFrom s e ;; Ret (true, e)) (p ++ s).
Proof. intros H. destruct (found_put p m s e H) as (e' & -> & Hh & _). exists true, e'. split; [reflexivity|exact Hh]. Qed.
Lemma found_move p m c e : found p m e -> exists e', SliceFrom [] (set_Cursor c e) = Ret e' /\ holds (p ++ []) e'.
Proof. intros ((H1 & H2 & H3 & H4 & H5) & H6 & H7). destruct (slice_end p m [] (set_Cursor c e) H1 H3 H4 H6 H7) as (e' & E & Hh & _). exists e'. auto. Qed.
Lemma move_out p m s c e : found p m e -> outcome (e <- SliceFrom s (set_Cursor c e) ;; Ret (true, e)) (p ++ s).
Proof. intros ((H1 & H2 & H3 & H4 & H5) & H6 & H7). destruct (slice_end p m s (set_Cursor c e) H1 H3 H4 H6 H7) as (e' & -> & Hh & _). exists true, e'. auto. Qed.
Lemma same_out ok p m e c : found p m e -> outcome (Ret (ok, set_Cursor c e)) (p ++ m).
Proof. intros (H & _). eexists _, _. split; [reflexivity|]. apply holds_cursor. apply bw_holds. exact H. Qed.
Lemma keep_out ok p m e : found p m e -> outcome (Ret (ok, e)) (p ++ m).
Proof. intros (H & _). eexists _, _. split; [reflexivity|]. apply bw_holds. exact H. Qed.

(* looking for an ending *)
Lemma find_table A (rs : list rule) w e : bw w [] e -> matches A (map fst rs) = true -> (forall a, In a A -> clean (Str a)) ->
  (exists p act a, w = p ++ Str a /\ In a A /\ In (Str a, act) rs /\ rules rs w = acted act p w /\
     FindAmongB A e = Ret (Res a, set_Cursor (zlen p) e) /\ bw p (Str a) (set_Cursor (zlen p) e)) \/
  (FindAmongB A e = Ret (0, e) /\ rules rs w = w).
Proof.
  intros Hb Hm Hcl. pose proof Hb as (H1 & H2 & H3 & H4 & H5). rewrite app_nil_r in H1, H3. assert (at_end [] w e) as Hat by (split; [exact H1|]; split; [exact H4|]; split; [exact H2|exact H3]).
  rewrite (find_b [] w A e Hat). pose proof (table_rules A rs w Hm) as Ht. destruct (longest (has_suffix w) A) as [a|]; [left|right; auto].
  destruct Ht as (p & act & E1 & E2 & E3 & E4). exists p, act, a. split; [exact E1|]. split; [exact E2|]. split; [exact E3|]. split; [exact E4|].
  replace (Cursor e - zlen (Str a)) with (zlen p) by (rewrite H2, E1, zlen_app; lia). split; [reflexivity|]. split; [rewrite <- E1; exact H1|]. split; [reflexivity|]. split; [rewrite <- E1; exact H3|]. split; [exact H4|]. right. apply Hcl. exact E2.
Qed.
Definition clean_table (A : list among) : bool := forallb (fun a => match Str a with b :: _ => RuneStart b | [] => true end) A.
Lemma clean_table_ok A : clean_table A = true -> forall a, In a A -> clean (Str a).
Proof. intros H a Ha. unfold clean_table in H. rewrite forallb_forall in H. specialize (H a Ha). destruct (Str a) as [|b s]; [left; reflexivity|right; exact H]. Qed.
(* the usual beginning of a step: "env.Ket = env.Cursor; among_var = env.FindAmongB(A); if among_var == 0 return false; env.Bra = env.Cursor" *)
Lemma step_find A (rs : list rule) w e : bw w [] e -> matches A (map fst rs) = true -> clean_table A = true ->
  (exists p act a e1, w = p ++ Str a /\ In a A /\ In (Str a, act) rs /\ rules rs w = acted act p w /\
     FindAmongB A (set_Ket (Cursor e) e) = Ret (Res a, e1) /\ found p (Str a) (set_Bra (Cursor e1) e1)) \/
  (exists e1, FindAmongB A (set_Ket (Cursor e) e) = Ret (0, e1) /\ holds w e1 /\ rules rs w = w).
Proof.
  intros Hb Hm Hcl. assert (bw w [] (set_Ket (Cursor e) e)) as Hb1 by exact Hb.
  destruct (find_table A rs w _ Hb1 Hm (clean_table_ok A Hcl)) as [(p & act & a & E1 & E2 & E3 & E4 & E5 & E6)|(E5 & E4)]; [left|right].
  - exists p, act, a. eexists. split; [exact E1|]. split; [exact E2|]. split; [exact E3|]. split; [exact E4|]. split; [exact E5|]. split; [exact E6|]. split; [reflexivity|]. cbn. destruct Hb as (_ & -> & _). rewrite E1. reflexivity.
  - exists (set_Ket (Cursor e) e). split; [exact E5|]. split; [|exact E4]. pose proof (bw_holds w [] _ Hb1) as Hh. rewrite app_nil_r in Hh. exact Hh.
Qed.

Lemma set_set a b e : set_Cursor a (set_Cursor b e) = set_Cursor a e. Proof. reflexivity. Qed.
Lemma bw_reset p q e v : bw p q e -> set_Cursor (Limit e - (Limit e - Cursor e)) (set_Cursor v e) = e.
Proof. intros _. rewrite set_set. replace (Limit e - (Limit e - Cursor e)) with (Cursor e) by ring. apply set_Cursor_same. Qed.
Lemma back_reset e : set_Cursor (Limit e - (Limit e - Cursor e)) e = e.
Proof. replace (Limit e - (Limit e - Cursor e)) with (Cursor e) by ring. apply set_Cursor_same. Qed.
Lemma test_b test P p q e : btests test P -> bw p q e ->
  match rev (chars p) with
  | ch :: l => test e = Ret (P ch, if P ch then set_Cursor (zlen p - zlen ch) e else e) /\ bw (concat (rev l)) (ch ++ q) (set_Cursor (zlen p - zlen ch) e) /\ rev (chars (concat (rev l))) = l
  | [] => test e = Ret (false, e)
  end.
Proof.
  intros Ht Hb. rewrite (Ht p q e Hb). destruct (rev (chars p)) as [|ch l] eqn:Er; [reflexivity|]. destruct (bw_step p q e l ch Hb Er) as (H1 & H2 & H3 & H4). split; [destruct (P ch); reflexivity|]. split; [exact H1|]. rewrite H3. apply rev_involutive.
Qed.
(* the last test of r_shortv: the cursor has reached the beginning *)
Lemma at_start p q e : bw p q e -> negb (LimitBackward e <? Cursor e) = match rev (chars p) with [] => true | _ => false end.
Proof. intros Hb. rewrite <- (bw_limit p q e Hb). lia. Qed.
Lemma shortv_ok p q e : bw p q e -> exists c, r_shortv e = Ret (short_syllable p, set_Cursor c e).
Proof.
  intros Hb. unfold r_shortv, short_syllable. cbv zeta.
  (* the second alternative *)
  assert (exists c, ('(ok, e) <- out_v_b e;; (if negb ok then Ret (false, e) else '(ok, e) <- in_v_b e;; (if negb ok then Ret (false, e) else Ret (negb (LimitBackward e <? Cursor e), e)))) =
    Ret (match rev (chars p) with [c; v] => nonvowel c && vowel v | _ => false end, set_Cursor c e)) as (c2 & H2).
  { pose proof (test_b out_v_b nonvowel p q e out_v_bt Hb) as T1. destruct (rev (chars p)) as [|c l] eqn:Er; [exists (Cursor e); rewrite T1, set_Cursor_same; reflexivity|].
    destruct T1 as (T1 & Hb1 & Er1). rewrite T1. cbn [bind]. destruct (nonvowel c); cbn [negb andb]; [|exists (Cursor e); rewrite set_Cursor_same; destruct l as [|? [|]]; reflexivity].
    pose proof (test_b in_v_b vowel _ _ _ in_v_bt Hb1) as T2. rewrite Er1 in T2. destruct l as [|v l]; [rewrite T2; eexists; reflexivity|]. destruct T2 as (T2 & Hb2 & Er2). rewrite T2. cbn [bind].
    destruct (vowel v); cbn [negb]; [|eexists; destruct l; reflexivity]. rewrite (at_start _ _ _ Hb2), Er2. destruct l; eexists; reflexivity. }
  pose proof (test_b out_wxy_b _ p q e out_wxy_bt Hb) as T1. destruct (rev (chars p)) as [|c l] eqn:Er.
  - rewrite T1. cbn [bind]. rewrite back_reset. exists c2. exact H2.
  - destruct T1 as (T1 & Hb1 & Er1). rewrite T1. cbn [bind]. destruct (but (bs "aeiouywxY") c) eqn:Ec; cbn [bind andb].
    + pose proof (test_b in_v_b vowel _ _ _ in_v_bt Hb1) as T2. rewrite Er1 in T2. destruct l as [|v l].
      * rewrite T2. cbn [bind]. change (Limit (set_Cursor (zlen p - zlen c) e)) with (Limit e). rewrite (bw_reset p q e _ Hb). exists c2. exact H2.
      * destruct T2 as (T2 & Hb2 & Er2). rewrite T2. cbn [bind]. destruct (vowel v) eqn:Ev.
        -- pose proof (test_b out_v_b nonvowel _ _ _ out_v_bt Hb2) as T3. rewrite Er2 in T3. destruct l as [|n l].
           ++ rewrite T3. cbn [bind]. rewrite !set_set. change (Limit (set_Cursor _ e)) with (Limit e). rewrite back_reset. exists c2. exact H2.
           ++ destruct T3 as (T3 & _ & _). rewrite T3. cbn [bind andb]. destruct (nonvowel n).
              ** eexists. rewrite !set_set. reflexivity.
              ** rewrite !set_set. change (Limit (set_Cursor _ e)) with (Limit e). rewrite back_reset. exists c2. exact H2.
        -- cbn [bind andb]. change (Limit (set_Cursor (zlen p - zlen c) e)) with (Limit e). rewrite (bw_reset p q e _ Hb). destruct l; exists c2; exact H2.
    + rewrite back_reset. exists c2. destruct l as [|v [|n l]]; exact H2.
Qed.

(* which rule belongs to an entry *)
Ltac pick H := match type of H with In (?s, ?a) [] => destruct H | In (?s, ?a) ((?t, ?b) :: ?r) =>
    let v := eval vm_compute in (beqb s t) in
    lazymatch v with
    | true => let E := fresh "E" in let H' := fresh "H" in destruct H as [E|H'];
        [ apply (f_equal snd) in E; cbn [snd] in E; subst a | pick_no H' ]
    | false => let E := fresh "E" in destruct H as [E|H]; [exfalso; apply (f_equal fst) in E; cbn [fst] in E; vm_compute in E; discriminate E|]; pick H
    end end
with pick_no H := exfalso; cbn [In] in H; repeat (destruct H as [H|H]; [apply (f_equal fst) in H; cbn [fst] in H; vm_compute in H; discriminate H|]); destruct H.
Ltac each_entry H := repeat (destruct H as [<-|H]; [|]); [..|destruct H].

Lemma acted_when c act p w : acted (when c act) p w = if c p then acted act p w else w.
Proof. unfold acted, when. destruct (c p); reflexivity. Qed.
Lemma acted_put s p w : acted (put s) p w = p ++ s. Proof. reflexivity. Qed.
Lemma acted_del p w : acted del p w = p ++ []. Proof. unfold acted, del. rewrite app_nil_r. reflexivity. Qed.


Ltac by_table A Hb :=
  match goal with |- outcome _ (rules ?rs ?w) =>
    let p := fresh "p" in let act := fresh "act" in let a := fresh "a" in let e1 := fresh "e1" in let Hw := fresh "Hw" in let Ha := fresh "Ha" in let Hact := fresh "Hact" in let Hr := fresh "Hr" in let E := fresh "E" in let Hf := fresh "Hf" in
    destruct (step_find A rs w _ Hb) as [(p & act & a & e1 & Hw & Ha & Hact & Hr & E & Hf)|(e1 & E & Hf & Hr)]; [vm_compute; reflexivity|vm_compute; reflexivity| |];
    rewrite E, Hr; cbn [bind];
    [clear E Hr; clear Hb; each_entry Ha; cbn [Str Res] in *; cbn [Z.eqb Pos.eqb]; pick Hact; generalize dependent (set_Bra (Cursor e1) e1); clear e1; let st := fresh "st" in intros st Hf
    |exists false, e1; split; [reflexivity|exact Hf]]
  end.
Lemma found_R1 ctx p m e : found p m e -> r_R1 e ctx = inR1 (i_p1 ctx) p.
Proof. intros ((_ & H & _) & _). unfold r_R1, inR1. rewrite H. reflexivity. Qed.
Lemma found_R2 ctx p m e : found p m e -> r_R2 e ctx = inR2 (i_p2 ctx) p.
Proof. intros ((_ & H & _) & _). unfold r_R2, inR2. rewrite H. reflexivity. Qed.
Lemma found_eqsb p m s e : found p m e -> starts_char s -> exists c, EqSB s e = Ret (has_end s p, set_Cursor c e).
Proof.
  intros ((H1 & H2 & H3 & H4 & H5) & _) Hs. destruct (eqs_b [] p m s e H1 H4 H2 Hs) as (Hy & Hn). destruct (has_end s p) eqn:E.
  - eexists. apply Hy. apply has_end_ok. exact E.
  - exists (Cursor e). rewrite set_Cursor_same. apply Hn. intros He. apply has_end_ok in He. congruence.
Qed.

Lemma step5_ok ctx w e : bw w [] e -> outcome (r_Step_5 e ctx) (step5 (i_p1 ctx) (i_p2 ctx) w).
Proof.
  intros Hb. unfold r_Step_5, step5. cbv zeta. by_table A_8 Hb.
  - rewrite acted_when, acted_del, (found_R2 ctx _ _ _ Hf). destruct (inR2 (i_p2 ctx) p); cbn [orb]; [apply (put_out _ _ _ _ Hf)|]. rewrite back_reset, (found_R1 ctx _ _ _ Hf).
    destruct (inR1 (i_p1 ctx) p); cbn [negb andb]; [|rewrite Hw; exact (keep_out _ _ _ _ Hf)]. destruct (shortv_ok p _ st (proj1 Hf)) as (c & ->). cbn [bind].
    destruct (short_syllable p); cbn [negb]; [rewrite Hw; exact (same_out _ _ _ _ _ Hf)|]. rewrite !set_set. apply (move_out _ _ _ _ _ Hf).
  - unfold r2. rewrite !acted_when, acted_del, (found_R2 ctx _ _ _ Hf). destruct (inR2 (i_p2 ctx) p); cbn [negb]; [|destruct (has_end (bs "l") p); rewrite Hw; exact (keep_out _ _ _ _ Hf)].
    destruct (found_eqsb p _ (bs "l") st Hf eq_refl) as (c & ->). cbn [bind]. destruct (has_end (bs "l") p); cbn [negb]; [apply (move_out _ _ _ _ _ Hf)|rewrite Hw; exact (same_out _ _ _ _ _ Hf)].
Qed.

Lemma step4_ok ctx w e : bw w [] e -> outcome (r_Step_4 e ctx) (step4 (i_p2 ctx) w).
Proof.
  intros Hb. unfold r_Step_4, step4. cbv zeta. by_table A_7 Hb.
  all: rewrite (found_R2 ctx _ _ _ Hf); try (unfold r2; rewrite acted_when, acted_del; destruct (inR2 (i_p2 ctx) p); cbn [negb]; [apply (put_out _ _ _ _ Hf)|rewrite Hw; exact (keep_out _ _ _ _ Hf)]).
  unfold r2. rewrite !acted_when, acted_del. destruct (inR2 (i_p2 ctx) p); cbn [negb]; [|destruct (_ || _); rewrite Hw; exact (keep_out _ _ _ _ Hf)].
  destruct (found_eqsb p _ (bs "s") st Hf eq_refl) as (c & Es). rewrite Es. cbn [bind]. destruct (has_end (bs "s") p) eqn:E1; cbn [orb negb bind]; [apply (move_out _ _ _ _ _ Hf)|].
  assert (set_Cursor (Limit (set_Cursor c st) - (Limit st - Cursor st)) (set_Cursor c st) = st) as -> by (change (Limit (set_Cursor c st)) with (Limit st); apply (bw_reset _ _ _ _ (proj1 Hf))).
  destruct (found_eqsb p _ (bs "t") st Hf eq_refl) as (c' & ->). cbn [bind]. destruct (has_end (bs "t") p); cbn [negb]; [apply (move_out _ _ _ _ _ Hf)|rewrite Hw; exact (same_out _ _ _ _ _ Hf)].
Qed.
Lemma step3_ok ctx w e : bw w [] e -> outcome (r_Step_3 e ctx) (step3 (i_p1 ctx) (i_p2 ctx) w).
Proof.
  intros Hb. unfold r_Step_3, step3. cbv zeta. by_table A_6 Hb.
  all: rewrite (found_R1 ctx _ _ _ Hf); unfold r1; try (rewrite acted_when, acted_put; destruct (inR1 (i_p1 ctx) p); cbn [negb]; [apply (put_out _ _ _ _ Hf)|rewrite Hw; exact (keep_out _ _ _ _ Hf)]).
  rewrite !acted_when, acted_put, (found_R2 ctx _ _ _ Hf). destruct (inR1 (i_p1 ctx) p); cbn [negb]; [|destruct (inR2 (i_p2 ctx) p); rewrite Hw; exact (keep_out _ _ _ _ Hf)].
  destruct (inR2 (i_p2 ctx) p); cbn [negb]; [apply (put_out _ _ _ _ Hf)|rewrite Hw; exact (keep_out _ _ _ _ Hf)].
Qed.
Lemma found_btest test P p m e : btests test P -> found p m e -> exists c, test e = Ret (last_is P p, set_Cursor c e).
Proof.
  intros Ht (Hb & _). unfold last_is. pose proof (test_b test P p m e Ht Hb) as T. destruct (rev (chars p)) as [|ch l]; [exists (Cursor e); rewrite set_Cursor_same; exact T|]. destruct T as (-> & _).
  destruct (P ch); eexists; [reflexivity|]. rewrite set_Cursor_same. reflexivity.
Qed.
Lemma step2_ok ctx w e : bw w [] e -> outcome (r_Step_2 e ctx) (step2 (i_p1 ctx) w).
Proof.
  intros Hb. unfold r_Step_2, step2. cbv zeta. by_table A_5 Hb.
  all: rewrite (found_R1 ctx _ _ _ Hf); unfold r1; try (rewrite acted_when, acted_put; destruct (inR1 (i_p1 ctx) p); cbn [negb]; [apply (put_out _ _ _ _ Hf)|rewrite Hw; exact (keep_out _ _ _ _ Hf)]).
  - rewrite !acted_when, acted_put. destruct (inR1 (i_p1 ctx) p); cbn [negb]; [|destruct (has_end (bs "l") p); rewrite Hw; exact (keep_out _ _ _ _ Hf)].
    destruct (found_eqsb p _ (bs "l") st Hf eq_refl) as (c & ->). cbn [bind]. destruct (has_end (bs "l") p); cbn [negb]; [apply (move_out _ _ _ _ _ Hf)|rewrite Hw; exact (same_out _ _ _ _ _ Hf)].
  - rewrite !acted_when, acted_put. destruct (inR1 (i_p1 ctx) p); cbn [negb]; [|destruct (last_is valid_li p); rewrite Hw; exact (keep_out _ _ _ _ Hf)].
    destruct (found_btest in_li_b valid_li p _ st in_li_bt Hf) as (c & ->). cbn [bind]. destruct (last_is valid_li p); cbn [negb]; [apply (move_out _ _ _ _ _ Hf)|rewrite Hw; exact (same_out _ _ _ _ _ Hf)].
Qed.

