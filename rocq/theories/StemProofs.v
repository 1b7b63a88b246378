(** Lemmas on the stemmer run-time. *)
From Coq Require Import ZifyBool.
From Verif Require Import Base BaseLemmas Text TextProofs TextProofs2 GoMap Snowball StemSpec.
Local Open Scope Z_scope.

Lemma zlen_firstn {A} (l : list A) n : 0 <= n <= zlen l -> zlen (firstn (Z.to_nat n) l) = n.
Proof. unfold zlen. intros. rewrite firstn_length. lia. Qed.
Lemma zlen_skipn {A} (l : list A) n : 0 <= n <= zlen l -> zlen (skipn (Z.to_nat n) l) = zlen l - n.
Proof. unfold zlen. intros. rewrite skipn_length. lia. Qed.

Lemma beqb_true a b : beqb a b = true <-> a = b. Proof. apply beqb_ok. Qed.
Lemma beqb_refl a : beqb a a = true. Proof. apply beqb_true. reflexivity. Qed.
Lemma has_prefix_ok s p : has_prefix s p = true <-> exists t, s = p ++ t.
Proof.
  unfold has_prefix. split.
  - intros H. apply beqb_true in H. exists (skipn (length p) s). rewrite <- H at 1. symmetry. apply firstn_skipn.
  - intros (t & ->). rewrite firstn_app, Nat.sub_diag, firstn_all. cbn [firstn]. rewrite app_nil_r. apply beqb_refl.
Qed.
Lemma has_suffix_ok s p : has_suffix s p = true <-> ends s p.
Proof.
  unfold has_suffix. rewrite has_prefix_ok. split; intros (t & H).
  - exists (rev t). rewrite <- (rev_involutive s), H, rev_app_distr, rev_involutive. reflexivity.
  - exists (rev t). rewrite H, rev_app_distr. reflexivity.
Qed.
Lemma has_prefix_false s p : has_prefix s p = false <-> ~ exists t, s = p ++ t.
Proof. rewrite <- has_prefix_ok. destruct (has_prefix s p); split; congruence. Qed.

Lemma longest_some ok t a : longest ok t = Some a -> In a t /\ ok (Str a) = true /\ forall b, In b t -> ok (Str b) = true -> zlen (Str b) <= zlen (Str a).
Proof.
  revert a. induction t as [|x t IH]; intros a; cbn [longest]; [discriminate|].
  destruct (longest ok t) as [b|] eqn:El.
  - destruct (IH b eq_refl) as (Hi & Ho & Hm). destruct (ok (Str x)) eqn:Ex; cbn [andb].
    + destruct (zlen (Str b) <=? zlen (Str x)) eqn:Ez; intros [= <-].
      * split; [left; reflexivity|]. split; [exact Ex|]. intros c [->|Hc] Hk; [lia|]. specialize (Hm c Hc Hk). lia.
      * split; [right; exact Hi|]. split; [exact Ho|]. intros c [->|Hc] Hk; [lia|]. exact (Hm c Hc Hk).
    + intros [= <-]. split; [right; exact Hi|]. split; [exact Ho|]. intros c [->|Hc] Hk; [congruence|]. exact (Hm c Hc Hk).
  - destruct (ok (Str x)) eqn:Ex; [|discriminate]. intros [= <-]. split; [left; reflexivity|]. split; [exact Ex|].
    intros c [->|Hc] Hk; [lia|]. exfalso.
    clear - El Hc Hk. induction t as [|y t IH]; [destruct Hc|]. cbn [longest] in El.
    destruct (longest ok t) eqn:E2; [destruct (_ && _); discriminate|]. destruct (ok (Str y)) eqn:Ey; [discriminate|]. destruct Hc as [->|Hc]; [congruence|]. exact (IH eq_refl Hc).
Qed.
Lemma longest_none ok t : longest ok t = None -> forall b, In b t -> ok (Str b) = false.
Proof.
  induction t as [|y t IH]; cbn [longest]; intros H b []; [subst y|].
  - destruct (longest ok t); [destruct (_ && _); discriminate|]. destruct (ok (Str b)); [discriminate|reflexivity].
  - destruct (longest ok t); [destruct (_ && _); discriminate|]. apply IH; [reflexivity|assumption].
Qed.

(** slices of split words *)
Lemma slice_split {A} (a b c : list A) x y : x = zlen a -> y = zlen (a ++ b) -> slice (a ++ b ++ c) x y = Ret b.
Proof.
  intros -> ->. unfold slice. rewrite !zlen_app. pose proof (zlen_nonneg a). pose proof (zlen_nonneg b). pose proof (zlen_nonneg c).
  replace ((0 <=? zlen a) && (zlen a <=? zlen a + zlen b) && (zlen a + zlen b <=? zlen a + (zlen b + zlen c))) with true by lia.
  f_equal. replace (zlen a + zlen b - zlen a) with (zlen b) by ring. unfold zlen. rewrite !Nat2Z.id.
  rewrite skipn_app, skipn_all, Nat.sub_diag. cbn [app skipn]. rewrite firstn_app, Nat.sub_diag, firstn_all. cbn [firstn]. apply app_nil_r.
Qed.
Lemma slice_tail {A} (a b : list A) x y : x = zlen a -> y = zlen (a ++ b) -> slice (a ++ b) x y = Ret b.
Proof. intros Hx Hy. rewrite <- (app_nil_r b) at 1. apply slice_split; assumption. Qed.
Lemma slice_head {A} (a b : list A) x : x = zlen a -> slice (a ++ b) 0 x = Ret a.
Proof. intros Hx. exact (slice_split [] a b 0 x eq_refl Hx). Qed.

(** replacing the marked slice *)
Lemma ReplaceS_split a m b s e bra ket : cur e = a ++ m ++ b -> bra = zlen a -> ket = zlen (a ++ m) ->
  ReplaceS bra ket s e = Ret (mkEnv (a ++ s ++ b)
    (if ket <=? Cursor e then Cursor e + (zlen s - zlen m) else if bra <? Cursor e then bra else Cursor e)
    (Limit e + (zlen s - zlen m)) (LimitBackward e) (Bra e) (Ket e)).
Proof.
  intros Hc Hb Hk. unfold ReplaceS. rewrite Hc. rewrite (slice_head a (m ++ b) bra Hb). cbn [bind].
  pose proof (zlen_nonneg m). assert (ket - bra = zlen m) as Hd by (rewrite Hb, Hk, zlen_app; ring).
  replace (ket <? bra) with false by lia. rewrite app_assoc. rewrite (slice_tail (a ++ m) b ket (zlen ((a ++ m) ++ b)) Hk eq_refl). cbn [bind].
  rewrite Hd. reflexivity.
Qed.

(** ** the backward phase: [keep] is protected, the cursor is at the end *)
Definition at_end (keep r : bytes) (e : env) : Prop :=
  cur e = keep ++ r /\ LimitBackward e = zlen keep /\ Cursor e = zlen (keep ++ r) /\ Limit e = zlen (keep ++ r).
(* the same with the cursor anywhere *)
Definition behind (keep r : bytes) (e : env) : Prop :=
  cur e = keep ++ r /\ LimitBackward e = zlen keep /\ Limit e = zlen (keep ++ r).
Lemma at_end_behind keep r e : at_end keep r e -> behind keep r e.
Proof. intros (H1 & H2 & H3 & H4). split; [exact H1|]. split; [exact H2|exact H4]. Qed.
Lemma behind_end keep r e : behind keep r e -> at_end keep r (set_Cursor (Limit e) e).
Proof. intros (H1 & H2 & H4). split; [exact H1|]. split; [exact H2|]. split; exact H4. Qed.

Lemma find_b keep r t e : at_end keep r e ->
  FindAmongB t e = match longest (has_suffix r) t with Some a => Ret (Res a, set_Cursor (Cursor e - zlen (Str a)) e) | None => Ret (0, e) end.
Proof. intros (H1 & H2 & H3 & H4). unfold FindAmongB. rewrite H1, H2, (slice_tail keep r _ (Cursor e) eq_refl H3). reflexivity. Qed.
(* the same with the cursor after [p] *)
Lemma find_b_at keep p s t e : cur e = keep ++ p ++ s -> LimitBackward e = zlen keep -> Cursor e = zlen (keep ++ p) ->
  FindAmongB t e = match longest (has_suffix p) t with Some a => Ret (Res a, set_Cursor (Cursor e - zlen (Str a)) e) | None => Ret (0, e) end.
Proof. intros H1 H2 H3. unfold FindAmongB. rewrite H1, H2, (slice_split keep p s _ (Cursor e) eq_refl H3). reflexivity. Qed.

(* a string whose first byte starts a character *)
Definition starts_char (s : bytes) : Prop := match s with b :: _ => RuneStart b = true | [] => False end.
Lemma boundary_at a s : starts_char s -> onCharBoundary (a ++ s) (zlen a) = true.
Proof.
  destruct s as [|b s]; cbn [starts_char]; [intros []|]. intros H. unfold onCharBoundary, zlen. rewrite Nat2Z.id, app_nth2, Nat.sub_diag by lia. cbn [nth]. rewrite H. apply orb_true_r.
Qed.
Lemma eqs_b keep p q s e : cur e = keep ++ p ++ q -> LimitBackward e = zlen keep -> Cursor e = zlen (keep ++ p) -> starts_char s ->
  (ends p s -> EqSB s e = Ret (true, set_Cursor (Cursor e - zlen s) e)) /\ (~ ends p s -> EqSB s e = Ret (false, e)).
Proof.
  intros H1 H2 H3 Hs. unfold EqSB. rewrite H2, H3, zlen_app. replace (zlen keep + zlen p - zlen keep) with (zlen p) by ring. split.
  - intros (u & ->). rewrite zlen_app. pose proof (zlen_nonneg u). replace (zlen u + zlen s <? zlen s) with false by lia.
    replace (zlen keep + (zlen u + zlen s) - zlen s) with (zlen (keep ++ u)) by (rewrite zlen_app; ring).
    assert (cur e = (keep ++ u) ++ (s ++ q)) as Hc by (rewrite H1, <- !app_assoc; reflexivity). rewrite Hc.
    rewrite boundary_at by (destruct s; [destruct Hs|exact Hs]). cbn [negb]. rewrite (slice_tail (keep ++ u) (s ++ q) _ _ eq_refl eq_refl). cbn [bind].
    rewrite (proj2 (has_prefix_ok (s ++ q) s)) by (eexists; reflexivity). reflexivity.
  - intros Hn. destruct (zlen p <? zlen s) eqn:El; [reflexivity|]. destruct (onCharBoundary _ _); [|reflexivity]. cbn [negb].
    pose proof (zlen_nonneg s). set (u := firstn (Z.to_nat (zlen p - zlen s)) p). set (v := skipn (Z.to_nat (zlen p - zlen s)) p).
    assert (p = u ++ v) as Hp by (symmetry; apply firstn_skipn). assert (zlen u = zlen p - zlen s) as Hu by (apply zlen_firstn; lia).
    assert (zlen v = zlen s) as Hv by (unfold v; rewrite zlen_skipn; lia). clearbody u v.
    replace (zlen keep + zlen p - zlen s) with (zlen (keep ++ u)) by (rewrite zlen_app, Hu; ring).
    assert (cur e = (keep ++ u) ++ (v ++ q)) as Hc by (rewrite H1, Hp, <- !app_assoc; reflexivity). rewrite Hc.
    rewrite (slice_tail (keep ++ u) (v ++ q) _ _ eq_refl eq_refl). cbn [bind].
    destruct (has_prefix (v ++ q) s) eqn:Eh; [|reflexivity]. exfalso. apply Hn. apply has_prefix_ok in Eh. destruct Eh as (t & Et).
    exists u. rewrite Hp. f_equal. assert (length v = length s) as Hl by (unfold zlen, bytes in *; lia).
    clear - Et Hl. revert s Hl Et. induction v as [|x v IH]; intros [|y s] Hl Et; try discriminate; [reflexivity|]. cbn [app] in Et. injection Et as -> Et. f_equal. apply IH; [now injection Hl|exact Et].
Qed.
