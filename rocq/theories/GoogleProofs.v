(** Proofs about GoogleNGram. *)
From Coq Require Import ZifyBool.
From Verif Require Import Base BaseLemmas GoMap Text Float64 CountTrie CountTrieSpec Scanner ScannerSpec ScannerProofs ScannerProofs2 Decimal Merger NGram Mph NGramStore GoogleNGram.
Local Open Scope Z_scope.

(** A word the format can hold: no space, tab or newline. *)
Definition plain (w : bytes) : Prop := ~ In 32 w /\ ~ In 9 w /\ ~ In 10 w.

Lemma split_app w : ~ In 32 w -> forall t cur, split_sp (w ++ t) cur = split_sp t (cur ++ w).
Proof.
  induction w as [|c w IH]; intros Hn t cur; [rewrite app_nil_r; reflexivity|]. cbn [app split_sp]. destruct (c =? 32) eqn:E; [exfalso; apply Hn; left; lia|].
  rewrite IH by (intros H; apply Hn; right; exact H). rewrite <- app_assoc. reflexivity.
Qed.
Lemma split_join g : g <> [] -> (forall w, In w g -> ~ In 32 w) -> Split (Join g) = g.
Proof.
  unfold Split. induction g as [|w g IH]; [congruence|]. intros _ Hw. cbn [Join]. destruct g as [|w2 g].
  - rewrite <- (app_nil_r w) at 1. rewrite split_app by (apply Hw; left; reflexivity). reflexivity.
  - rewrite split_app by (apply Hw; left; reflexivity). cbn [app split_sp Z.eqb Pos.eqb]. rewrite IH by (discriminate || (intros w' H; apply Hw; right; exact H)). reflexivity.
Qed.
Lemma join_no c g : c <> 32 -> (forall w, In w g -> ~ In c w) -> ~ In c (Join g).
Proof.
  intros Hc. induction g as [|w g IH]; intros Hw; [intros []|]. cbn [Join]. destruct g as [|w2 g]; [apply Hw; left; reflexivity|].
  intros H. apply in_app_iff in H. destruct H as [H|[H|H]]; [apply (Hw w); [left; reflexivity|exact H]|congruence|]. apply IH; [intros w' H'; apply Hw; right; exact H'|exact H].
Qed.
Lemma index_tab_app a b : ~ In 9 a -> index_tab (a ++ 9 :: b) = Some (length a).
Proof.
  induction a as [|c a IH]; intros Hn; [reflexivity|]. cbn [app index_tab length]. destruct (c =? 9) eqn:E; [exfalso; apply Hn; left; lia|]. rewrite IH by (intros H; apply Hn; right; exact H). reflexivity.
Qed.
Lemma parse_dec c : is_u32 c -> ParseUint32 (dec c) = Ret c.
Proof.
  intros Hc. destruct (dec_spec c) as (H1 & H2 & H3 & _); [unfold is_u32, is_u64 in *; lia|]. unfold ParseUint32. rewrite H2.
  assert (negb (zlen (dec c) =? 0) = true) as ->. { destruct (dec c); [congruence|]. rewrite zlen_cons. pose proof (zlen_nonneg b). lia. }
  assert (forallb is_digit (dec c) = true) as ->. { apply forallb_forall. rewrite Forall_forall in H1. exact H1. }
  unfold is_u32 in Hc. assert (c <? 2 ^ 32 = true) as -> by lia. reflexivity.
Qed.
(** a line without its newline *)
Definition body (g : list bytes) (c : Z) : bytes := Join g ++ 9 :: dec c.
Lemma line_body g c : ngram_line g c = body g c ++ [10].
Proof. unfold ngram_line, body. rewrite <- app_assoc. reflexivity. Qed.
Lemma dec_no c x : is_u32 c -> is_digit x = false -> ~ In x (dec c).
Proof. intros Hc Hx Hin. destruct (dec_spec c) as (H1 & _); [unfold is_u32, is_u64 in *; lia|]. rewrite Forall_forall in H1. rewrite (H1 x Hin) in Hx. discriminate. Qed.
Definition entry_ok (e : list bytes * Z) : Prop :=
  fst e <> [] /\ Forall plain (fst e) /\ is_u32 (snd e) /\ zlen (body (fst e) (snd e)) < 65536.
Lemma body_no_nl g c : Forall plain g -> is_u32 c -> ~ In 10 (body g c).
Proof.
  intros Hg Hc. unfold body. rewrite Forall_forall in Hg. intros H. apply in_app_iff in H. destruct H as [H|[H|H]]; [|discriminate|exact (dec_no c 10 Hc eq_refl H)].
  revert H. apply join_no; [discriminate|]. intros w Hw. apply (Hg w Hw).
Qed.
Lemma cut_lines_app w : ~ In 10 w -> forall t cur, cut_lines (w ++ t) cur = cut_lines t (cur ++ w).
Proof.
  induction w as [|c w IH]; intros Hn t cur; [rewrite app_nil_r; reflexivity|]. cbn [app cut_lines]. destruct (c =? 10) eqn:E; [exfalso; apply Hn; left; lia|].
  rewrite IH by (intros H; apply Hn; right; exact H). rewrite <- app_assoc. reflexivity.
Qed.
Definition file_of (es : list (list bytes * Z)) : bytes := flat_map (fun e => ngram_line (fst e) (snd e)) es.
Lemma file_lines es : Forall entry_ok es -> raw_lines (file_of es) = map (fun e => body (fst e) (snd e)) es.
Proof.
  unfold raw_lines, file_of. induction 1 as [|e es (H1 & H2 & H3 & H4) Hes IH]; [reflexivity|]. cbn [flat_map map]. rewrite line_body, <- app_assoc.
  rewrite cut_lines_app by (apply body_no_nl; assumption). cbn [app cut_lines Z.eqb Pos.eqb]. rewrite IH. reflexivity.
Qed.
Lemma without_cr_id l : last l 0 <> 13 -> without_cr l = l.
Proof.
  intros H. unfold without_cr. destruct (rev l) as [|c t] eqn:Er; [reflexivity|]. assert (l = rev t ++ [c]) as El by (rewrite <- (rev_involutive l), Er; reflexivity).
  rewrite El, last_last in H. destruct c as [|p|p]; try reflexivity. destruct p as [p|p|]; try reflexivity. destruct p as [p|p|]; try reflexivity. destruct p as [p|p|]; try reflexivity. destruct p; try reflexivity. congruence.
Qed.
Lemma body_last g c : is_u32 c -> last (body g c) 0 <> 13.
Proof.
  intros Hc. destruct (dec_spec c) as (H1 & _ & H3 & _); [unfold is_u32, is_u64 in *; lia|]. unfold body. rewrite (app_assoc (Join g) [9] (dec c) : Join g ++ 9 :: dec c = _).
  destruct (exists_last H3) as (d & x & E). rewrite E in *. rewrite app_assoc, last_last. apply Forall_app in H1. destruct H1 as [_ H1]. apply Forall_inv in H1. intros ->. discriminate.
Qed.
Lemma file_scan es chunk fuel : Forall entry_ok es -> (2 * length (file_of es) + 1 < fuel)%nat ->
  scan_all ScanLines chunk fuel (NewScanner (file_of es)) = (map (fun e => body (fst e) (snd e)) es, Ret tt).
Proof.
  intros Hes Hf. rewrite scan_lines by exact Hf. unfold lines_result. rewrite (file_lines es Hes).
  assert (forallb line_fits (map (fun e => body (fst e) (snd e)) es) = true) as Hfit.
  { apply forallb_forall. intros l Hl. apply in_map_iff in Hl. destruct Hl as (e & <- & He). rewrite Forall_forall in Hes. destruct (Hes e He) as (_ & _ & _ & H4). unfold line_fits. lia. }
  rewrite Hfit. f_equal. clear Hf. induction Hes as [|e es (H1 & H2 & H3 & H4) Hes IH]; [reflexivity|]. cbn [map while forallb] in *. apply andb_prop in Hfit. destruct Hfit as [Hf1 Hf2].
  rewrite Hf1. cbn [map]. rewrite IH by exact Hf2. f_equal. apply without_cr_id, body_last. exact H3.
Qed.

Section Read.
Context (get : bytes -> res Z) (id : bytes -> Z).
Lemma get_all_ok ws : (forall w, In w ws -> get w = Ret (id w)) -> get_all get ws = Ret (map id ws).
Proof.
  induction ws as [|w ws IH]; intros H; [reflexivity|]. cbn [get_all map]. rewrite (H w (or_introl eq_refl)). cbn [bind]. rewrite IH by (intros w' Hw; apply H; right; exact Hw). reflexivity.
Qed.
Lemma parse_body e : entry_ok e -> (forall w, In w (fst e) -> get w = Ret (id w)) -> parse_line get (body (fst e) (snd e)) = Ret (map id (fst e), snd e).
Proof.
  intros (H1 & H2 & H3 & _) Hg. rewrite Forall_forall in H2. unfold parse_line, body. rewrite index_tab_app by (apply join_no; [discriminate|]; intros w Hw; apply (H2 w Hw)).
  rewrite firstn_app, firstn_all, Nat.sub_diag. cbn [firstn]. rewrite app_nil_r, split_join by (assumption || (intros w Hw; apply (H2 w Hw))).
  rewrite get_all_ok by exact Hg. cbn [bind]. replace (skipn (S (length (Join (fst e)))) (Join (fst e) ++ 9 :: dec (snd e))) with (dec (snd e)).
  - rewrite parse_dec by exact H3. reflexivity.
  - rewrite skipn_app. rewrite skipn_all2 by lia. replace (S (length (Join (fst e))) - length (Join (fst e)))%nat with 1%nat by lia. reflexivity.
Qed.
Definition ids_of (es : list (list bytes * Z)) : list (list Z * Z) := map (fun e => (map id (fst e), snd e)) es.
Lemma read_lines_ok parents es : Forall entry_ok es -> (forall g c w, In (g, c) es -> In w g -> get w = Ret (id w)) ->
  forall tree, read_lines get parents tree (map (fun e => body (fst e) (snd e)) es) = put_lines parents tree (ids_of es).
Proof.
  induction 1 as [|e es He Hes IH]; intros Hg tree; [reflexivity|]. cbn [map read_lines ids_of put_lines]. rewrite parse_body; [|exact He|intros w Hw; apply (Hg (fst e) (snd e)); [left; destruct e; reflexivity|exact Hw]].
  cbn [bind fst snd]. destruct (VPut parents tree (map id (fst e)) (snd e)) as [t| | |]; try reflexivity. cbn [bind]. apply IH. intros g c w Hin. apply (Hg g c w). right. exact Hin.
Qed.
Lemma read_vector_ok parents es chunk fuel : Forall entry_ok es -> (forall g c w, In (g, c) es -> In w g -> get w = Ret (id w)) -> (2 * length (file_of es) + 1 < fuel)%nat ->
  readNGramVector get chunk fuel parents (file_of es) = put_lines parents [] (ids_of es).
Proof.
  intros Hes Hg Hf. unfold readNGramVector. rewrite file_scan by assumption. rewrite read_lines_ok by assumption. destruct (put_lines _ _ _); reflexivity.
Qed.
Lemma read_files_ok chunk fuel ess : Forall (Forall entry_ok) ess -> (forall es g c w, In es ess -> In (g, c) es -> In w g -> get w = Ret (id w)) ->
  (forall es, In es ess -> (2 * length (file_of es) + 1 < fuel)%nat) ->
  forall vs rest, read_files get chunk fuel (length ess) vs (map file_of ess ++ rest) = read_vectors vs (map ids_of ess).
Proof.
  induction 1 as [|es ess He Hes IH]; intros Hg Hf vs rest; [reflexivity|]. cbn [length map app read_files read_vectors].
  rewrite read_vector_ok; [|exact He|intros g c w H1 H2; apply (Hg es g c w); [left; reflexivity|exact H1|exact H2]|apply Hf; left; reflexivity].
  destruct (put_lines vs [] (ids_of es)) as [t| | |]; try reflexivity. cbn [bind]. apply IH; [intros es' g c w H1; apply (Hg es' g c w); right; exact H1|intros es' H; apply Hf; right; exact H].
Qed.
End Read.

(** ** The writer *)
Lemma append_at_length outs k b : length (append_at outs k b) = length outs.
Proof. revert k. induction outs as [|o outs IH]; intros [|k]; cbn [append_at length]; try reflexivity. rewrite IH. reflexivity. Qed.
Lemma append_at_nth outs : forall k b j, (k < length outs)%nat -> nth j (append_at outs k b) [] = if (j =? k)%nat then nth j outs [] ++ b else nth j outs [].
Proof.
  induction outs as [|o outs IH]; intros [|k] b [|j] Hk; cbn [append_at nth length] in *; try lia; try reflexivity. rewrite IH by lia. reflexivity.
Qed.
(** the n-grams of k words *)
Definition of_order (k : nat) (es : list (list bytes * Z)) : list (list bytes * Z) := filter (fun e => (length (fst e) =? k)%nat) es.
Lemma feed_write es : forall outs, (forall g c, In (g, c) es -> (length g <= length outs)%nat) ->
  exists outs', feed write_ngram es outs = (Ret tt, outs') /\ length outs' = length outs
    /\ forall j, (j < length outs)%nat -> nth j outs' [] = nth j outs [] ++ file_of (of_order (S j) es).
Proof.
  induction es as [|[g c] es IH]; intros outs Hl.
  - exists outs. split; [reflexivity|]. split; [reflexivity|]. intros j Hj. rewrite app_nil_r. reflexivity.
  - cbn [feed]. pose proof (Hl g c (or_introl eq_refl)) as Hgc. unfold write_ngram at 1. destruct g as [|w g].
    + destruct (IH outs) as (outs' & E & H1 & H2); [intros g c' H; apply (Hl g c'); right; exact H|]. exists outs'. split; [exact E|]. split; [exact H1|].
      intros j Hj. rewrite (H2 j Hj). reflexivity.
    + set (g' := w :: g) in *. assert ((length g' <=? length outs)%nat = true) as -> by lia.
      destruct (IH (append_at outs (length g' - 1) (ngram_line g' c))) as (outs' & E & H1 & H2).
      { intros g0 c0 H. rewrite append_at_length. apply (Hl g0 c0). right. exact H. }
      rewrite append_at_length in H1, H2. exists outs'. split; [exact E|]. split; [exact H1|]. intros j Hj. rewrite (H2 j Hj).
      assert (1 <= length g')%nat as Hg1 by (unfold g'; cbn [length]; lia). clearbody g'.
      rewrite append_at_nth by lia. unfold of_order. cbn [filter fst]. destruct (j =? length g' - 1)%nat eqn:Ej.
      * assert ((length g' =? S j)%nat = true) as -> by lia. cbn [file_of flat_map fst snd]. rewrite <- app_assoc. reflexivity.
      * assert ((length g' =? S j)%nat = false) as -> by lia. reflexivity.
Qed.
Definition by_order (order : nat) (es : list (list bytes * Z)) : list (list (list bytes * Z)) := map (fun k => of_order k es) (seq 1 order).
Lemma write_files es order : (forall g c, In (g, c) es -> (length g <= order)%nat) ->
  feed write_ngram es (repeat [] order) = (Ret tt, map file_of (by_order order es)).
Proof.
  intros Hl. destruct (feed_write es (repeat [] order)) as (outs & E & H1 & H2); [rewrite repeat_length; exact Hl|]. rewrite repeat_length in *. rewrite E. f_equal.
  apply (@nth_ext bytes _ _ [] []); [unfold by_order; rewrite !map_length, seq_length; exact H1|]. rewrite H1. intros j Hj. rewrite H2 by exact Hj.
  rewrite nth_repeat. cbn [app]. change (@nil Z) with (file_of []). rewrite map_nth. unfold by_order. change (@nil (list bytes * Z)) with (of_order O []). 
  rewrite (nth_indep _ (of_order 0 []) (of_order O es)) by (rewrite map_length, seq_length; exact Hj). rewrite (map_nth (fun k => of_order k es)). rewrite seq_nth by exact Hj. reflexivity.
Qed.
