(** Consequences for Score, Next and ScoreNext. *)
From Coq Require Import Sorting.Sorted ZifyBool.
From Verif Require Import Base BaseLemmas GoMap Float64 Postings PostingsProofs Merger MergerProofs NGram NGramSpec NGramProofs NGramProofs2 NGramProofs3.
Local Open Scope Z_scope.
Local Opaque Pack UnpackLeft UnpackRight.

Lemma walk_snoc_gen ixs V p w : forall parent, nth_error ixs (length p) = Some V ->
  walk ixs (p ++ [w]) parent = ('(cs, o) <- walk ixs p parent ;; '(c, o') <- GetCount V w o ;; Ret (cs ++ [c], o')).
Proof.
  revert ixs. induction p as [|x p IH]; intros ixs parent H; destruct ixs as [|v vs]; cbn [length nth_error] in H; try discriminate.
  - injection H as ->. cbn [app walk bind]. destruct (GetCount V w parent) as [[c o]|e| |]; reflexivity.
  - cbn [app walk]. destruct (GetCount v x parent) as [[c o]|e| |]; cbn [bind]; try reflexivity.
    rewrite IH by exact H. destruct (walk vs p o) as [[cs o']|e| |]; cbn [bind]; try reflexivity. destruct (GetCount V w o') as [[c' o'']|e| |]; reflexivity.
Qed.
Lemma next_walk ixs g : forall parent cs o, walk ixs g parent = Ret (cs, o) ->
  next_counts ixs g parent = Ret (if existsb (Z.eqb 0) cs then None else Some (cs, o)).
Proof.
  revert ixs. induction g as [|w g IH]; intros ixs parent cs o H; cbn [walk next_counts] in *; [injection H as <- <-; reflexivity|].
  destruct ixs as [|v vs]; [discriminate|]. destruct (GetCount v w parent) as [[c o1]|e| |]; cbn [bind] in *; try discriminate.
  destruct (walk vs g o1) as [[cs1 o2]|e| |] eqn:E; cbn [bind] in *; try discriminate. injection H as <- <-. rewrite (IH _ _ _ _ E). cbn [bind existsb].
  destruct (c =? 0) eqn:E0; [assert (0 =? c = true) as -> by lia; reflexivity|]. assert (0 =? c = false) as -> by lia. cbn [orb].
  destruct (existsb (Z.eqb 0) cs1); reflexivity.
Qed.
Section Model.
Context (files : list ngfile) (ixs : list packed) (off : list Z -> Z) (HI : Inv files ixs off) (Hcl : prefix_closed files).
Context (Hn : (1 <= length files <= 255)%nat).
Notation m := (NewNGramModel ixs).
Lemma order_eq : nGramOrder m = zlen files.
Proof. unfold NewNGramModel, nGramOrder. unfold zlen. rewrite (i_len _ _ _ HI). unfold wrap8. apply Z.mod_small. lia. Qed.
Lemma corpus_ok : exists v, index ixs 0 = Ret v /\ CorpusCount v = wrap32 (count_all (nth 0 files [])).
Proof.
  pose proof (i_len _ _ _ HI) as Hl. destruct ixs as [|v vs] eqn:E; [cbn in Hl; lia|]. exists v. split; [unfold index; rewrite zlen_cons; pose proof (zlen_nonneg vs); destruct ((0 <=? 0) && (0 <? 1 + zlen vs)) eqn:E1; [reflexivity|lia]|].
  destruct (i_node _ _ _ HI 0 v) as (ns & -> & Hok & _ & _ & Ht); [reflexivity|]. rewrite <- Ht. destruct (create_groups ns Hok) as (gs & _ & _ & ->). reflexivity.
Qed.
Lemma counts_ok g : g <> [] -> Forall is_u32 g ->
  Score_counts m g = Ret (wrap32 (count_all (nth 0 files [])) :: spec_counts files (firstn (length files) g)).
Proof.
  intros Hg Hu. unfold Score_counts. rewrite order_eq. destruct (Z.min (zlen files) (zlen g) =? 0) eqn:E0.
  { destruct g; [congruence|]. rewrite zlen_cons in E0. pose proof (zlen_nonneg g). unfold zlen in E0. lia. }
  cbn [indices NewNGramModel]. destruct corpus_ok as (v & -> & Hc). cbn [bind].
  assert (firstn (Z.to_nat (Z.min (zlen files) (zlen g))) g = firstn (length files) g) as ->.
  { unfold zlen. destruct (le_lt_dec (length files) (length g)) as [H|H].
    - f_equal. lia.
    - rewrite !firstn_all2 by lia. reflexivity. }
  rewrite (score_walk ixs _ _ (spec_counts files (firstn (length files) g)) (off (firstn (length files) g))).
  - cbn [bind]. rewrite Hc. reflexivity.
  - apply (i_walk _ _ _ HI); [rewrite firstn_length; lia|apply Forall_firstn; exact Hu].
Qed.
Lemma vec_get p w : (length p < length files)%nat -> Forall is_u32 p -> is_u32 w ->
  exists v, nth_error ixs (length p) = Some v /\ GetCount v w (off p) = Ret (wrap32 (count_of files (p ++ [w])), off (p ++ [w])).
Proof.
  intros Hl Hp Hw. destruct (nth_error ixs (length p)) as [v|] eqn:E; [|apply nth_error_None in E; rewrite (i_len _ _ _ HI) in E; lia]. exists v. split; [reflexivity|].
  pose proof (walk_snoc_gen ixs v p w InvalidContextOffset E) as Hs. rewrite (i_walk _ _ _ HI p) in Hs by (try assumption; lia).
  rewrite (i_walk _ _ _ HI (p ++ [w])) in Hs; [|rewrite app_length; cbn [length]; lia|apply Forall_app; split; [exact Hp|constructor; [exact Hw|constructor]]].
  cbn [bind] in Hs. destruct (GetCount v w (off p)) as [[c o]|e| |]; cbn [bind] in Hs; try discriminate. injection Hs as Hs <-.
  rewrite spec_counts_snoc in Hs. apply app_inj_tail in Hs. destruct Hs as [_ <-]. reflexivity.
Qed.
Lemma off_range p : (length p <= length files)%nat -> Forall is_u32 p -> is_u32 (off p).
Proof. apply (off_u32 files ixs off HI). Qed.
Lemma count_absent g : (1 <= length g)%nat -> ~ present files g -> count_of files g = 0.
Proof.
  intros Hl Hp. unfold present in Hp. destruct (length g) as [|k] eqn:E; [lia|]. unfold count_of. rewrite E. cbn [Nat.sub]. rewrite Nat.sub_0_r.
  revert Hp. generalize (nth k files []) as f. induction f as [|[x c] f IH]; cbn [map fst In count_in fold_right snd]; intros Hp; [reflexivity|]. fold (count_in f g).
  rewrite IH by tauto. unfold same_gram. destruct (list_eq_dec Z.eq_dec x g); [tauto|reflexivity].
Qed.
Lemma present_prefix p w : (length p < length files)%nat -> present files (p ++ [w]) -> present files p.
Proof.
  intros Hl H. unfold present in *. rewrite app_length in H. cbn [length] in H. rewrite Nat.add_1_r in H. destruct (length p) as [|k] eqn:E; [exact I|].
  apply in_map_iff in H. destruct H as ([g c] & Eg & Hin). cbn [fst] in Eg. subst g.
  apply (Hcl k (nth k files []) (nth (S k) files [])) with (w := w) (c := c); [apply nth_error_nth'; lia|apply nth_error_nth'; lia|exact Hin].
Qed.
Lemma sub_ok p v : (length p < length files)%nat -> Forall is_u32 p -> present files p -> nth_error ixs (length p) = Some v ->
  ((exists w, is_u32 w /\ present files (p ++ [w])) -> exists sub, SubVector v (off p) = Ret (Some sub) /\ forall w, GetCount sub w (off p) = GetCount v w (off p))
  /\ ((forall w, is_u32 w -> ~ present files (p ++ [w])) -> SubVector v (off p) = Ret None).
Proof.
  intros Hl Hp Hpr Hv. destruct (i_node _ _ _ HI _ v Hv) as (ns & -> & Hok & _ & Hin & _). pose proof (off_range p ltac:(lia) Hp) as Ho.
  destruct (sub_node ns (off p) Hok Ho) as [H1 H2]. split.
  - intros (w & Hw & Hpw). apply H1. exists w, (wrap32 (count_of files (p ++ [w]))). split; [exact Hw|]. apply Hin; [exact Ho|exact Hw|]. exists p. auto.
  - intros Hno. apply H2. intros w n Hw Hi. apply (Hin _ _ _ Ho Hw) in Hi. destruct Hi as (p' & Hl' & Hp' & Hpr' & Eo & _). apply (Hno w Hw).
    assert (p = p') as ->; [|exact Hpr']. apply (i_inj _ _ _ HI); try assumption; try lia. apply (present_prefix p' w); [lia|exact Hpr'].
Qed.
End Model.

Section Calc.
Context (flog : f64 -> f64).
Lemma calc_last xs a c : 0 < c -> calcScore flog (xs ++ [a; c]) = Ret (flog (fdiv (fmul (of_int 1) (of_int c)) (of_int a))).
Proof.
  intros Hc. unfold calcScore. rewrite app_length. cbn [length]. replace (length xs + 2 - 1)%nat with (S (length xs)) by lia. cbn [calc_loop].
  assert (index (xs ++ [a; c]) (Z.of_nat (S (length xs))) = Ret c) as ->.
  { replace (Z.of_nat (S (length xs))) with (zlen xs + 1) by (unfold zlen; lia). rewrite index_app_r by lia. reflexivity. }
  cbn [bind]. destruct (0 <? c) eqn:E; [|lia].
  assert (index (xs ++ [a; c]) (Z.of_nat (S (length xs)) - 1) = Ret a) as ->.
  { replace (Z.of_nat (S (length xs)) - 1) with (zlen xs) by (unfold zlen; lia). apply index_app_0. }
  reflexivity.
Qed.
Lemma iter_swap {A} (F : A -> A) n x : Nat.iter n F (F x) = Nat.iter (S n) F x.
Proof. induction n as [|n IH]; [reflexivity|]. change (Nat.iter (S n) F (F x)) with (F (Nat.iter n F (F x))). rewrite IH. reflexivity. Qed.
(* the general case: zeros after the last non-zero count *)
Lemma calc_zeros counts : forall zs factor, Forall (fun z => z = 0) zs -> counts <> [] ->
  calc_loop flog (length (counts ++ zs) - 1) (counts ++ zs) factor
  = calc_loop flog (length counts - 1) (counts ++ zs) (Nat.iter (length zs) (fun x => fmul x alpha) factor).
Proof.
  intros zs. rewrite <- (rev_involutive zs). generalize (rev zs) as l. intros l factor Hz Hne. apply Forall_rev in Hz. rewrite rev_involutive in Hz. clear zs.
  rewrite rev_length. rewrite app_length, rev_length.
  assert (forall l2 factor, (exists l1, l = l1 ++ l2) -> calc_loop flog (length counts + length l2 - 1) (counts ++ rev l) factor = calc_loop flog (length counts - 1) (counts ++ rev l) (Nat.iter (length l2) (fun x => fmul x alpha) factor)) as Hgen.
  { induction l2 as [|z l2 IH]; intros fac [l1 El].
    - cbn [length Nat.iter]. rewrite Nat.add_0_r. reflexivity.
    - replace (length counts + length (z :: l2) - 1)%nat with (S (length counts + length l2 - 1)) by (cbn [length]; destruct counts; [congruence|cbn [length]; lia]).
      cbn [calc_loop].
      assert (index (counts ++ rev l) (Z.of_nat (S (length counts + length l2 - 1))) = Ret z) as ->.
      { rewrite El, rev_app_distr. cbn [rev]. rewrite <- app_assoc. cbn [app]. rewrite app_assoc.
        replace (Z.of_nat (S (length counts + length l2 - 1))) with (zlen (counts ++ rev l2)); [apply index_app_0|].
        unfold zlen. rewrite app_length, rev_length. destruct counts; [congruence|cbn [length]; lia]. }
      assert (z = 0) as -> by (rewrite Forall_forall in Hz; apply Hz; rewrite El; apply in_or_app; right; left; reflexivity).
      cbn [bind]. change (0 <? 0) with false. cbv iota. rewrite IH by (exists (l1 ++ [0]); rewrite <- app_assoc; exact El).
      f_equal. cbn [length]. apply (iter_swap (fun x => fmul x alpha)). }
  apply Hgen. exists []. reflexivity.
Qed.
Lemma calc_prefix xs ys i : forall factor, (i < length xs)%nat -> calc_loop flog i (xs ++ ys) factor = calc_loop flog i xs factor.
Proof.
  induction i as [|i IH]; intros factor H; [reflexivity|]. cbn [calc_loop].
  assert (forall j, 0 <= j < zlen xs -> index (xs ++ ys) j = index xs j) as Hix.
  { intros j Hj. pose proof (zlen_nonneg ys). rewrite (index_nth (xs ++ ys) j 0), (index_nth xs j 0) by (rewrite ?zlen_app; lia). rewrite app_nth1 by (unfold zlen in Hj; lia). reflexivity. }
  rewrite !Hix by (unfold zlen; lia). destruct (index xs (Z.of_nat (S i))) as [c|e| |]; cbn [bind]; try reflexivity. destruct (0 <? c); [reflexivity|]. apply IH. lia.
Qed.
Lemma calc_backoff xs a c zs : 0 < c -> Forall (fun z => z = 0) zs ->
  calcScore flog ((xs ++ [a; c]) ++ zs) = Ret (flog (fdiv (fmul (Nat.iter (length zs) (fun x => fmul x alpha) (of_int 1)) (of_int c)) (of_int a))).
Proof.
  intros Hc Hz. unfold calcScore. rewrite calc_zeros by (try exact Hz; destruct xs; discriminate). rewrite calc_prefix by (rewrite app_length; cbn [length]; lia).
  rewrite app_length. cbn [length]. replace (length xs + 2 - 1)%nat with (S (length xs)) by lia. cbn [calc_loop].
  assert (index (xs ++ [a; c]) (Z.of_nat (S (length xs))) = Ret c) as ->.
  { replace (Z.of_nat (S (length xs))) with (zlen xs + 1) by (unfold zlen; lia). rewrite index_app_r by lia. reflexivity. }
  cbn [bind]. destruct (0 <? c) eqn:E; [|lia].
  assert (index (xs ++ [a; c]) (Z.of_nat (S (length xs)) - 1) = Ret a) as ->.
  { replace (Z.of_nat (S (length xs)) - 1) with (zlen xs) by (unfold zlen; lia). apply index_app_0. }
  reflexivity.
Qed.
Lemma calc_none a zs : Forall (fun z => z = 0) zs -> calcScore flog (a :: zs) = Ret UnknownWordScore.
Proof. intros Hz. change (a :: zs) with ([a] ++ zs). unfold calcScore. rewrite calc_zeros by (try exact Hz; discriminate). reflexivity. Qed.
End Calc.
