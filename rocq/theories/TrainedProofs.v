(** Proofs for C69: occurrences, the dictionary, ids. *)
From Coq Require Import ZifyBool Permutation Sorting.Sorted.
From Verif Require Import Base BaseLemmas GoMap CountTrie CountTrieSpec CountTrieProofs P_CountTrie Scanner Decimal Merger NGram NGramSpec P_NGram Mph MphSpec MphProofs P_Mph GoogleNGram GoogleProofs P_Google TrainedSpec.
Local Open Scope Z_scope.

(** ** Occurrences *)
Lemma filter_le {A} (P Q : A -> bool) l : (forall x, In x l -> P x = true -> Q x = true) -> zlen (filter P l) <= zlen (filter Q l).
Proof.
  induction l as [|x l IH]; intros H; [reflexivity|]. cbn [filter]. assert (zlen (filter P l) <= zlen (filter Q l)) by (apply IH; intros; apply H; [right; assumption|assumption]).
  destruct (P x) eqn:EP; [rewrite (H x (or_introl eq_refl) EP), !zlen_cons; lia|]. destruct (Q x); rewrite ?zlen_cons; lia.
Qed.
Lemma filter_len {A} (P : A -> bool) l : zlen (filter P l) <= zlen l.
Proof. induction l as [|x l IH]; [reflexivity|]. cbn [filter]. destruct (P x); rewrite !zlen_cons; lia. Qed.
Lemma occ_nonneg g s : 0 <= occurrences g s.
Proof. apply zlen_nonneg. Qed.
Lemma occ_le g s : occurrences g s <= zlen s.
Proof. unfold occurrences. etransitivity; [apply filter_len|]. unfold zlen. rewrite seq_length. lia. Qed.
Lemma occ_prefix g h s : occurrences (g ++ h) s <= occurrences g s.
Proof.
  unfold occurrences. apply filter_le. intros i _ H. apply sent_eqb_ok in H. apply sent_eqb_ok. rewrite app_length in H.
  apply (f_equal (firstn (length g))) in H. rewrite firstn_firstn, Nat.min_l in H by lia. rewrite H. rewrite firstn_app, Nat.sub_diag, firstn_O, app_nil_r. apply firstn_all.
Qed.
Lemma occ_window g s : g <> [] -> 0 < occurrences g s -> In g (windows (length g) s).
Proof.
  intros Hg H. rewrite <- windows_occ in H by exact Hg. destruct (filter _ (windows (length g) s)) as [|x l] eqn:E; [change (zlen (@nil (list bytes))) with 0 in H; lia|].
  assert (In x (filter (fun x => sent_eqb x g) (windows (length g) s))) as Hin by (rewrite E; left; reflexivity). apply filter_In in Hin. destruct Hin as [H1 H2]. apply sent_eqb_ok in H2. subst x. exact H1.
Qed.
Lemma occ_words g s w : g <> [] -> 0 < occurrences g s -> In w g -> In w s.
Proof. intros Hg H Hw. apply (in_window (length g) s g w); [apply occ_window; assumption|exact Hw]. Qed.
Lemma occ_cons w x s : occurrences [w] (x :: s) = (if sent_eqb [x] [w] then 1 else 0) + occurrences [w] s.
Proof.
  unfold occurrences. cbn [List.length seq]. rewrite <- seq_shift. cbn [filter]. change (sent_eqb (firstn 1 (skipn 0 (x :: s))) [w]) with (sent_eqb [x] [w]).
  assert (zlen (filter (fun i => sent_eqb (firstn 1 (skipn i (x :: s))) [w]) (map S (seq 0 (length s)))) = zlen (filter (fun i => sent_eqb (firstn 1 (skipn i s)) [w]) (seq 0 (length s)))) as E.
  { rewrite zlen_filter_map. reflexivity. }
  destruct (sent_eqb [x] [w]); [rewrite zlen_cons|]; rewrite E; reflexivity.
Qed.
Lemma occ_in w s : In w s -> 0 < occurrences [w] s.
Proof.
  induction s as [|x s IH]; intros H; [destruct H|]. rewrite occ_cons. pose proof (occ_nonneg [w] s). destruct H as [->|H]; [assert (sent_eqb [w] [w] = true) as -> by (apply sent_eqb_ok; reflexivity); lia|].
  specialize (IH H). destruct (sent_eqb [x] [w]); lia.
Qed.
Definition zsum (l : list Z) : Z := fold_right Z.add 0 l.
Lemma zsum_plus {A} (f g : A -> Z) l : zsum (map (fun x => f x + g x) l) = zsum (map f l) + zsum (map g l).
Proof. induction l as [|x l IH]; [reflexivity|]. cbn [map zsum fold_right] in *. fold (zsum (map (fun x => f x + g x) l)) (zsum (map f l)) (zsum (map g l)). lia. Qed.
Lemma zsum_zero {A} (l : list A) : zsum (map (fun _ => 0) l) = 0.
Proof. induction l; [reflexivity|]. cbn [map zsum fold_right] in *. assumption. Qed.
Lemma zsum_one x (ws : list bytes) : NoDup ws -> In x ws -> zsum (map (fun w => if sent_eqb [x] [w] then 1 else 0) ws) = 1.
Proof.
  induction 1 as [|w ws Hw Hnd IH]; intros Hin; [destruct Hin|]. cbn [map zsum fold_right]. fold (zsum (map (fun w => if sent_eqb [x] [w] then 1 else 0) ws)).
  destruct (sent_eqb [x] [w]) eqn:E.
  - apply sent_eqb_ok in E. injection E as ->. replace (map (fun w0 => if sent_eqb [w] [w0] then 1 else 0) ws) with (map (fun _ : bytes => 0) ws); [rewrite zsum_zero; reflexivity|].
    apply map_ext_in. intros v Hv. rewrite sent_eqb_false; [reflexivity|]. intros Ev. injection Ev as ->. contradiction.
  - destruct Hin as [->|Hin]; [assert (sent_eqb [x] [x] = true) as E' by (apply sent_eqb_ok; reflexivity); congruence|]. rewrite (IH Hin). lia.
Qed.
Lemma occ_sum ws s : NoDup ws -> incl s ws -> zsum (map (fun w => occurrences [w] s) ws) = zlen s.
Proof.
  intros Hnd. induction s as [|x s IH]; intros Hin; [cbn; apply zsum_zero|].
  rewrite (map_ext _ (fun w => (if sent_eqb [x] [w] then 1 else 0) + occurrences [w] s)) by (intros; apply occ_cons).
  rewrite zsum_plus, IH by (intros y Hy; apply Hin; right; exact Hy). rewrite zsum_one by (try exact Hnd; apply Hin; left; reflexivity). rewrite zlen_cons. reflexivity.
Qed.

(** ** Corpora *)
Section Corpus.
Context (first last : bytes) (sentences : list (list bytes)).
Definition corpus_tokens : list (list bytes) := map (fun s => first :: s ++ [last]) (filter (fun s => negb (zlen s =? 0)) sentences).
End Corpus.
Lemma tokens_cons first last s l : corpus_tokens first last (s :: l) = match s with [] => [] | _ => [first :: s ++ [last]] end ++ corpus_tokens first last l.
Proof. unfold corpus_tokens. cbn [filter]. destruct s; [reflexivity|]. rewrite zlen_cons. pose proof (zlen_nonneg s). assert (negb (1 + zlen s =? 0) = true) as -> by lia. reflexivity. Qed.
Section Corpus2.
Context (first last : bytes).
Notation occ := (occurrences_in first last).
Lemma occ_tokens l g : occ l g = zsum (map (occurrences g) (corpus_tokens first last l)).
Proof.
  induction l as [|s l IH]; [reflexivity|]. rewrite tokens_cons. unfold occurrences_in. cbn [fold_right]. fold (occ l g). rewrite IH. destruct s; reflexivity.
Qed.
Lemma size_tokens l : wrapped_words l = zsum (map zlen (corpus_tokens first last l)).
Proof.
  induction l as [|s l IH]; [reflexivity|]. rewrite tokens_cons. unfold wrapped_words. cbn [fold_right]. fold (wrapped_words l). rewrite IH. destruct s as [|w s]; [reflexivity|].
  cbn [app map zsum fold_right]. rewrite !zlen_cons, zlen_app, !zlen_cons, zlen_nil. fold (zsum (map zlen (corpus_tokens first last l))). lia.
Qed.
Lemma zsum_le {A} (f g : A -> Z) l : (forall x, In x l -> f x <= g x) -> zsum (map f l) <= zsum (map g l).
Proof. induction l as [|x l IH]; intros H; [reflexivity|]. cbn [map zsum fold_right] in *. fold (zsum (map f l)) (zsum (map g l)). specialize (IH (fun y Hy => H y (or_intror Hy))). specialize (H x (or_introl eq_refl)). unfold zsum in *. lia. Qed.
Lemma zsum_pos {A} (f : A -> Z) l : (forall x, In x l -> 0 <= f x) -> 0 < zsum (map f l) -> exists x, In x l /\ 0 < f x.
Proof.
  induction l as [|x l IH]; intros H Hp; [cbn in Hp; lia|]. cbn [map zsum fold_right] in Hp. fold (zsum (map f l)) in Hp. destruct (Z_lt_dec 0 (f x)) as [Hx|Hx]; [exists x; split; [left; reflexivity|exact Hx]|].
  destruct IH as (y & Hy & Hy'); [intros; apply H; right; assumption|specialize (H x (or_introl eq_refl)); lia|]. exists y. split; [right; exact Hy|exact Hy'].
Qed.
Lemma zsum_in {A} (f : A -> Z) l x : (forall x, In x l -> 0 <= f x) -> In x l -> f x <= zsum (map f l).
Proof.
  induction l as [|y l IH]; intros H Hin; [destruct Hin|]. cbn [map zsum fold_right]. fold (zsum (map f l)).
  assert (0 <= zsum (map f l)) as H0. { rewrite <- (zsum_zero l). apply zsum_le. intros z Hz. apply H. right. exact Hz. }
  destruct Hin as [->|Hin]; [lia|]. specialize (IH (fun z Hz => H z (or_intror Hz)) Hin). specialize (H y (or_introl eq_refl)). lia.
Qed.
Lemma corpus_nonneg l g : 0 <= occ l g.
Proof. rewrite occ_tokens, <- (zsum_zero (corpus_tokens first last l)). apply zsum_le. intros. apply occ_nonneg. Qed.
Lemma corpus_le l g : occ l g <= wrapped_words l.
Proof. rewrite occ_tokens, size_tokens. apply zsum_le. intros. apply occ_le. Qed.
Lemma corpus_prefix l g h : occ l (g ++ h) <= occ l g.
Proof. rewrite !occ_tokens. apply zsum_le. intros. apply occ_prefix. Qed.
Lemma corpus_occ_window l g : g <> [] -> 0 < occ l g -> In g (flat_map (windows (length g)) (corpus_tokens first last l)).
Proof.
  intros Hg H. rewrite occ_tokens in H. destruct (zsum_pos _ _ ltac:(intros; apply occ_nonneg) H) as (s & Hs & Hp). apply in_flat_map. exists s. split; [exact Hs|]. apply occ_window; assumption.
Qed.
Lemma token_words l t w : In t (corpus_tokens first last l) -> In w t -> In w (first :: last :: concat l).
Proof.
  intros Ht Hw. unfold corpus_tokens in Ht. apply in_map_iff in Ht. destruct Ht as (s & <- & Hs). apply filter_In in Hs. cbn [In] in Hw |- *. destruct Hw as [Hw|Hw]; [left; exact Hw|].
  apply in_app_iff in Hw. destruct Hw as [Hw|[Hw|[]]]; [|right; left; exact Hw]. right. right. apply in_concat. exists s. split; [apply Hs|exact Hw].
Qed.
Lemma corpus_words l g w : 0 < occ l g -> g <> [] -> In w g -> In w (first :: last :: concat l).
Proof.
  intros H Hg Hw. rewrite occ_tokens in H. destruct (zsum_pos _ _ ltac:(intros; apply occ_nonneg) H) as (s & Hs & Hp). apply (token_words l s w Hs). apply (occ_words g s w Hg Hp Hw).
Qed.
Lemma corpus_word_occ l t w : In t (corpus_tokens first last l) -> In w t -> 0 < occ l [w].
Proof.
  intros Ht Hw. rewrite occ_tokens. pose proof (zsum_in (occurrences [w]) (corpus_tokens first last l) t ltac:(intros; apply occ_nonneg) Ht). pose proof (occ_in w t Hw). lia.
Qed.
Lemma corpus_sum l ws : NoDup ws -> (forall t w, In t (corpus_tokens first last l) -> In w t -> In w ws) -> zsum (map (fun w => occ l [w]) ws) = wrapped_words l.
Proof.
  intros Hnd Hin. rewrite size_tokens. rewrite (map_ext _ (fun w => zsum (map (occurrences [w]) (corpus_tokens first last l)))) by (intros; apply occ_tokens).
  induction (corpus_tokens first last l) as [|t ts IH]; [cbn; apply zsum_zero|]. cbn [map zsum fold_right].
  rewrite (map_ext _ (fun w => occurrences [w] t + zsum (map (occurrences [w]) ts))) by reflexivity. rewrite zsum_plus, IH by (intros t' w Ht; apply Hin; right; exact Ht). rewrite occ_sum; [reflexivity|exact Hnd|]. intros w Hw. apply (Hin t); [left; reflexivity|exact Hw].
Qed.
Lemma grams_few l k gs : (1 <= k)%nat -> NoDup gs -> (forall g, In g gs -> length g = k /\ 0 < occ l g) -> zlen gs <= wrapped_words l.
Proof.
  intros Hk Hnd H. assert (zlen (flat_map (windows k) (corpus_tokens first last l)) <= wrapped_words l) as Hle.
  { rewrite size_tokens. induction (corpus_tokens first last l) as [|t ts IH]; [reflexivity|]. cbn [flat_map map zsum fold_right]. rewrite zlen_app. fold (zsum (map zlen ts)).
    assert (zlen (windows k t) <= zlen t); [|lia]. unfold windows. destruct (length t <? k)%nat eqn:E; [apply zlen_nonneg|]. apply Nat.ltb_ge in E. unfold zlen. rewrite map_length, seq_length. lia. }
  etransitivity; [|exact Hle]. unfold zlen. apply Nat2Z.inj_le. apply NoDup_incl_length; [exact Hnd|]. intros g Hg. destruct (H g Hg) as [H1 H2]. rewrite <- H1. apply corpus_occ_window; [destruct g; [cbn in H1; lia|discriminate]|exact H2].
Qed.
End Corpus2.

(** ** Dictionary order *)
Lemma str_lt_irrefl a : str_lt a a = false.
Proof. induction a as [|x a IH]; [reflexivity|]. cbn [str_lt]. assert (x <? x = false) as -> by lia. exact IH. Qed.
Lemma str_lt_trans a : forall b c, str_lt a b = true -> str_lt b c = true -> str_lt a c = true.
Proof.
  induction a as [|x a IH]; intros [|y b] [|z c] H1 H2; try discriminate; try reflexivity. cbn [str_lt] in *.
  destruct (x <? y) eqn:E1, (y <? x) eqn:E2, (y <? z) eqn:E3, (z <? y) eqn:E4, (x <? z) eqn:E5, (z <? x) eqn:E6; try reflexivity; try discriminate; try lia. apply (IH b c); assumption.
Qed.
Lemma str_lt_total a : forall b, str_lt a b = false -> str_lt b a = false -> a = b.
Proof.
  induction a as [|x a IH]; intros [|y b] H1 H2; try discriminate; try reflexivity. cbn [str_lt] in *.
  destruct (x <? y) eqn:E1; [discriminate|]. destruct (y <? x) eqn:E2; [discriminate|]. assert (x = y) by lia. subst. f_equal. apply IH; assumption.
Qed.
Lemma item_total a b : item_less a b = false -> item_less b a = false -> a = b.
Proof.
  destruct a as [a n], b as [b m]. unfold item_less. cbn [fst snd]. intros H1 H2. destruct (m <? n) eqn:E1; [discriminate|]. destruct (n <? m) eqn:E2; [discriminate|].
  assert (n = m) by lia. subst. rewrite Z.eqb_refl in *. f_equal. apply str_lt_total; assumption.
Qed.
Lemma item_trans a b c : item_less a b = true -> item_less b c = true -> item_less a c = true.
Proof.
  destruct a as [a n], b as [b m], c as [c k]. unfold item_less. cbn [fst snd]. intros H1 H2.
  destruct (m <? n) eqn:E1, (k <? m) eqn:E2, (k <? n) eqn:E3; try reflexivity; try lia; destruct (n =? m) eqn:E4; destruct (m =? k) eqn:E5; try discriminate; try lia.
  destruct (n =? k) eqn:E6; [|lia]. apply (str_lt_trans a b c); assumption.
Qed.
Lemma tree_perm t x : ~ In x t -> Permutation (x :: t) (tree_insert t x).
Proof.
  induction t as [|y t IH]; intros Hn; [reflexivity|]. cbn [tree_insert]. destruct (item_less y x) eqn:E1.
  - etransitivity; [apply perm_swap|]. constructor. apply IH. intros H. apply Hn. right. exact H.
  - destruct (item_less x y) eqn:E2; [reflexivity|]. exfalso. apply Hn. left. apply item_total; assumption.
Qed.
Lemma tree_sorted t x : StronglySorted (fun a b => item_less a b = true) t -> StronglySorted (fun a b => item_less a b = true) (tree_insert t x) /\ (forall z, In z (tree_insert t x) -> z = x \/ In z t).
Proof.
  induction 1 as [|y t Hs [IH1 IH2] Hf]; cbn [tree_insert]; [split; [repeat constructor|intros z [<-|[]]; left; reflexivity]|]. rewrite Forall_forall in Hf.
  destruct (item_less y x) eqn:E1; [|destruct (item_less x y) eqn:E2].
  - split; [constructor; [exact IH1|apply Forall_forall; intros z Hz; destruct (IH2 z Hz) as [->|H]; [exact E1|apply Hf; exact H]]|].
    intros z [<-|Hz]; [right; left; reflexivity|]. destruct (IH2 z Hz); [left; assumption|right; right; assumption].
  - split; [constructor; [constructor; [exact Hs|apply Forall_forall; exact Hf]|apply Forall_forall; intros z [<-|Hz]; [exact E2|apply (item_trans x y z E2); apply Hf; exact Hz]]|]. intros z [<-|Hz]; [left; reflexivity|right; exact Hz].
  - split; [constructor; [exact Hs|apply Forall_forall; exact Hf]|]. intros z Hz. right. exact Hz.
Qed.
Lemma fold_tree l : NoDup l -> forall t, (forall x, In x l -> ~ In x t) -> Permutation (l ++ t) (fold_left tree_insert l t).
Proof.
  induction 1 as [|x l Hx Hnd IH]; intros t Ht; [reflexivity|]. cbn [fold_left app]. pose proof (tree_perm t x (Ht x (or_introl eq_refl))) as HP. rewrite <- IH.
  - etransitivity; [apply Permutation_middle|]. apply Permutation_app_head. exact HP.
  - intros y Hy Hin. apply (Permutation_in _ (Permutation_sym HP)) in Hin. destruct Hin as [->|Hin]; [contradiction|]. apply (Ht y (or_intror Hy)). exact Hin.
Qed.
Lemma fold_tree_sorted l : forall t, StronglySorted (fun a b => item_less a b = true) t -> StronglySorted (fun a b => item_less a b = true) (fold_left tree_insert l t).
Proof. induction l as [|x l IH]; intros t Ht; [exact Ht|]. cbn [fold_left]. apply IH. apply tree_sorted. exact Ht. Qed.

(** The lines of the file of the 1-grams *)
Definition item_of (e : list bytes * Z) : dictItem := (hd [] (fst e), snd e).
Lemma dict_lines_ok es : Forall (fun e => entry_ok e /\ length (fst e) = 1%nat /\ hd [] (fst e) <> []) es -> forall t,
  dict_lines t (map (fun e => body (fst e) (snd e)) es) = Ret (fold_left tree_insert (map item_of es) t).
Proof.
  induction 1 as [|[g c] es ((_ & H2 & H3 & _) & Hl & Hne) Hes IH]; intros t; [reflexivity|]. cbn [fst snd] in *. destruct g as [|w [|]]; try discriminate. cbn [hd] in Hne.
  cbn [map dict_lines fst snd fold_left item_of hd]. unfold body. cbn [Join]. apply Forall_inv in H2. rewrite index_tab_app by apply H2.
  assert (skipn (S (length w)) (w ++ 9 :: dec c) = dec c) as ->. { change (w ++ 9 :: dec c) with (w ++ [9] ++ dec c). rewrite app_assoc, <- (Nat.add_1_r (length w)). rewrite skipn_app. rewrite skipn_all2 by (rewrite app_length; cbn; lia). rewrite app_length. cbn [length]. rewrite Nat.sub_diag. reflexivity. }
  rewrite parse_dec by exact H3. cbn [bind]. assert ((length w =? 0)%nat = false) as -> by (destruct w; [congruence|reflexivity]).
  rewrite firstn_app, Nat.sub_diag, firstn_O, app_nil_r, firstn_all. apply IH.
Qed.
Lemma dictionary_ok es chunk fuel : Forall entry_ok es -> Forall (fun e => length (fst e) = 1%nat /\ hd [] (fst e) <> []) es -> (2 * length (file_of es) + 1 < fuel)%nat ->
  dictionaryWords chunk fuel (file_of es) = Ret (map fst (fold_left tree_insert (map item_of es) [])).
Proof.
  intros H1 H2 Hf. unfold dictionaryWords. rewrite file_scan by assumption. rewrite dict_lines_ok; [reflexivity|]. rewrite Forall_forall in *. intros e He. split; [apply H1; exact He|apply H2; exact He].
Qed.

(** ** Ids *)
Lemma table_built words srt fuel : sorts_by_size srt -> 1 <= zlen words <= 2 ^ 31 -> Z.of_nat fuel < 2 ^ 31 - 1 ->
  BuildMph fuel srt words = NoFuel \/ exists m, BuildMph fuel srt words = Ret m /\ table_ok m.
Proof.
  intros Hs Hn Hf. destruct (build_ok words ltac:(lia) srt Hs fuel ltac:(lia) Hf) as [E|(m & bs & E & HG & HI)]; [left; exact E|right; exists m; split; [exact E|]].
  destruct HI as [I1 I2 I3 I4 I5 I6]. split; [|split; [|split; lia]].
  - apply Forall_forall. intros v Hv. apply (In_nth _ _ 0) in Hv. destruct Hv as (j & Hj & <-). specialize (I6 (Z.of_nat j)). unfold get in I6. rewrite Nat2Z.id in I6.
    destruct I6 as [E1|E1]; [unfold zlen in *; lia|rewrite E1; unfold unused, is_u32; lia|unfold is_u32; lia].
  - apply Forall_forall. intros v Hv. apply (In_nth _ _ 0) in Hv. destruct Hv as (j & Hj & <-). specialize (I3 (Z.of_nat j)). unfold get in I3. rewrite Nat2Z.id in I3. unfold is_i32. unfold zlen in *. lia.
Qed.
Definition gid (words : list bytes) (m : mph) (w : bytes) : Z := match IndexerGet words m w with Ret i => i | _ => 0 end.
Lemma gid_ok words srt fuel m : sorts_by_size srt -> 1 <= zlen words <= 2 ^ 31 -> Z.of_nat fuel < 2 ^ 31 - 1 -> BuildMph fuel srt words = Ret m ->
  (forall w, IndexerGet words m w = Ret (gid words m w)) /\ (forall w, is_u32 (gid words m w))
  /\ (forall w w', In w words -> gid words m w = gid words m w' -> w = w').
Proof.
  intros Hs Hn Hf E. destruct (C57_word_ids_partial words srt fuel m Hs Hn Hf E) as (H1 & H2 & _ & _).
  assert (forall w, (exists i, nth_error words i = Some w /\ IndexerGet words m w = Ret (Z.of_nat i) /\ 0 <= Z.of_nat i < zlen words) \/ (~ In w words /\ IndexerGet words m w = Ret UnknownWordID)) as Hall.
  { intros w. destruct (in_dec (list_eq_dec Z.eq_dec) w words) as [Hin|Hin]; [left|right; split; [exact Hin|apply H2; exact Hin]].
    apply In_nth_error in Hin. destruct Hin as [i Hi]. exists i. split; [exact Hi|]. split; [apply H1; exact Hi|]. assert (i < length words)%nat by (apply nth_error_Some; intros En; unfold bytes in *; rewrite En in Hi; discriminate). unfold zlen. lia. }
  split; [|split].
  - intros w. unfold gid. destruct (Hall w) as [(i & _ & -> & _)|[_ ->]]; reflexivity.
  - intros w. unfold gid. destruct (Hall w) as [(i & _ & -> & Hi)|[_ ->]]; unfold is_u32, UnknownWordID; lia.
  - intros w w' Hin Eq. unfold gid in Eq. destruct (Hall w) as [(i & Hi & Ei & Hr)|[Hno _]]; [|contradiction]. rewrite Ei in Eq.
    destruct (Hall w') as [(j & Hj & Ej & _)|[_ Ej]]; rewrite Ej in Eq; [|unfold UnknownWordID in Eq; lia]. assert (i = j) by lia. subst. congruence.
Qed.
