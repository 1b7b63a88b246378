(** C69 A model trained on a corpus answers with the corpus's counts. *)
From Coq Require Import String ZifyBool Permutation Sorting.Sorted.
From Verif Require Import Base BaseLemmas GoMap Store CountTrie CountTrieSpec CountTrieProofs P_CountTrie Scanner Decimal Merger NGram NGramSpec P_NGram Mph MphSpec MphProofs P_Mph NGramStore NGramStoreProofs P_NGramStore GoogleNGram GoogleProofs P_Google TrainedSpec TrainedProofs NGramProofs4 Float64.
Local Open Scope Z_scope.

Lemma join_len (g : list bytes) L : (forall w, In w g -> zlen w <= L) -> zlen (Join g) <= zlen g * (L + 1).
Proof.
  induction g as [|w g IH]; intros H; [reflexivity|]. assert (zlen (Join g) <= zlen g * (L + 1)) by (apply IH; intros; apply H; right; assumption).
  specialize (H w (or_introl eq_refl)). pose proof (zlen_nonneg w) as Hw. cbn [Join]. destruct g as [|w2 g]; [change (zlen w <= 1 * (L + 1)); lia|]. rewrite (zlen_cons w), zlen_app, (zlen_cons 32), Z.mul_add_distr_r. lia.
Qed.
Lemma count_all_sum f : count_all f = zsum (map snd f).
Proof. induction f as [|l f IH]; [reflexivity|]. cbn [count_all fold_right map zsum]. fold (count_all f) (zsum (map snd f)). rewrite IH. reflexivity. Qed.

Lemma occ_u32_gen first last sentences : wrapped_words sentences < 2 ^ 28 -> forall g, is_u32 (occurrences_in first last sentences g).
Proof. intros H g. pose proof (corpus_nonneg first last sentences g). pose proof (corpus_le first last sentences g). unfold is_u32. lia. Qed.
Section Main.
Context (first last : bytes) (sentences : list (list bytes)) (order L : Z).
Notation occ := (occurrences_in first last sentences).
Context (Ho : 1 <= order <= 255)
  (Hw : forall w, In w (first :: last :: concat sentences) -> w <> [] /\ plain w /\ zlen w <= L)
  (HL : order * (L + 1) + 21 < 65536)
  (Hne : exists s, In s sentences /\ s <> [])
  (Hsz : wrapped_words sentences < 2 ^ 28).
Context (es : list (list bytes * Z)) (Hnd : NoDup (map fst es))
  (Hes : forall g c, In (g, c) es <-> 1 <= zlen g <= order /\ c = occ g /\ 0 < c).

Let occ_u32 g : is_u32 (occ g) := occ_u32_gen first last sentences Hsz g.
Lemma es_writable : writable order es.
Proof.
  intros g c Hin. apply Hes in Hin. destruct Hin as (H1 & -> & H3). assert (g <> []) as Hg by (intros ->; change (zlen (@nil bytes)) with 0 in H1; lia).
  assert (forall w, In w g -> w <> [] /\ plain w /\ zlen w <= L) as Hg' by (intros w Hi; apply Hw; apply (corpus_words first last sentences g w H3 Hg Hi)).
  split; [exact H1|]. split; [intros w Hi; apply Hg'; exact Hi|]. split; [apply occ_u32|].
  rewrite zlen_app, zlen_cons. assert (zlen (dec (occ g)) <= 20) as Hd. { destruct (dec_spec (occ g)) as (_ & _ & _ & _ & _ & Hx); [pose proof (occ_u32 g); unfold is_u32, is_u64 in *; lia|unfold zlen; lia]. }
  pose proof (join_len g L ltac:(intros w Hi; apply Hg'; exact Hi)) as Hj. assert (0 <= L). { destruct g as [|w g]; [congruence|]. destruct (Hg' w (or_introl eq_refl)) as (_ & _ & Hx). pose proof (zlen_nonneg w). lia. }
  assert (zlen g * (L + 1) <= order * (L + 1)) by (apply Z.mul_le_mono_nonneg_r; lia). lia.
Qed.
Notation ones1 := (of_order 1 es).
Lemma one_shape e : In e ones1 -> exists w, e = ([w], occ [w]) /\ 0 < occ [w] /\ w <> [].
Proof.
  intros He. apply filter_In in He. destruct He as [He Hl]. destruct e as [g c]. cbn [fst] in Hl. apply Nat.eqb_eq in Hl. apply Hes in He. destruct He as (_ & -> & Hc). destruct g as [|w [|]]; try discriminate.
  exists w. split; [reflexivity|]. split; [exact Hc|]. apply (Hw w). apply (corpus_words first last sentences [w] w Hc); [discriminate|left; reflexivity].
Qed.
Definition words_of : list bytes := map fst (fold_left tree_insert (map item_of ones1) []).
Lemma items_nodup : NoDup (map (fun e => hd [] (fst e)) ones1).
Proof.
  assert (NoDup (map fst ones1)) as H.
  { unfold of_order. clear -Hnd. induction es as [|e l IH]; [constructor|]. cbn [map] in Hnd. inversion Hnd; subst. cbn [filter]. destruct (length (fst e) =? 1)%nat; [|apply IH; assumption]. cbn [map]. constructor; [|apply IH; assumption].
    intros Hin. apply H1. apply in_map_iff in Hin. destruct Hin as (x & <- & Hx). apply in_map. apply filter_In in Hx. apply Hx. }
  assert (forall e, In e ones1 -> exists w, fst e = [w]) as Hsh by (intros e He; destruct (one_shape e He) as (w & -> & _); exists w; reflexivity).
  induction ones1 as [|e l IH]; [constructor|]. cbn [map] in *. inversion H; subst. constructor; [|apply IH; [assumption|intros; apply Hsh; right; assumption]].
  intros Hin. apply H2. apply in_map_iff in Hin. destruct Hin as (x & Ex & Hx). destruct (Hsh e (or_introl eq_refl)) as [w Ew]. destruct (Hsh x (or_intror Hx)) as [v Ev]. destruct e as [ge ce], x as [gx cx]. cbn [fst] in *. subst ge gx. cbn [hd] in Ex. subst v. apply (in_map fst) in Hx. exact Hx.
Qed.
Lemma tree_items : Permutation (map item_of ones1) (fold_left tree_insert (map item_of ones1) []).
Proof.
  rewrite <- (app_nil_r (map item_of ones1)) at 1. apply fold_tree; [|intros x _ []].
  apply (NoDup_map_inv fst). rewrite map_map. exact items_nodup.
Qed.
Lemma words_perm : Permutation (map (fun e => hd [] (fst e)) ones1) words_of.
Proof. unfold words_of. rewrite <- tree_items, map_map. reflexivity. Qed.
Lemma words_nodup : NoDup words_of.
Proof. eapply Permutation_NoDup; [apply words_perm|apply items_nodup]. Qed.
Lemma words_in w : In w words_of <-> 0 < occ [w].
Proof.
  split.
  - intros H. apply (Permutation_in _ (Permutation_sym words_perm)) in H. apply in_map_iff in H. destruct H as (e & <- & He). destruct (one_shape e He) as (v & -> & Hv & _). exact Hv.
  - intros H. apply (Permutation_in _ words_perm). apply in_map_iff. exists ([w], occ [w]). split; [reflexivity|]. apply filter_In. split; [|reflexivity]. apply Hes. rewrite zlen_cons. change (zlen (@nil bytes)) with 0. split; [lia|]. split; [reflexivity|exact H].
Qed.
Lemma words_sorted : StronglySorted (fun a b => occ [b] < occ [a] \/ occ [a] = occ [b] /\ str_lt a b = true) words_of.
Proof.
  unfold words_of. pose proof (fold_tree_sorted (map item_of ones1) [] ltac:(constructor)) as HS.
  assert (forall x, In x (fold_left tree_insert (map item_of ones1) []) -> snd x = occ [fst x]) as Hx.
  { intros x Hx. apply (Permutation_in _ (Permutation_sym tree_items)) in Hx. apply in_map_iff in Hx. destruct Hx as (e & <- & He). destruct (one_shape e He) as (v & -> & _ & _). reflexivity. }
  induction HS as [|x t Ht IH Hf]; [constructor|]. cbn [map]. constructor; [apply IH; intros; apply Hx; right; assumption|]. rewrite Forall_forall in Hf. rewrite Forall_map, Forall_forall. intros y Hy.
  specialize (Hf y Hy). unfold item_less in Hf. rewrite (Hx x (or_introl eq_refl)), (Hx y (or_intror Hy)) in Hf. destruct (occ [fst y] <? occ [fst x]) eqn:E1; [left; lia|]. destruct (occ [fst x] =? occ [fst y]) eqn:E2; [right; split; [lia|exact Hf]|discriminate].
Qed.
Lemma words_cover t w : In t (corpus_tokens first last sentences) -> In w t -> In w words_of.
Proof. intros Ht Hi. apply words_in. apply (corpus_word_occ first last sentences t w Ht Hi). Qed.
Lemma words_size : 1 <= zlen words_of <= 2 ^ 31.
Proof.
  split.
  - destruct Hne as (s & Hs & Hs0). assert (In (first :: s ++ [last]) (corpus_tokens first last sentences)) as Ht.
    { unfold corpus_tokens. apply in_map_iff. exists s. split; [reflexivity|]. apply filter_In. split; [exact Hs|]. destruct s; [congruence|]. rewrite zlen_cons. pose proof (zlen_nonneg s). lia. }
    pose proof (words_cover _ first Ht (or_introl eq_refl)) as Hin. destruct words_of; [destruct Hin|]. rewrite zlen_cons. pose proof (zlen_nonneg l). lia.
  - etransitivity; [|instantiate (1 := 2 ^ 28); lia]. etransitivity; [|apply Z.lt_le_incl; exact Hsz].
    replace (zlen words_of) with (zlen (map (fun w => [w]) words_of)) by (unfold zlen; rewrite map_length; reflexivity). apply (grams_few first last sentences 1).
    + lia.
    + apply FinFun.Injective_map_NoDup; [intros x y E; injection E as ->; reflexivity|apply words_nodup].
    + intros g Hg. apply in_map_iff in Hg. destruct Hg as (w & <- & Hi). split; [reflexivity|]. apply words_in. exact Hi.
Qed.

Context (id : bytes -> Z) (Hid : forall w, is_u32 (id w)) (Hinj : forall w w', In w words_of -> id w = id w' -> w = w').
Definition mfiles : list ngfile := map (fun k => lines_of id k es) (seq 1 (Z.to_nat order)).
Lemma known g w : 0 < occ g -> g <> [] -> In w g -> In w words_of.
Proof.
  intros H Hg Hi. apply words_in. rewrite occ_tokens in H. destruct (zsum_pos _ _ ltac:(intros; apply occ_nonneg) H) as (s & Hs & Hp). apply (corpus_word_occ first last sentences s w Hs). apply (occ_words g s w Hg Hp Hi).
Qed.
Lemma ids_inj g h : 0 < occ g -> g <> [] -> map id g = map id h -> g = h.
Proof.
  intros H Hg. assert (forall w, In w g -> In w words_of) as Hk by (intros w Hi; apply (known g w H Hg Hi)). clear H Hg. revert h.
  induction g as [|w g IH]; intros [|v h] E; try discriminate; [reflexivity|]. cbn [map] in E. injection E as E1 E2. f_equal; [apply Hinj; [apply Hk; left; reflexivity|exact E1]|]. apply IH; [intros; apply Hk; right; assumption|exact E2].
Qed.
Lemma lines_in k g c : (1 <= k)%nat -> In (g, c) (lines_of id k es) <-> exists h, g = map id h /\ c = occ h /\ length h = k /\ zlen h <= order /\ 0 < c.
Proof.
  intros Hk. unfold lines_of. rewrite in_map_iff. split.
  - intros ([h d] & E & Hin). cbn [fst snd] in E. injection E as <- <-. apply filter_In in Hin. destruct Hin as [Hin Hl]. cbn [fst] in Hl. apply Nat.eqb_eq in Hl. apply Hes in Hin. destruct Hin as (H1 & -> & H3). exists h. repeat split; auto. lia.
  - intros (h & -> & -> & Hl & H1 & H2). exists (h, occ h). split; [reflexivity|]. apply filter_In. split; [|cbn [fst]; apply Nat.eqb_eq; exact Hl]. apply Hes. split; [unfold zlen in *; lia|]. split; [reflexivity|exact H2].
Qed.
Lemma lines_nodup k : (1 <= k)%nat -> NoDup (map fst (lines_of id k es)).
Proof.
  intros Hk. unfold lines_of. rewrite map_map. cbn [fst].
  assert (forall e, In e (filter (fun e => (length (fst e) =? k)%nat) es) -> 0 < occ (fst e) /\ fst e <> []) as Hp.
  { intros [h d] He. apply filter_In in He. destruct He as [He Hl]. apply Hes in He. cbn [fst] in *. apply Nat.eqb_eq in Hl. destruct He as (_ & -> & Hd). split; [exact Hd|]. destruct h; [cbn in Hl; lia|discriminate]. }
  assert (NoDup (map fst (filter (fun e => (length (fst e) =? k)%nat) es))) as H.
  { clear -Hnd. induction es as [|e l IH]; [constructor|]. cbn [map] in Hnd. inversion Hnd; subst. cbn [filter]. destruct (length (fst e) =? k)%nat; [|apply IH; assumption]. cbn [map]. constructor; [|apply IH; assumption].
    intros Hin. apply H1. apply in_map_iff in Hin. destruct Hin as (x & <- & Hx). apply in_map. apply filter_In in Hx. apply Hx. }
  induction (filter (fun e => (length (fst e) =? k)%nat) es) as [|e l IH]; [constructor|]. cbn [map] in *. inversion H; subst. constructor; [|apply IH; [intros; apply Hp; right; assumption|assumption]].
  intros Hin. apply H2. apply in_map_iff in Hin. destruct Hin as (x & Ex & Hx). destruct (Hp e (or_introl eq_refl)) as [P1 P2]. rewrite (ids_inj (fst e) (fst x) P1 P2 (eq_sym Ex)). apply in_map. exact Hx.
Qed.
Lemma lines_few k : (1 <= k)%nat -> zlen (lines_of id k es) <= wrapped_words sentences.
Proof.
  intros Hk. unfold lines_of. replace (zlen (map _ _)) with (zlen (map fst (filter (fun e => (length (fst e) =? k)%nat) es))) by (unfold zlen; rewrite !map_length; reflexivity).
  apply (grams_few first last sentences k); [exact Hk| |].
  - clear -Hnd. induction es as [|e l IH]; [constructor|]. cbn [map] in Hnd. inversion Hnd; subst. cbn [filter]. destruct (length (fst e) =? k)%nat; [|apply IH; assumption]. cbn [map]. constructor; [|apply IH; assumption].
    intros Hin. apply H1. apply in_map_iff in Hin. destruct Hin as (x & <- & Hx). apply in_map. apply filter_In in Hx. apply Hx.
  - intros g Hg. apply in_map_iff in Hg. destruct Hg as ([h d] & <- & He). apply filter_In in He. destruct He as [He Hl]. apply Hes in He. cbn [fst] in *. apply Nat.eqb_eq in Hl. split; [exact Hl|]. destruct He as (_ & -> & Hd). exact Hd.
Qed.
Lemma nth_files k f : nth_error mfiles k = Some f -> f = lines_of id (S k) es /\ (k < Z.to_nat order)%nat.
Proof.
  unfold mfiles. rewrite nth_error_map. intros E. destruct (nth_error (seq 1 (Z.to_nat order)) k) as [k'|] eqn:Ek; [|discriminate]. cbn [option_map] in E. injection E as <-.
  assert (k < Z.to_nat order)%nat as Hlt. { rewrite <- (seq_length (Z.to_nat order) 1). apply nth_error_Some. rewrite Ek. discriminate. }
  apply nth_error_nth with (d := O) in Ek. rewrite seq_nth in Ek by exact Hlt. subst k'. split; [reflexivity|exact Hlt].
Qed.
Lemma files_len : length mfiles = Z.to_nat order.
Proof. unfold mfiles. rewrite map_length, seq_length. reflexivity. Qed.
Lemma mfiles_ok : model_files mfiles.
Proof.
  split; [|split].
  - intros k f E. destruct (nth_files k f E) as [-> Hk]. split.
    + intros g c Hin. apply (lines_in (S k) g c ltac:(lia)) in Hin. destruct Hin as (h & -> & -> & Hl & _ & Hp). split; [rewrite map_length; exact Hl|]. split; [apply Forall_forall; intros x Hx; apply in_map_iff in Hx; destruct Hx as (w & <- & _); apply Hid|apply occ_u32].
    + rewrite nodup_fixed_point by (apply lines_nodup; lia). pose proof (lines_few (S k) ltac:(lia)) as H. unfold zlen in *. rewrite map_length. lia.
  - intros k f f' E E' g w c Hin. destruct (nth_files k f E) as [-> Hk]. destruct (nth_files (S k) f' E') as [-> Hk']. apply (lines_in (S (S k)) _ c ltac:(lia)) in Hin. destruct Hin as (h & Eh & -> & Hl & Hz & Hp).
    destruct (exists_last (l := h)) as (h' & v & ->); [destruct h; [discriminate|discriminate]|]. rewrite map_app in Eh. cbn [map] in Eh. apply app_inj_tail in Eh. destruct Eh as [-> ->]. rewrite app_length in Hl. cbn [length] in Hl.
    apply in_map_iff. exists (map id h', occ h'). split; [reflexivity|]. apply (lines_in (S k) _ _ ltac:(lia)). exists h'. split; [reflexivity|]. split; [reflexivity|]. split; [lia|]. rewrite zlen_app in Hz. change (zlen [v]) with 1 in Hz. split; [lia|].
    pose proof (corpus_prefix first last sentences h' [v]). lia.
  - rewrite files_len. lia.
Qed.
Lemma count_lines k g : (1 <= k)%nat -> length g = k -> zlen g <= order -> count_in (lines_of id k es) (map id g) = occ g.
Proof.
  intros Hk Hl Hz. destruct (Z_lt_dec 0 (occ g)) as [Hp|Hp].
  - assert (In (map id g, occ g) (lines_of id k es)) as Hin by (apply lines_in; [exact Hk|]; exists g; auto).
    pose proof (lines_nodup k Hk) as HN. revert Hin HN. generalize (lines_of id k es) as f. induction f as [|[h c] f IH]; intros Hin HN; [destruct Hin|]. cbn [map fst] in HN. inversion HN as [|? ? Hni HN']; subst. cbn [count_in fold_right fst snd]. fold (count_in f (map id g)).
    destruct Hin as [E|Hin].
    + injection E as -> ->. unfold same_gram. destruct (list_eq_dec Z.eq_dec (map id g) (map id g)); [|congruence]. assert (count_in f (map id g) = 0) as ->; [|lia].
      clear -Hni. induction f as [|[h c] f IH]; [reflexivity|]. cbn [count_in fold_right fst snd map In] in *. fold (count_in f (map id g)). unfold same_gram. destruct (list_eq_dec Z.eq_dec h (map id g)); [tauto|]. rewrite IH by tauto. reflexivity.
    + rewrite (IH Hin HN'). unfold same_gram. destruct (list_eq_dec Z.eq_dec h (map id g)) as [->|]; [|lia]. exfalso. apply Hni. apply (in_map fst) in Hin. exact Hin.
  - assert (occ g = 0) as -> by (pose proof (corpus_nonneg first last sentences g); lia).
    assert (forall c, ~ In (map id g, c) (lines_of id k es)) as Hno.
    { intros c Hin. apply lines_in in Hin; [|exact Hk]. destruct Hin as (h & E & -> & Hlh & _ & Hc). assert (h = g) as -> by (apply (ids_inj h g Hc); [destruct h; [cbn in Hlh; lia|discriminate]|symmetry; exact E]). contradiction. }
    revert Hno. generalize (lines_of id k es) as f. induction f as [|[h c] f IH]; intros Hno; [reflexivity|]. cbn [count_in fold_right fst snd]. fold (count_in f (map id g)). rewrite IH by (intros c' H; apply (Hno c'); right; exact H).
    unfold same_gram. destruct (list_eq_dec Z.eq_dec h (map id g)) as [->|]; [|reflexivity]. exfalso. apply (Hno c). left. reflexivity.
Qed.
Lemma nth_mfiles k : (k < Z.to_nat order)%nat -> nth k mfiles [] = lines_of id (S k) es.
Proof. intros Hk. unfold mfiles. rewrite (nth_indep _ [] (lines_of id 0 es)) by (rewrite map_length, seq_length; exact Hk). rewrite (map_nth (fun k => lines_of id k es)). rewrite seq_nth by exact Hk. reflexivity. Qed.
Lemma corpus_total : count_all (lines_of id 1 es) = wrapped_words sentences.
Proof.
  rewrite count_all_sum. unfold lines_of. rewrite map_map. cbn [snd]. rewrite <- (corpus_sum first last sentences words_of words_nodup words_cover).
  assert (map snd ones1 = map (fun w => occ [w]) (map (fun e => hd [] (fst e)) ones1)) as E.
  { rewrite map_map. apply map_ext_in. intros e He. destruct (one_shape e He) as (w & -> & _ & _). reflexivity. }
  transitivity (zsum (map snd ones1)); [reflexivity|]. rewrite E. pose proof (Permutation_map (fun w => occ [w]) words_perm) as HP. revert HP. generalize (map (fun w => occ [w]) (map (fun e => hd [] (fst e)) ones1)) (map (fun w => occ [w]) words_of). clear.
  intros a b H. unfold zsum. induction H; cbn [fold_right]; lia.
Qed.
Lemma seen_ok g : seen_counts mfiles (map id g) = wrapped_words sentences :: map (fun i => occ (firstn i g)) (seq 1 (Nat.min (Z.to_nat order) (length g))).
Proof.
  unfold seen_counts. rewrite files_len, map_length, nth_mfiles by lia. rewrite corpus_total. f_equal.
  - apply Z.mod_small. split; [|lia]. rewrite (size_tokens first last). rewrite <- (zsum_zero (corpus_tokens first last sentences)). apply zsum_le. intros. apply zlen_nonneg.
  - apply map_ext_in. intros i Hi. apply in_seq in Hi. unfold count32, count_of. rewrite firstn_map, map_length, firstn_length, nth_mfiles by lia.
    replace (S (Nat.min i (length g) - 1)) with i by lia. rewrite count_lines; [apply Z.mod_small; apply occ_u32|lia|rewrite firstn_length; lia|unfold zlen; rewrite firstn_length; lia].
Qed.
Lemma count_ok g : 1 <= zlen g <= order -> count32 mfiles (map id g) = occ g.
Proof.
  intros Hg. unfold zlen in Hg. unfold count32, count_of. rewrite map_length, nth_mfiles by lia.
  replace (S (length g - 1)) with (length g) by lia. rewrite count_lines; [apply Z.mod_small; apply occ_u32|lia|reflexivity|unfold zlen; lia].
Qed.
Lemma continues_ok g : zlen g < order -> (exists x c, In (map id g ++ [x], c) (nth (length g) mfiles [])) <-> exists w, 0 < occ (g ++ [w]).
Proof.
  intros Hg. unfold zlen in Hg. rewrite nth_mfiles by lia. split.
  - intros (x & c & Hin). apply lines_in in Hin; [|lia]. destruct Hin as (h & E & -> & Hl & _ & Hp).
    destruct (exists_last (l := h)) as (h' & w & ->); [intros ->; cbn in Hl; discriminate|]. rewrite map_app in E. cbn [map] in E. apply app_inj_tail in E. destruct E as [E _].
    exists w. replace g with h'; [exact Hp|]. destruct h' as [|y h']; [destruct g; [reflexivity|discriminate]|]. apply (ids_inj (y :: h') g); [|discriminate|symmetry; exact E].
    pose proof (corpus_prefix first last sentences (y :: h') [w]). lia.
  - intros (w & Hp). exists (id w), (occ (g ++ [w])). apply lines_in; [lia|]. exists (g ++ [w]). rewrite map_app, app_length. cbn [map length]. repeat split; [lia|unfold zlen; rewrite app_length; cbn [length]; lia|exact Hp].
Qed.
Lemma files_fit : Forall (fun f => Forall (fun l : list Z * Z => is_u32 (snd l)) f /\ zlen f < 2 ^ 28) mfiles.
Proof.
  apply Forall_forall. intros f Hf. apply In_nth_error in Hf. destruct Hf as [k Hk]. destruct (nth_files k f Hk) as [-> _]. split.
  - apply Forall_forall. intros [g c] Hin. apply lines_in in Hin; [|lia]. destruct Hin as (h & _ & -> & _). apply occ_u32.
  - pose proof (lines_few (S k) ltac:(lia)). lia.
Qed.
End Main.

(** The trained model behind the theorems below: read from n-gram files whose counts are the
    occurrences in the corpus. *)
Definition trained_model (first last : bytes) (sentences : list (list bytes)) (order : Z) (l : lmodel) : Prop :=
  exists (f : bytes -> Z) ms ixs, model_files ms /\ List.length ms = Z.to_nat order /\ read_vectors [] ms = Ret ixs /\
    l_lm l = mkLM (NewNGramModel ixs) order (f first) (f last) /\ (forall w, GetWordID l w = Ret (f w)) /\ (forall w, is_u32 (f w)) /\
    (forall g, 1 <= zlen g <= order -> count32 ms (map f g) = occurrences_in first last sentences g) /\
    (forall g, zlen g < order -> (exists x c, In (map f g ++ [x], c) (nth (List.length g) ms [])) <-> exists w, 0 < occurrences_in first last sentences (g ++ [w])).
Lemma trained_full : forall first last sentences order ord srt chunk fuel mfuel L,
  (forall p l, Permutation l (ord p l)) -> sorts_by_size srt -> 1 <= order <= 255 ->
  (forall w, In w (first :: last :: concat sentences) -> w <> [] /\ plain w /\ zlen w <= L) -> order * (L + 1) + 21 < 65536 ->
  (exists s, In s sentences /\ s <> []) -> wrapped_words sentences < 2 ^ 28 -> Z.of_nat mfuel < 2 ^ 31 - 1 ->
  exists files words, WriteNGrams ord order (Build first last sentences order) = Ret files
  /\ NoDup words /\ (forall w, In w words <-> 0 < occurrences_in first last sentences [w])
  /\ StronglySorted (fun a b => occurrences_in first last sentences [b] < occurrences_in first last sentences [a]
                                \/ occurrences_in first last sentences [a] = occurrences_in first last sentences [b] /\ str_lt a b = true) words
  /\ ((forall f, In f files -> (2 * List.length f + 1 < fuel)%nat) ->
      (BuildMph mfuel srt words = NoFuel /\ StoreBinaryLMFromGoogleFormat srt chunk fuel mfuel order files = NoFuel)
      \/ exists binary, StoreBinaryLMFromGoogleFormat srt chunk fuel mfuel order files = Ret (words, binary)
         /\ (zlen binary < 2 ^ 63 -> exists l, RetrieveLMFromBinary order first last words binary = Ret l
             /\ (forall i w, nth_error words i = Some w -> GetWordID l w = Ret (Z.of_nat i))
             /\ (forall w, ~ In w words -> GetWordID l w = Ret (2 ^ 32 - 1))
             /\ GetWordID l first = Ret (lm_start (l_lm l)) /\ GetWordID l last = Ret (lm_end (l_lm l)) /\ lm_order (l_lm l) = order
             /\ trained_model first last sentences order l
             /\ forall g, g <> [] -> exists ids, get_all (GetWordID l) g = Ret ids
                /\ Score_counts (lm_model (l_lm l)) ids
                   = Ret (wrapped_words sentences :: map (fun i => occurrences_in first last sentences (firstn i g)) (seq 1 (Nat.min (Z.to_nat order) (List.length g)))))).
Proof.
  intros first last sentences order ord srt chunk fuel mfuel L Hord Hsrt Ho Hw HL Hne Hsz Hmf.
  destruct (C47_build_counts_partial first last sentences order ord Hord ltac:(lia)) as (es & Hnd & Hes0 & Hwalk).
  { assert (zlen (nodup (list_eq_dec Z.eq_dec) (first :: last :: concat sentences)) <= zlen (first :: last :: concat sentences)) as H1.
    { unfold zlen. apply Nat2Z.inj_le. apply NoDup_incl_length; [apply NoDup_nodup|]. intros x Hx. apply nodup_In in Hx. exact Hx. }
    assert (zlen (concat sentences) <= wrapped_words sentences) as H2.
    { clear. induction sentences as [|s l IH]; [reflexivity|]. cbn [concat wrapped_words fold_right]. fold (wrapped_words l). rewrite (zlen_app s (concat l)). destruct s; [exact IH|unfold bytes in *; lia]. }
    rewrite !zlen_cons in H1. eapply Z.le_lt_trans; [exact H1|]. unfold bytes in *. lia. }
  assert (forall g c, In (g, c) es <-> 1 <= zlen g <= order /\ c = occurrences_in first last sentences g /\ 0 < c) as Hes.
  { intros g c. rewrite Hes0. rewrite Z.mod_small; [reflexivity|]. pose proof (occ_u32_gen first last sentences Hsz g) as H. unfold is_u32 in H. exact H. }
  pose proof (es_writable first last sentences order L Hw HL Hsz es Hes) as Hwr.
  set (words := words_of es). exists (map file_of (by_order (Z.to_nat order) es)), words.
  assert (feed write_ngram es (repeat [] (Z.to_nat order)) = (Ret tt, map file_of (by_order (Z.to_nat order) es))) as Hfeed.
  { apply write_files. intros g c Hin. destruct (Hwr g c Hin) as (H1 & _). unfold zlen in H1. lia. }
  split. { unfold WriteNGrams. rewrite Hwalk, Hfeed. reflexivity. }
  split; [apply (words_nodup first last sentences order L Hw es Hnd Hes)|]. split; [intros w; apply (words_in first last sentences order L Ho Hw es Hnd Hes)|].
  split; [apply (words_sorted first last sentences order L Hw es Hnd Hes)|]. intros Hfuel.
  pose proof (words_size first last sentences order L Ho Hw Hne Hsz es Hnd Hes) as Hws. fold words in Hws.
  assert (exists rest, map file_of (by_order (Z.to_nat order) es) = file_of (of_order 1 es) :: rest) as [rest Erest].
  { unfold by_order. destruct (Z.to_nat order) as [|n] eqn:En; [lia|]. cbn [seq map]. eexists. reflexivity. }
  assert (dictionaryWords chunk fuel (file_of (of_order 1 es)) = Ret words) as Hdict.
  { apply dictionary_ok.
    - apply (writable_orders _ _ _ Hwr).
    - apply Forall_forall. intros e He. destruct (one_shape first last sentences order L Hw es Hes e He) as (w & -> & _ & Hn). split; [reflexivity|exact Hn].
    - apply Hfuel. rewrite Erest. left. reflexivity. }
  destruct (table_built words srt mfuel Hsrt Hws Hmf) as [Eb|(m & Eb & Htab)].
  { left. split; [exact Eb|]. rewrite Erest. unfold StoreBinaryLMFromGoogleFormat. rewrite Hdict. cbn [bind]. rewrite Eb. reflexivity. }
  right. destruct (gid_ok words srt mfuel m Hsrt Hws Hmf Eb) as (G1 & G2 & G3).
  destruct (C57_word_ids_partial words srt mfuel m Hsrt Hws Hmf Eb) as (W1 & W2 & _ & _).
  destruct (C59_model order es (IndexerGet words m) (gid words m) ltac:(lia) Hwr ltac:(intros; apply G1)) as (files & Hf1 & Hf2). rewrite Hfeed in Hf1. injection Hf1 as <-. specialize (Hf2 chunk fuel Hfuel).
  pose proof (mfiles_ok first last sentences order L Ho Hw Hsz es Hnd Hes (gid words m) G2 G3) as Hmod. destruct (C49_counts_partial _ Hmod) as (ixs & Eix & Hord' & Hcnt). fold (mfiles order es (gid words m)) in Hf2. rewrite Eix in Hf2. cbn [bind] in Hf2.
  pose proof (files_fit first last sentences order L Hw Hsz es Hnd Hes (gid words m) G2 G3) as Hfit.
  pose proof (read_fits _ [] ixs Hfit (Forall_nil _) Eix) as Hvec.
  assert (zlen ixs <= 255) as Hz.
  { assert (forall fs vs r, read_vectors vs fs = Ret r -> zlen r = zlen vs + zlen fs) as G.
    { induction fs as [|f fs IH]; intros vs r E'; cbn [read_vectors] in E'; [injection E' as <-; change (zlen (@nil ngfile)) with 0; lia|].
      destruct (put_lines vs [] f) as [t0| | |]; cbn [bind] in E'; try discriminate. rewrite (IH _ _ E'), zlen_app, !zlen_cons, zlen_nil. lia. }
    rewrite (G _ _ _ Eix). change (zlen (@nil packed)) with 0. unfold zlen. rewrite (files_len order es (gid words m)). lia. }
  destruct (C52_binary_partial ixs m Hvec Hz Htab) as (binary & Est & Hload). exists binary. split.
  { rewrite Erest. unfold StoreBinaryLMFromGoogleFormat. rewrite Hdict. cbn [bind]. rewrite Eb. cbn [bind]. rewrite <- Erest, Hf2. cbn [bind]. rewrite Est. reflexivity. }
  intros Hbz. specialize (Hload Hbz). exists (mkLModel (mkLM (NewNGramModel ixs) order (gid words m first) (gid words m last)) words m). split.
  { unfold RetrieveLMFromBinary. rewrite Hload. cbn [bind]. rewrite !G1. reflexivity. }
  unfold GetWordID. cbn [l_words l_table l_lm lm_model lm_start lm_end lm_order]. split; [exact W1|]. split; [exact W2|]. split; [apply G1|]. split; [apply G1|]. split; [reflexivity|]. split.
  { exists (gid words m), (mfiles order es (gid words m)), ixs. split; [exact Hmod|]. split; [apply files_len|]. split; [exact Eix|]. split; [reflexivity|]. split; [exact G1|]. split; [exact G2|].
    split; intros g Hg; [apply (count_ok first last sentences order L Ho Hw Hsz es Hnd Hes (gid words m) G2 G3 g Hg)|apply (continues_ok first last sentences order L Ho Hw Hsz es Hnd Hes (gid words m) G2 G3 g Hg)]. }
  intros g Hg. exists (map (gid words m) g). split; [apply get_all_ok; intros; apply G1|]. rewrite Hcnt; [f_equal; apply (seen_ok first last sentences order L Ho Hw Hsz es Hnd Hes (gid words m) G2 G3)|destruct g; [congruence|discriminate]|].
  apply Forall_forall. intros x Hx. apply in_map_iff in Hx. destruct Hx as (w & <- & _). apply G2.
Qed.
(** The whole way of a corpus: its n-grams are counted, written in the Google format, read
    back, given word ids and stored; the model loaded from that answers every n-gram with the
    number of words of the corpus and the numbers of occurrences of the n-gram's prefixes.
    The dictionary holds the words of the corpus, the most frequent first.
    Conditions: orders up to 255; words that are not empty, without space, tab and newline,
    short enough for lines below 65536 bytes; fewer than 2^28 words; the hash table's
    construction ends (with fewer than 2^31 - 1 steps per bucket); the file has fewer than
    2^63 bytes. *)
Theorem C69_trained_model_partial : forall first last sentences order ord srt chunk fuel mfuel L,
  (forall p l, Permutation l (ord p l)) -> sorts_by_size srt -> 1 <= order <= 255 ->
  (forall w, In w (first :: last :: concat sentences) -> w <> [] /\ plain w /\ zlen w <= L) -> order * (L + 1) + 21 < 65536 ->
  (exists s, In s sentences /\ s <> []) -> wrapped_words sentences < 2 ^ 28 -> Z.of_nat mfuel < 2 ^ 31 - 1 ->
  exists files words, WriteNGrams ord order (Build first last sentences order) = Ret files
  /\ NoDup words /\ (forall w, In w words <-> 0 < occurrences_in first last sentences [w])
  /\ StronglySorted (fun a b => occurrences_in first last sentences [b] < occurrences_in first last sentences [a]
                                \/ occurrences_in first last sentences [a] = occurrences_in first last sentences [b] /\ str_lt a b = true) words
  /\ ((forall f, In f files -> (2 * List.length f + 1 < fuel)%nat) ->
      (BuildMph mfuel srt words = NoFuel /\ StoreBinaryLMFromGoogleFormat srt chunk fuel mfuel order files = NoFuel)
      \/ exists binary, StoreBinaryLMFromGoogleFormat srt chunk fuel mfuel order files = Ret (words, binary)
         /\ (zlen binary < 2 ^ 63 -> exists l, RetrieveLMFromBinary order first last words binary = Ret l
             /\ (forall i w, nth_error words i = Some w -> GetWordID l w = Ret (Z.of_nat i))
             /\ (forall w, ~ In w words -> GetWordID l w = Ret (2 ^ 32 - 1))
             /\ GetWordID l first = Ret (lm_start (l_lm l)) /\ GetWordID l last = Ret (lm_end (l_lm l)) /\ lm_order (l_lm l) = order
             /\ forall g, g <> [] -> exists ids, get_all (GetWordID l) g = Ret ids
                /\ Score_counts (lm_model (l_lm l)) ids
                   = Ret (wrapped_words sentences :: map (fun i => occurrences_in first last sentences (firstn i g)) (seq 1 (Nat.min (Z.to_nat order) (List.length g)))))).
Proof.
  intros first last sentences order ord srt chunk fuel mfuel L H1 H2 H3 H4 H5 H6 H7 H8.
  destruct (trained_full first last sentences order ord srt chunk fuel mfuel L H1 H2 H3 H4 H5 H6 H7 H8) as (files & words & E & N & I & S & H). exists files, words. repeat (split; [assumption|]).
  intros Hf. destruct (H Hf) as [Hn|(binary & Eb & Hl)]; [left; exact Hn|right]. exists binary. split; [exact Eb|]. intros Hz. destruct (Hl Hz) as (l & El & A & B & C & D & F & _ & G). exists l. repeat (split; [assumption|]). exact G.
Qed.
Print Assumptions C69_trained_model_partial.

(** The score such a model gives: the longest prefix (within the order) that occurs in the
    corpus, its occurrences relative to the next shorter prefix's (the corpus size for one
    word), with a factor 0.4 per dropped word; the unknown-word score if not even the first
    word occurs. *)
Lemma score_of_counts flog m ids c0 (f : nat -> Z) n : Score_counts m ids = Ret (c0 :: map f (seq 1 n)) ->
  (forall j, (1 <= j <= n)%nat -> 0 < f j -> (forall i, (j < i <= n)%nat -> f i = 0) ->
     Score flog m ids = Ret (flog (fdiv (fmul (discount (n - j)) (of_int (f j))) (of_int (if (j =? 1)%nat then c0 else f (j - 1)%nat)))))
  /\ ((forall i, (1 <= i <= n)%nat -> f i = 0) -> Score flog m ids = Ret UnknownWordScore).
Proof.
  intros E. unfold Score. rewrite E. cbn [bind].
  assert (forall a b, (forall i, (a <= i < a + b)%nat -> f i = 0) -> Forall (fun z => z = 0) (map f (seq a b))) as Hz.
  { intros a b H. apply Forall_forall. intros x Hx. apply in_map_iff in Hx. destruct Hx as (i & <- & Hi). apply in_seq in Hi. apply H. lia. }
  split.
  - intros j Hj Hpos Hzero. replace n with ((j - 1) + (1 + (n - j)))%nat at 1 by lia. rewrite !seq_app, !map_app. cbn [seq map].
    replace (1 + (j - 1))%nat with j by lia. replace (j + 1)%nat with (S j) by lia. unfold discount. destruct (Nat.eqb_spec j 1) as [->|Hj1].
    + change (seq 1 (1 - 1)) with (@nil nat). cbn [map app].
      pose proof (calc_backoff flog [] c0 (f 1%nat) (map f (seq 2 (n - 1))) Hpos) as Hb. rewrite map_length, seq_length in Hb. apply Hb. apply Hz. intros i Hi. apply Hzero. lia.
    + replace (j - 1)%nat with ((j - 2) + 1)%nat at 1 by lia. rewrite seq_app, map_app. cbn [seq map]. replace (1 + (j - 2))%nat with (j - 1)%nat by lia.
      pose proof (calc_backoff flog (c0 :: map f (seq 1 (j - 2))) (f (j - 1)%nat) (f j) (map f (seq (S j) (n - j))) Hpos) as Hb.
      rewrite map_length, seq_length in Hb. rewrite <- Hb by (apply Hz; intros i Hi; apply Hzero; lia). f_equal. cbn [app]. rewrite <- !app_assoc. reflexivity.
  - intros Hzero. apply calc_none. apply Hz. intros i Hi. apply Hzero. lia.
Qed.
Theorem C69_score_partial : forall first last sentences order ord srt chunk fuel mfuel L files words binary l,
  (forall p l, Permutation l (ord p l)) -> sorts_by_size srt -> 1 <= order <= 255 ->
  (forall w, In w (first :: last :: concat sentences) -> w <> [] /\ plain w /\ zlen w <= L) -> order * (L + 1) + 21 < 65536 ->
  (exists s, In s sentences /\ s <> []) -> wrapped_words sentences < 2 ^ 28 -> Z.of_nat mfuel < 2 ^ 31 - 1 ->
  WriteNGrams ord order (Build first last sentences order) = Ret files ->
  (forall f, In f files -> (2 * List.length f + 1 < fuel)%nat) ->
  StoreBinaryLMFromGoogleFormat srt chunk fuel mfuel order files = Ret (words, binary) -> zlen binary < 2 ^ 63 ->
  RetrieveLMFromBinary order first last words binary = Ret l ->
  forall flog g, g <> [] -> exists ids, get_all (GetWordID l) g = Ret ids /\
  let occ i := occurrences_in first last sentences (firstn i g) in
  let n := Nat.min (Z.to_nat order) (List.length g) in
  (forall j, (1 <= j <= n)%nat -> 0 < occ j -> (forall i, (j < i <= n)%nat -> occ i = 0) ->
     Score flog (lm_model (l_lm l)) ids = Ret (flog (fdiv (fmul (discount (n - j)) (of_int (occ j)))
       (of_int (if (j =? 1)%nat then wrapped_words sentences else occ (j - 1)%nat)))))
  /\ (occ 1%nat = 0 -> Score flog (lm_model (l_lm l)) ids = Ret UnknownWordScore).
Proof.
  intros first last sentences order ord srt chunk fuel mfuel L files words binary l Hord Hsrt Ho Hw HL Hne Hsz Hmf Ef Hfuel Es Hbz El flog g Hg.
  destruct (C69_trained_model_partial first last sentences order ord srt chunk fuel mfuel L Hord Hsrt Ho Hw HL Hne Hsz Hmf) as (files' & words' & Ef' & _ & _ & _ & H).
  rewrite Ef in Ef'. injection Ef' as <-. destruct (H Hfuel) as [[_ Es']|(binary' & Es' & H')]; rewrite Es in Es'; [discriminate|]. injection Es' as <- <-.
  destruct (H' Hbz) as (l' & El' & _ & _ & _ & _ & _ & Hc). rewrite El in El'. injection El' as <-. destruct (Hc g Hg) as (ids & E1 & E2). exists ids. split; [exact E1|]. cbv zeta.
  destruct (score_of_counts flog (lm_model (l_lm l)) ids _ _ _ E2) as [S1 S2]. split; [exact S1|]. intros H0. apply S2. intros i Hi.
  pose proof (corpus_nonneg first last sentences (firstn i g)). pose proof (corpus_prefix first last sentences (firstn 1 g) (skipn 1 (firstn i g))) as Hp.
  assert (firstn 1 g ++ skipn 1 (firstn i g) = firstn i g) as Eq. { rewrite <- (firstn_skipn 1 (firstn i g)) at 2. f_equal. rewrite firstn_firstn. f_equal. lia. }
  rewrite Eq in Hp. lia.
Qed.
Print Assumptions C69_score_partial.

Definition corpus1 : list (list bytes) := [[bs "i"; bs "am"]; []; [bs "i"]].
Definition files69 : list bytes := match WriteNGrams ord_rev 2 (Build (bs "<S>") (bs "</S>") corpus1 2) with Ret f => f | _ => [] end.
Definition store69 : res (list bytes * bytes) := StoreBinaryLMFromGoogleFormat sort_big (fun _ => 3%nat) 200 50 2 files69.
Example C69_nonvacuous :
  sorts_by_size sort_big /\ (forall p l, Permutation l (ord_rev p l))
  /\ (forall w, In w (bs "<S>" :: bs "</S>" :: concat corpus1) -> w <> [] /\ plain w /\ zlen w <= 4) /\ 2 * (4 + 1) + 21 < 65536
  /\ (exists s, In s corpus1 /\ s <> []) /\ wrapped_words corpus1 = 7
  /\ forallb (fun f => (2 * List.length f + 1 <? 200)%nat) files69 = true
  /\ WriteNGrams ord_rev 2 (Build (bs "<S>") (bs "</S>") corpus1 2) = Ret files69
  /\ exists words binary l, store69 = Ret (words, binary) /\ words = [bs "</S>"; bs "<S>"; bs "i"; bs "am"] /\ zlen binary < 2 ^ 63
     /\ RetrieveLMFromBinary 2 (bs "<S>") (bs "</S>") words binary = Ret l
     /\ get_all (GetWordID l) [bs "i"; bs "am"; bs "sam"] = Ret [2; 3; 2 ^ 32 - 1]
     /\ Score_counts (lm_model (l_lm l)) [2; 3; 2 ^ 32 - 1] = Ret [7; 2; 1].
Proof.
  split; [exact sort_big_ok|]. split; [intros; apply Permutation_rev|]. split.
  { assert (forallb (fun w => (1 <=? zlen w) && (zlen w <=? 4) && forallb (fun c => negb ((c =? 32) || (c =? 9) || (c =? 10))) w) (bs "<S>" :: bs "</S>" :: concat corpus1) = true) as H by (vm_compute; reflexivity).
    intros w Hi. rewrite forallb_forall in H. specialize (H w Hi). apply andb_prop in H. destruct H as [H H3]. rewrite forallb_forall in H3. split; [intros ->; discriminate H|]. split; [|lia].
    repeat split; intros Hc; specialize (H3 _ Hc); discriminate H3. }
  split; [lia|]. split; [exists [bs "i"]; split; [right; right; left; reflexivity|discriminate]|]. split; [reflexivity|]. split; [vm_compute; reflexivity|]. split; [vm_compute; reflexivity|].
  do 3 eexists. split; [vm_compute; reflexivity|]. split; [vm_compute; reflexivity|]. split; [vm_compute; reflexivity|]. split; [vm_compute; reflexivity|]. split; vm_compute; reflexivity.
Qed.
