(** Pruning twice; the grams added for a word. *)
From Coq Require Import ZifyBool.
From Verif Require Import Base BaseLemmas GoMap Text AnalysisSpec TextProofs TextProofs2 VGram VGramSpec VGramProofs VGramProofs2 VGramProofs3.
Local Open Scope Z_scope.

Definition roomy (n : node) : Prop := forall p y, find_node n p = Some y -> room y.
Lemma roomy_child n c ch : roomy n -> mget Z.eqb (children n) c = Some ch -> roomy ch.
Proof. intros H Hc p y Hy. apply (H (c :: p) y). cbn [find_node]. rewrite Hc. exact Hy. Qed.
Lemma ev_roomy q N x : N < 2 ^ 32 -> nfreq x = 0 -> ev q N [] x -> roomy x.
Proof.
  intros HN Hr H p y Hy. pose proof (H p y Hy) as (H1 & H2 & H3). cbn [app] in *.
  assert (0 <= nfreq y <= Z.max N 0) as Hf.
  { destruct p as [|c p]; [injection Hy as <-; lia|]. destruct (H3 ltac:(discriminate)). lia. }
  assert (forall c z, mget Z.eqb (children y) c = Some z -> 0 <= nfreq z) as Hz.
  { intros c z Hz. assert (find_node x (p ++ [c]) = Some z) as Hf'.
    { revert Hy Hz. clear. revert x. induction p as [|d p IH]; intros x Hy Hz; cbn [app find_node] in *; [injection Hy as <-; rewrite Hz; reflexivity|].
      destruct (mget Z.eqb (children x) d); [|discriminate]. apply IH; assumption. }
    pose proof (H _ _ Hf') as (_ & _ & H4). cbn [app] in H4. destruct (H4 (snoc_nonnil p c)). lia. }
  assert (nonneg (child_freqs (children y))) as Hnn.
  { intros cf Hcf. unfold child_freqs in Hcf. apply in_map_iff in Hcf. destruct Hcf as ([c z] & <- & Hin). cbn [fst snd]. apply (Hz c). apply (mget_In Z.eqb Zeqb_ok _ _ _ H1). exact Hin. }
  split; [lia|]. split; [exact H1|]. split; [exact Hnn|]. intros m Hm. destruct p as [|c p]; [rewrite (H2 eq_refl) in Hm; discriminate|].
  destruct (H3 ltac:(discriminate)) as [Hf2 H4]. rewrite Hm in H4. lia.
Qed.

Section Twice.
Context (srt : list Z -> list (Z * Z) -> list (Z * Z)) (T : Z) (Hsrt : sorts_by_frequency srt).
Lemma in_total cf l : nonneg l -> In cf l -> snd cf <= total l.
Proof.
  induction l as [|y l IH]; intros Hn Hin; [destruct Hin|]. unfold total. cbn [fold_right]. fold (total l). assert (nonneg l) as Hn' by (intros z Hz; apply Hn; right; exact Hz).
  pose proof (total_nonneg l Hn'). pose proof (Hn y (or_introl eq_refl)). destruct Hin as [->|Hin]; [lia|]. specialize (IH Hn' Hin). lia.
Qed.
Lemma prune_room path x : room x -> room (prune_node srt T path x).
Proof.
  intros Hr. pose proof (prune_view srt T Hsrt path x Hr) as [Hf Hv]. destruct Hr as (Hb & Hnd & Hnn & Hm). unfold to_view in *. cbn [v_frequency v_marker v_children] in *.
  split; [rewrite Hf; exact Hb|].
  assert (keys_here' : NoDup (map fst (children (prune_node srt T path x)))).
  { clear - Hnd. destruct x as [ch mk fr]. cbn [prune_node children] in *.
    assert (map fst (map (fun p : Z * node => (fst p, prune_node srt T (path ++ [fst p]) (snd p))) ch) = map fst ch) as E by (rewrite map_map; reflexivity).
    destruct mk as [m|]; [|cbn [children]; rewrite E; auto]. destruct (fr <=? T); [constructor|]. destruct (select _ _ _) as [leaf gone]. cbn [children].
    apply NoDup_filter_map. rewrite E. exact Hnd. }
  split; [exact keys_here'|]. destruct (nmarker x) as [m|] eqn:Em.
  - specialize (Hm m eq_refl). destruct (nfreq x <=? T).
    + destruct Hv as [Hv1 Hv2]. rewrite Hv1, Hv2. split; [intros cf []|]. intros m' E. injection E as <-. cbn. lia.
    + destruct Hv as (removed & Hv1 & Hv2 & _). rewrite Hv1. set (ch' := child_freqs (children (prune_node srt T path x))) in *.
      assert (nonneg ch') as Hn1 by (intros cf Hcf; apply Hnn; eapply Permutation_in; [symmetry; exact Hv2|]; apply in_or_app; right; exact Hcf).
      assert (nonneg removed) as Hn2 by (intros cf Hcf; apply Hnn; eapply Permutation_in; [symmetry; exact Hv2|]; apply in_or_app; left; exact Hcf).
      split; [exact Hn1|]. intros m' E. injection E as <-. apply total_perm in Hv2. rewrite total_app in Hv2. pose proof (total_nonneg _ Hn1). pose proof (total_nonneg _ Hn2). lia.
  - destruct Hv as [Hv1 Hv2]. rewrite Hv1, Hv2. split; [exact Hnn|]. intros m' E. discriminate.
Qed.
Lemma prune_roomy path x : roomy x -> roomy (prune_node srt T path x).
Proof. intros H p y Hy. destruct (prune_find srt T p path x y Hy) as (z & Hz & ->). apply prune_room. exact (H p z Hz). Qed.
(* a second pruning changes nothing at a node *)
Lemma prune_again path x : room x -> let x' := prune_node srt T path x in
  nmarker (prune_node srt T path x') = nmarker x' /\ Permutation (child_freqs (children x')) (child_freqs (children (prune_node srt T path x'))).
Proof.
  intros Hr x'. pose proof (prune_view srt T Hsrt path x Hr) as H1. pose proof (prune_room path x Hr) as Hr'. fold x' in H1, Hr'.
  pose proof (prune_view srt T Hsrt path x' Hr') as H2. unfold to_view, pruned_view in *. cbn [v_frequency v_marker v_children] in *.
  destruct H1 as [Hf1 H1]. destruct H2 as [Hf2 H2]. rewrite Hf1 in H2. destruct (nmarker x) as [m|].
  - destruct (nfreq x <=? T).
    + destruct H1 as [E1 E2]. rewrite E1 in H2 |- *. destruct H2 as [-> ->]. split; [reflexivity|]. rewrite E2. constructor.
    + destruct H1 as (removed & E1 & Hp1 & _ & Hrest & _). rewrite E1 in H2 |- *. destruct H2 as (removed2 & E2 & Hp2 & Hle & _).
      destruct removed2 as [|cf removed2]; [cbn [total fold_right app] in *; rewrite E2, Z.add_0_r; split; [reflexivity|exact Hp2]|]. exfalso.
      destruct Hle as [Hle|Hle]; [discriminate|]. destruct Hr' as (_ & _ & Hnn & _).
      assert (nonneg (cf :: removed2)) as Hn2 by (intros z Hz; apply Hnn; eapply Permutation_in; [symmetry; exact Hp2|]; apply in_or_app; left; exact Hz).
      pose proof (in_total cf _ Hn2 (or_introl eq_refl)) as Hc. specialize (Hrest cf).
      assert (In cf (child_freqs (children x'))) as Hin by (eapply Permutation_in; [symmetry; exact Hp2|]; left; reflexivity). specialize (Hrest Hin). lia.
  - destruct H1 as [E1 E2]. rewrite E1 in H2 |- *. destruct H2 as [-> ->]. split; [reflexivity|apply Permutation_refl].
Qed.
Lemma prune_twice : forall p path x, roomy x ->
  option_map obs (find_node (prune_node srt T path (prune_node srt T path x)) p) = option_map obs (find_node (prune_node srt T path x) p).
Proof.
  induction p as [|c p IH]; intros path x Hr.
  - cbn [find_node option_map]. unfold obs. rewrite prune_freq. destruct (prune_again path x (Hr [] x eq_refl)) as [-> _]. reflexivity.
  - cbn [find_node]. destruct (prune_again path x (Hr [] x eq_refl)) as [_ Hp]. set (x' := prune_node srt T path x) in *.
    apply (Permutation_map fst) in Hp. rewrite !child_freqs_fst in Hp.
    destruct (mget Z.eqb (children (prune_node srt T path x')) c) as [y2|] eqn:E2.
    + destruct (prune_child srt T path x' c y2 E2) as (y1 & E1 & ->). rewrite E1. destruct (prune_child srt T path x c y1 E1) as (y0 & E0 & ->).
      apply IH. exact (roomy_child x c y0 Hr E0).
    + replace (mget Z.eqb (children x') c) with (@None node); [reflexivity|]. symmetry. apply (mget_None Z.eqb Zeqb_ok). apply (mget_None Z.eqb Zeqb_ok) in E2. intros Hin. apply E2. eapply Permutation_in; [exact Hp|exact Hin].
Qed.
End Twice.

(** The grams added for a word *)
Lemma passing_map p gs : passing p gs = zlen (filter (starts p) (map characters gs)).
Proof. unfold passing, zlen. f_equal. induction gs as [|g gs IH]; [reflexivity|]. cbn [filter map]. destruct (starts p (characters g)); cbn [length]; congruence. Qed.
Section Words.
Context (split : bytes -> Z -> list bytes) (Hsplit : splits_into_windows split).
Definition tail_windows (qmax : nat) (rs : list Z) (a n : nat) : list (list Z) := map (fun j => firstn qmax (skipn j rs)) (List.seq a n).
Lemma suffix_split rs q : Forall (fun c => valid_rune c = true) rs -> 0 < q <= zlen rs ->
  map characters (split (concat (map encode_rune (skipn (Z.to_nat (zlen rs - q)) rs))) q) = [skipn (Z.to_nat (zlen rs - q)) rs].
Proof.
  intros Hv Hq. fold (enc (skipn (Z.to_nat (zlen rs - q)) rs)). destruct (Hsplit (enc (skipn (Z.to_nat (zlen rs - q)) rs)) q (enc_bytes _) ltac:(lia)) as [-> _].
  rewrite characters_enc by (apply Forall_skipn; exact Hv). unfold windows_of. unfold zlen in *. rewrite skipn_length.
  replace (length rs - Z.to_nat (Z.of_nat (length rs) - q) + 1 - Z.to_nat q)%nat with 1%nat by lia. cbn [List.seq map]. cbn [skipn]. f_equal.
  apply firstn_all2. rewrite skipn_length. lia.
Qed.
Lemma word_loop_ok qmin qmax rs : Forall (fun c => valid_rune c = true) rs -> 1 <= qmin -> qmax < 2 ^ 32 -> forall n fuel q acc, qmin - 1 <= q < qmax -> (Z.to_nat (q - qmin + 1) = n) -> (n < fuel)%nat ->
  exists gs, word_loop split fuel qmin rs q acc = Ret (acc ++ gs) /\
    map characters gs = tail_windows (Z.to_nat qmax) rs (length rs - Z.to_nat q) (length rs + 1 - Z.to_nat qmin - (length rs - Z.to_nat q)) /\ Forall valid_text gs.
Proof.
  intros Hv Hqm Hqx. induction n as [|n IH]; intros fuel q acc Hq Hn Hfuel; destruct fuel as [|fuel]; try lia; cbn [word_loop].
  - destruct (Z.leb_spec qmin q); [lia|]. exists []. rewrite app_nil_r. split; [reflexivity|].
    replace (length rs + 1 - Z.to_nat qmin - (length rs - Z.to_nat q))%nat with 0%nat by lia. split; [reflexivity|constructor].
  - destruct (Z.leb_spec qmin q); [|lia]. rewrite wrap32_small by lia.
    destruct (Z.ltb_spec (zlen rs - q) 0) as [Hlt|Hge].
    + destruct (IH fuel (q - 1) acc ltac:(lia) ltac:(lia) ltac:(lia)) as (gs & E & Hgs & Hgv). exists gs. split; [exact E|]. split; [|exact Hgv]. rewrite Hgs. unfold zlen in *. f_equal; lia.
    + destruct (IH fuel (q - 1) (acc ++ split (concat (map encode_rune (skipn (Z.to_nat (zlen rs - q)) rs))) q) ltac:(lia) ltac:(lia) ltac:(lia)) as (gs & E & Hgs & Hgv).
      eexists. split; [rewrite E, <- app_assoc; reflexivity|]. split.
      2:{ apply Forall_app. split; [|exact Hgv]. apply (Hsplit _ q (enc_bytes _) ltac:(lia)). apply well_formed_enc. } rewrite map_app, Hgs. rewrite suffix_split by (auto; lia). unfold tail_windows, zlen in *.
      replace (length rs + 1 - Z.to_nat qmin - (length rs - Z.to_nat q))%nat with (S (length rs + 1 - Z.to_nat qmin - (length rs - Z.to_nat (q - 1)))) by lia.
      cbn [List.seq map]. replace (length rs - Z.to_nat (q - 1))%nat with (S (length rs - Z.to_nat q)) by lia.
      replace (Z.to_nat (Z.of_nat (length rs) - q)) with (length rs - Z.to_nat q)%nat by lia.
      rewrite (firstn_all2 (n := Z.to_nat qmax)) by (rewrite skipn_length; lia). reflexivity.
Qed.
Lemma word_grams_ok qmin qmax fuel w : Forall is_byte w -> 1 <= qmin <= qmax -> qmax < 2 ^ 32 -> (Z.to_nat qmax < fuel)%nat ->
  exists gs, word_grams split fuel qmin qmax w = Ret gs /\ map characters gs = tail_windows (Z.to_nat qmax) (characters w) 0 (length (characters w) + 1 - Z.to_nat qmin) /\ (well_formed w -> Forall valid_text gs).
Proof.
  intros Hb Hq Hqx Hfuel. unfold word_grams. pose proof (runes_valid w Hb) as Hv. rewrite wrap32_small by lia.
  destruct (word_loop_ok qmin qmax (decoded w) Hv ltac:(lia) Hqx _ fuel (qmax - 1) (split w qmax) ltac:(lia) eq_refl ltac:(lia)) as (gs & E & Hgs & Hgv).
  exists (split w qmax ++ gs). split; [exact E|]. destruct (Hsplit w qmax Hb ltac:(lia)) as [Hsw Hsv].
  split; [|intros Hw; apply Forall_app; split; [apply Hsv; exact Hw|exact Hgv]]. rewrite map_app, Hgs, Hsw.
  unfold windows_of, tail_windows. fold (characters w). unfold decoded. fold (characters w). set (L := length (characters w)).
  rewrite <- map_app. f_equal. replace (L - Z.to_nat (qmax - 1))%nat with (L + 1 - Z.to_nat qmax)%nat by lia.
  replace (L + 1 - Z.to_nat qmin)%nat with ((L + 1 - Z.to_nat qmax) + (L + 1 - Z.to_nat qmin - (L + 1 - Z.to_nat qmax)))%nat at 2 by lia.
  rewrite List.seq_app. reflexivity.
Qed.
Lemma starts_firstn p l k : (length p <= k)%nat -> starts p (firstn k l) = starts p l.
Proof. intros H. unfold starts. rewrite firstn_firstn, Nat.min_l by exact H. reflexivity. Qed.
Lemma starts_short p l : (length l < length p)%nat -> starts p l = false.
Proof. intros H. unfold starts. apply not_true_is_false. intros E. apply beqb_ok in E. apply (f_equal (@length Z)) in E. rewrite firstn_length in E. lia. Qed.
Lemma tail_windows_count p qmin qmax rs : p <> [] -> (qmin <= length p <= qmax)%nat ->
  zlen (filter (starts p) (tail_windows qmax rs 0 (length rs + 1 - qmin))) = occurs p rs.
Proof.
  intros Hp Hl. unfold occurs, tail_windows.
  assert (forall ls, length (filter (starts p) (map (fun j => firstn qmax (skipn j rs)) ls)) = length (filter (fun j => starts p (skipn j rs)) ls)) as E.
  { induction ls as [|j ls IH]; [reflexivity|]. cbn [map filter]. rewrite starts_firstn by lia. destruct (starts p (skipn j rs)); cbn [length]; congruence. }
  assert (forall n a, (forall j, (a <= j)%nat -> starts p (skipn j rs) = false) -> filter (fun j => starts p (skipn j rs)) (List.seq a n) = []) as E0.
  { induction n as [|n IH]; intros a Ha; [reflexivity|]. cbn [List.seq filter]. rewrite (Ha a (Nat.le_refl a)). apply IH. intros j Hj. apply Ha. lia. }
  assert (forall j, (length rs < j + length p)%nat -> starts p (skipn j rs) = false) as Ef by (intros j Hj; apply starts_short; rewrite skipn_length; destruct p; [congruence|cbn [length] in *; lia]).
  unfold zlen. rewrite E. f_equal. change (fun j : nat => beqb p (firstn (length p) (skipn j rs))) with (fun j : nat => starts p (skipn j rs)).
  destruct (Nat.le_gt_cases (length rs + 1 - qmin) (length rs)) as [Hc|Hc].
  - replace (length rs) with ((length rs + 1 - qmin) + (length rs - (length rs + 1 - qmin)))%nat at 2 by lia. rewrite List.seq_app, filter_app, app_length.
    rewrite (E0 (length rs - (length rs + 1 - qmin))%nat); [cbn [length]; lia|]. intros j Hj. apply Ef. lia.
  - replace (length rs + 1 - qmin)%nat with (length rs + (length rs + 1 - qmin - length rs))%nat by lia. rewrite List.seq_app, filter_app, app_length.
    rewrite (E0 (length rs + 1 - qmin - length rs)%nat); [cbn [length]; lia|]. intros j Hj. apply Ef. destruct p; [congruence|cbn [length]; lia].
Qed.
Lemma passing_app p a b : passing p (a ++ b) = passing p a + passing p b.
Proof. unfold passing. rewrite filter_app, zlen_app. reflexivity. Qed.
Lemma build_words_ok qmin qmax fuel : 1 <= qmin <= qmax -> qmax < 2 ^ 32 -> (Z.to_nat qmax < fuel)%nat -> forall words gs0, Forall (Forall is_byte) words ->
  exists gs, build_words split fuel qmin qmax (built qmin gs0) words = Ret (built qmin (gs0 ++ gs)) /\
    (forall p, p <> [] -> (Z.to_nat qmin <= length p <= Z.to_nat qmax)%nat -> passing p gs = all_occurs p words) /\
    (Forall well_formed words -> Forall valid_text gs) /\ zlen gs <= total_length words.
Proof.
  intros Hq Hqx Hfuel. induction words as [|w words IH]; intros gs0 Hb.
  - exists []. rewrite app_nil_r. split; [reflexivity|]. split; [intros; reflexivity|]. split; [constructor|]. cbn. lia.
  - cbn [build_words]. destruct w as [|b w].
    + destruct (IH gs0 (Forall_inv_tail Hb)) as (gs & E & Hgs & Hgv & Hgl). exists gs. split; [exact E|]. split; [intros p Hp Hl; rewrite (Hgs p Hp Hl); reflexivity|]. split; [|exact Hgl]. intros Hw. exact (Hgv (Forall_inv_tail Hw)).
    + destruct (word_grams_ok qmin qmax fuel (b :: w) (Forall_inv Hb) Hq Hqx Hfuel) as (g1 & E1 & Hg1 & Hg1v). rewrite E1. cbn [bind].
      destruct (IH (gs0 ++ g1) (Forall_inv_tail Hb)) as (gs & E & Hgs & Hgv & Hgl). exists (g1 ++ gs). split; [|split; [|split]].
      * rewrite app_assoc, <- E. unfold built. rewrite fold_left_app. reflexivity.
      * intros p Hp Hl. rewrite passing_app, (Hgs p Hp Hl), passing_map, Hg1. rewrite tail_windows_count by assumption. reflexivity.
      * intros Hw. apply Forall_app. split; [exact (Hg1v (Forall_inv Hw))|exact (Hgv (Forall_inv_tail Hw))].
      * rewrite zlen_app. cbn [total_length fold_right]. fold (total_length words). apply (f_equal (@length _)) in Hg1. unfold tail_windows in Hg1. rewrite !map_length, List.seq_length in Hg1. unfold zlen in *. lia.
Qed.
End Words.
