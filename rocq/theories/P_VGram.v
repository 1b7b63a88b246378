(** C64: the gram frequency trie. *)
From Coq Require Import ZifyBool String.
From Verif Require Import Base BaseLemmas GoMap Text AnalysisSpec TextProofs TextProofs2 VGram VGramSpec VGramProofs VGramProofs2 VGramProofs3 VGramProofs4.
Local Open Scope Z_scope.

(* byte prefixes and character prefixes are the same for valid text *)
Theorem C64_prefixes p g : valid_text p -> valid_text g ->
  (starts (characters p) (characters g) = true <-> exists s, g = p ++ s).
Proof.
  intros Hp Hg. split.
  - intros H. unfold starts in H. apply beqb_ok in H. exists (enc (skipn (length (characters p)) (characters g))).
    rewrite (valid_text_enc p Hp) at 1. rewrite H at 1. rewrite <- enc_app, firstn_skipn. apply valid_text_enc. exact Hg.
  - intros [s ->]. unfold starts, characters. rewrite runes_app by exact (proj2 Hp). rewrite map_app, firstn_app, Nat.sub_diag, firstn_all. cbn [firstn]. rewrite app_nil_r.
    apply beqb_ok. reflexivity.
Qed.
Print Assumptions C64_prefixes.

(* Find: the frequency of a gram is the number of grams added that start with it; a gram
   that starts none of them is not found *)
Theorem C64_frequency q grams gram : characters gram <> [] ->
  let t := fold_left Add grams (NewFrequencyTrie q) in
  (passing (characters gram) grams = 0 -> Find t gram = IPtr None) /\
  (0 < passing (characters gram) grams -> GetFrequency (Find t gram) = Ret (wrap32 (passing (characters gram) grams))).
Proof.
  intros Hne t. pose proof (built_freq q grams (characters gram) Hne) as H. unfold Find. fold (built q grams) in t. unfold t. fold (characters gram). unfold decoded. fold (characters gram).
  destruct (find_node (root (built q grams)) (characters gram)) as [x|]; cbn [option_map] in H; unfold obs in H.
  - destruct H as [H1 H2]. split; [lia|]. intros _. cbn [GetFrequency]. rewrite H1. reflexivity.
  - split; [reflexivity|lia].
Qed.
Print Assumptions C64_frequency.

(* GetMarker: a found gram has a marker when the byte index of its last character plus one
   reaches the minimal length, and the marker counts the additions of exactly this gram *)
Theorem C64_marker q grams gram : characters gram <> [] -> Forall valid_text grams -> 0 < passing (characters gram) grams ->
  GetMarker (Find (fold_left Add grams (NewFrequencyTrie q)) gram) =
  Ret (if q <=? wrap32 (last_index (characters gram) + 1) then Some (wrap32 (ending (characters gram) grams)) else None).
Proof.
  intros Hne Hg Hpos. pose proof (built_freq q grams (characters gram) Hne) as H. pose proof (built_marker q grams (characters gram) Hne Hg) as H2.
  fold (built q grams). unfold Find, decoded. fold (characters gram).
  destruct (find_node (root (built q grams)) (characters gram)) as [x|]; cbn [option_map] in H, H2; unfold obs in *; [|lia]. cbn [GetMarker]. rewrite H2. reflexivity.
Qed.
Print Assumptions C64_marker.

(* Walk: every gram found in the trie exactly once, in whatever order *)
Theorem C64_walk q grams ord : Forall (Forall is_byte) grams -> any_order ord ->
  let t := fold_left Add grams (NewFrequencyTrie q) in
  NoDup (map fst (Walk ord t)) /\
  (forall key x, In (key, x) (Walk ord t) <-> key <> [] /\ valid_text key /\ Find t key = IPtr (Some x)).
Proof.
  intros Hg Hord t. pose proof (keys_built q grams Hg) as Hk. fold (built q grams) in t. fold t in Hk. unfold Walk. split; [apply walk_nodup; assumption|].
  intros key x. rewrite (walk_in ord Hord _ Hk). unfold Find, decoded. fold (characters key). split.
  - intros (p & Hp & Hf & ->). cbn [app]. pose proof (keys_find_valid _ _ _ Hk Hf) as Hv. split; [|split; [apply enc_valid_text|rewrite characters_enc by exact Hv; rewrite Hf; reflexivity]].
    destruct p as [|c p]; [congruence|]. unfold enc. cbn [map concat]. intros E. apply app_eq_nil in E. exact (encode_nonempty c (proj1 E)).
  - intros (Hne & Hv & Hf). injection Hf as Hf. exists (characters key). split; [|split; [exact Hf|cbn [app]; apply valid_text_enc; exact Hv]].
    intros E. apply Hne. rewrite (valid_text_enc key Hv), E. reflexivity.
Qed.
Print Assumptions C64_walk.
Theorem C64_walk_pruned q grams ord srt T : Forall (Forall is_byte) grams -> any_order ord ->
  let t := Prune srt (fold_left Add grams (NewFrequencyTrie q)) T in
  NoDup (map fst (Walk ord t)) /\
  (forall key x, In (key, x) (Walk ord t) <-> key <> [] /\ valid_text key /\ Find t key = IPtr (Some x)).
Proof.
  intros Hg Hord t. pose proof (keys_prune srt T [] _ (keys_built q grams Hg)) as Hk. unfold Walk, t, Prune. cbn [root]. fold (built q grams). split; [apply walk_nodup; assumption|].
  intros key x. rewrite (walk_in ord Hord _ Hk). unfold Find, decoded. cbn [root]. fold (characters key). split.
  - intros (p & Hp & Hf & ->). cbn [app]. pose proof (keys_find_valid _ _ _ Hk Hf) as Hv. split; [|split; [apply enc_valid_text|rewrite characters_enc by exact Hv; rewrite Hf; reflexivity]].
    destruct p as [|c p]; [congruence|]. unfold enc. cbn [map concat]. intros E. apply app_eq_nil in E. exact (encode_nonempty c (proj1 E)).
  - intros (Hne & Hv & Hf). injection Hf as Hf. exists (characters key). split; [|split; [exact Hf|cbn [app]; apply valid_text_enc; exact Hv]].
    intros E. apply Hne. rewrite (valid_text_enc key Hv), E. reflexivity.
Qed.
Print Assumptions C64_walk_pruned.

(* Prune: what is found afterwards was found before, and at every node found the choice of
   the children removed is as described by [pruned_view] *)
Lemma root_freq q gs : nfreq (root (built q gs)) = 0.
Proof. induction gs as [|g gs IH] using rev_ind; [reflexivity|]. rewrite built_snoc. unfold Add. cbn [root]. rewrite add_freq. exact IH. Qed.
Lemma built_roomy q grams : Forall valid_text grams -> zlen grams < 2 ^ 32 -> roomy (root (built q grams)).
Proof. intros Hg Hl. apply (ev_roomy q (zlen grams)); [exact Hl|apply root_freq|apply built_balanced; assumption]. Qed.
Theorem C64_prune q grams srt T gram y : Forall valid_text grams -> zlen grams < 2 ^ 32 -> sorts_by_frequency srt ->
  let t := fold_left Add grams (NewFrequencyTrie q) in
  Find (Prune srt t T) gram = IPtr (Some y) ->
  exists x, Find t gram = IPtr (Some x) /\ pruned_view T (to_view x) (to_view y).
Proof.
  intros Hg Hl Hs t Hy. unfold Find, Prune in Hy. cbn [root] in Hy. injection Hy as Hy. destruct (prune_find srt T _ _ _ _ Hy) as (x & Hx & ->).
  exists x. split; [unfold Find; rewrite Hx; reflexivity|]. apply prune_view; [exact Hs|]. exact (built_roomy q grams Hg Hl _ _ Hx).
Qed.
Print Assumptions C64_prune.
(* so the root stays and everything without marked ancestors stays: the rest of the trie is
   determined node by node from the root *)
Theorem C64_prune_child q grams srt T gram x y c : Forall valid_text grams -> zlen grams < 2 ^ 32 -> sorts_by_frequency srt -> valid_rune c = true ->
  valid_text gram ->
  let t := fold_left Add grams (NewFrequencyTrie q) in
  Find t gram = IPtr (Some x) -> Find (Prune srt t T) gram = IPtr (Some y) ->
  ((exists z, Find (Prune srt t T) (gram ++ encode_rune c) = IPtr (Some z)) <-> In c (map fst (v_children (to_view y)))).
Proof.
  intros Hg Hl Hs Hc Hv t Hx Hy. unfold Find in *. injection Hx as Hx. injection Hy as Hy.
  assert (decoded (gram ++ encode_rune c) = decoded gram ++ [c]) as E.
  { unfold decoded. rewrite runes_app by exact (proj2 Hv). rewrite map_app. f_equal. rewrite <- (app_nil_r (encode_rune c)), runes_encode. cbn [map fst]. unfold vr. rewrite Hc. reflexivity. }
  rewrite E. assert (forall n p y c, find_node n p = Some y -> find_node n (p ++ [c]) = mget Z.eqb (children y) c) as Hsnoc.
  { clear. intros n p. revert n. induction p as [|d p IH]; intros n y c H; cbn [app find_node] in *; [injection H as <-; destruct (mget Z.eqb (children n) c); reflexivity|].
    destruct (mget Z.eqb (children n) d); [|discriminate]. apply IH. exact H. }
  change (root (Prune srt t T)) with (prune_node srt T [] (root t)) in *. rewrite (Hsnoc _ _ _ c Hy). unfold to_view. cbn [v_children]. rewrite child_freqs_fst.
  split.
  - intros [z Hz]. injection Hz as Hz. destruct (in_dec Z.eq_dec c (map fst (children y))) as [H|H]; [exact H|]. apply (mget_None Z.eqb Zeqb_ok) in H. congruence.
  - intros H. destruct (mget Z.eqb (children y) c) as [z|] eqn:Ez; [exists z; reflexivity|]. apply (mget_None Z.eqb Zeqb_ok) in Ez. contradiction.
Qed.
Print Assumptions C64_prune_child.
(* after Prune: a marker and the children still account for every gram that passed *)
Theorem C64_prune_keeps_count q grams srt T gram y m : Forall valid_text grams -> zlen grams < 2 ^ 32 -> sorts_by_frequency srt ->
  characters gram <> [] ->
  Find (Prune srt (fold_left Add grams (NewFrequencyTrie q)) T) gram = IPtr (Some y) -> v_marker (to_view y) = Some m ->
  v_frequency (to_view y) = passing (characters gram) grams /\ m + total (v_children (to_view y)) = passing (characters gram) grams.
Proof.
  intros Hg Hl Hs Hne Hy Hm. destruct (C64_prune q grams srt T gram y Hg Hl Hs Hy) as (x & Hx & [Hf Hv]).
  pose proof (built_freq q grams (characters gram) Hne) as H0. unfold Find in Hx. injection Hx as Hx. unfold decoded in Hx. fold (characters gram) in Hx. fold (built q grams) in Hx.
  pose proof (built_balanced q grams Hg Hl _ _ Hx) as (_ & _ & H3). cbn [app] in H3. specialize (H3 Hne). rewrite Hx in H0. cbn [option_map obs] in H0.
  assert (passing (characters gram) grams <= zlen grams) as Hle.
  { unfold passing, zlen. clear. induction grams as [|g gs IH]; cbn [filter length]; [lia|]. destruct (starts _ _); cbn [length]; lia. }
  rewrite wrap32_small in H0 by lia. unfold to_view in *. cbn [v_frequency v_marker v_children] in *. destruct H3 as [_ H3]. destruct (nmarker x) as [m0|].
  - destruct (nfreq x <=? T).
    + destruct Hv as [Hv1 Hv2]. rewrite Hv1 in Hm. injection Hm as <-. rewrite Hv2. cbn. lia.
    + destruct Hv as (removed & Hv1 & Hp & _). rewrite Hv1 in Hm. injection Hm as <-. apply total_perm in Hp. rewrite total_app in Hp. lia.
  - destruct Hv as [Hv1 _]. congruence.
Qed.
Print Assumptions C64_prune_keeps_count.
(* pruning again with the same threshold changes no answer *)
Theorem C64_prune_idempotent q grams srt T gram : Forall valid_text grams -> zlen grams < 2 ^ 32 -> sorts_by_frequency srt ->
  let t1 := Prune srt (fold_left Add grams (NewFrequencyTrie q)) T in
  let t2 := Prune srt t1 T in
  GetFrequency (Find t2 gram) = GetFrequency (Find t1 gram) /\ GetMarker (Find t2 gram) = GetMarker (Find t1 gram).
Proof.
  intros Hg Hl Hs t1 t2. pose proof (prune_twice srt T Hs (decoded gram) [] _ (built_roomy q grams Hg Hl)) as H. unfold Find, t2, t1, Prune. cbn [root]. fold (built q grams).
  set (a := find_node (prune_node srt T [] (prune_node srt T [] (root (built q grams)))) (decoded gram)) in *. set (b := find_node (prune_node srt T [] (root (built q grams))) (decoded gram)) in *.
  destruct a as [x|]; destruct b as [y|]; cbn [option_map] in H; try discriminate; [|split; reflexivity]. unfold obs in H. injection H as H1 H2. cbn [GetFrequency GetMarker]. rewrite H1, H2. split; reflexivity.
Qed.
Print Assumptions C64_prune_idempotent.

(* the builder: the frequency of a gram of qmin to qmax characters is the number of its
   occurrences in the words; it is not found iff it does not occur *)
Theorem C64_words_partial split fuel qmin qmax words : splits_into_windows split -> 1 <= qmin <= qmax -> qmax < 2 ^ 32 -> (Z.to_nat qmax < fuel)%nat ->
  Forall (Forall is_byte) words ->
  exists t, buildFrequencyTrie split fuel qmin qmax words = Ret t /\
    forall gram, qmin <= zlen (characters gram) <= qmax ->
      (all_occurs (characters gram) words = 0 -> Find t gram = IPtr None) /\
      (0 < all_occurs (characters gram) words -> GetFrequency (Find t gram) = Ret (wrap32 (all_occurs (characters gram) words))).
Proof.
  intros Hs Hq Hqx Hfuel Hb. unfold buildFrequencyTrie. destruct (build_words_ok split Hs qmin qmax fuel Hq Hqx Hfuel words [] Hb) as (gs & E & Hgs & _).
  change (NewFrequencyTrie qmin) with (built qmin []). rewrite E. eexists. split; [reflexivity|]. intros gram Hl. cbn [app].
  assert (characters gram <> []) as Hne by (intros E0; rewrite E0 in Hl; cbn in Hl; lia).
  rewrite <- (Hgs (characters gram) Hne) by (unfold zlen in Hl; lia). apply (C64_frequency qmin gs gram Hne).
Qed.
Print Assumptions C64_words_partial.
(* and after pruning the grams still found have that frequency *)
Theorem C64_words_pruned_partial split srt fuel qmin qmax T words : splits_into_windows split -> sorts_by_frequency srt ->
  1 <= qmin <= qmax -> qmax < 2 ^ 32 -> (Z.to_nat qmax < fuel)%nat -> Forall valid_text words -> total_length words < 2 ^ 32 ->
  exists t, Build split srt fuel qmin qmax T words = Ret t /\
    forall gram y, qmin <= zlen (characters gram) <= qmax -> Find t gram = IPtr (Some y) ->
      v_frequency (to_view y) = all_occurs (characters gram) words /\
      (forall m, v_marker (to_view y) = Some m -> m + total (v_children (to_view y)) = all_occurs (characters gram) words).
Proof.
  intros Hs Hsrt Hq Hqx Hfuel Hw Hl. unfold Build, buildFrequencyTrie.
  assert (Forall (Forall is_byte) words) as Hb by (eapply Forall_impl; [|exact Hw]; intros w H; exact (proj1 H)).
  destruct (build_words_ok split Hs qmin qmax fuel Hq Hqx Hfuel words [] Hb) as (gs & E & Hgs & Hgv & Hgl).
  assert (Forall valid_text gs) as Hv by (apply Hgv; eapply Forall_impl; [|exact Hw]; intros w H; exact (proj2 H)).
  change (NewFrequencyTrie qmin) with (built qmin []). rewrite E. cbn [bind]. eexists. split; [reflexivity|]. intros gram y Hlen Hy. cbn [app] in Hy.
  assert (characters gram <> []) as Hne by (intros E0; rewrite E0 in Hlen; cbn in Hlen; lia).
  rewrite <- (Hgs (characters gram) Hne) by (unfold zlen in Hlen; lia). assert (zlen gs < 2 ^ 32) as Hl2 by lia. split.
  - destruct (C64_prune qmin gs srt T gram y Hv Hl2 Hsrt Hy) as (x & Hx & [Hf _]). rewrite Hf. unfold to_view. cbn [v_frequency].
    pose proof (C64_frequency qmin gs gram Hne) as [H1 H2]. rewrite Hx in H1, H2. pose proof (passing_nonneg (characters gram) gs).
    assert (passing (characters gram) gs <= zlen gs) as Hle.
    { unfold passing, zlen. clear. induction gs as [|g gs IH]; cbn [filter length]; [lia|]. destruct (starts _ _); cbn [length]; lia. }
    destruct (Z.eq_dec (passing (characters gram) gs) 0) as [Hz|Hz]; [specialize (H1 Hz); discriminate|]. specialize (H2 ltac:(lia)). cbn [GetFrequency] in H2. injection H2 as ->. apply wrap32_small. lia.
  - intros m Hm. exact (proj2 (C64_prune_keeps_count qmin gs srt T gram y m Hv Hl2 Hsrt Hne Hy Hm)).
Qed.
Print Assumptions C64_words_pruned_partial.

(** What does not hold *)
(* the result of Find is never nil, and using it for an absent gram panics *)
Theorem C64_absent_not_nil q grams gram : characters gram <> [] -> passing (characters gram) grams = 0 ->
  let r := Find (fold_left Add grams (NewFrequencyTrie q)) gram in
  is_nil r = false /\ GetFrequency r = Panic /\ GetMarker r = Panic.
Proof. intros Hne H r. destruct (C64_frequency q grams gram Hne) as [H1 _]. unfold r. rewrite (H1 H). repeat split; reflexivity. Qed.
Print Assumptions C64_absent_not_nil.
(* the minimal length counts bytes before the last character, not characters *)
Theorem C64_minimal_length_refuted : exists q grams gram,
  Forall valid_text grams /\ zlen (characters gram) < q /\ GetMarker (Find (fold_left Add grams (NewFrequencyTrie q)) gram) = Ret (Some 1).
Proof.
  exists 3, [[208; 180; 208; 176]], [208; 180; 208; 176]. split; [|split; vm_compute; reflexivity].
  constructor; [|constructor]. split; [unfold is_byte; repeat constructor; cbv; congruence|]. vm_compute. repeat constructor; intros [E _]; discriminate.
Qed.
Print Assumptions C64_minimal_length_refuted.
(* with minimal length 0 the builder never ends *)
Theorem C64_minimal_zero_never_ends split fuel qmax word words : word <> [] ->
  buildFrequencyTrie split fuel 0 qmax (word :: words) = NoFuel.
Proof.
  intros Hw. unfold buildFrequencyTrie. cbn [build_words]. destruct word as [|b w]; [congruence|]. unfold word_grams.
  assert (forall f rs q acc, 0 <= q -> word_loop split f 0 rs q acc = NoFuel) as H.
  { induction f as [|f IH]; intros rs q acc Hq; [reflexivity|]. cbn [word_loop]. destruct (Z.leb_spec 0 q); [|lia]. apply IH. apply wrap32_range. }
  rewrite H by apply wrap32_range. reflexivity.
Qed.
Print Assumptions C64_minimal_zero_never_ends.

(** The example of the repository's own test: stick, stich, such, stuck with 2, 4 and threshold 2 *)
Definition demo_split (w : bytes) (k : Z) : list bytes := map enc (windows_of (Z.to_nat k) (characters w)).
Lemma demo_split_ok : splits_into_windows demo_split.
Proof.
  intros w k Hb Hk. unfold demo_split. split.
  - rewrite map_map. transitivity (map (fun x : list Z => x) (windows_of (Z.to_nat k) (characters w))); [|apply map_id]. apply map_ext_in. intros l Hl.
    unfold windows_of in Hl. apply in_map_iff in Hl. destruct Hl as (j & <- & _). apply characters_enc. apply Forall_firstn, Forall_skipn. exact (runes_valid w Hb).
  - intros _. apply Forall_forall. intros x Hx. apply in_map_iff in Hx. destruct Hx as (l & <- & _). apply enc_valid_text.
Qed.
Fixpoint ins (x : Z * Z) (l : list (Z * Z)) : list (Z * Z) := match l with [] => [x] | y :: l' => if snd x <=? snd y then x :: l else y :: ins x l' end.
Definition demo_srt (_ : list Z) (l : list (Z * Z)) : list (Z * Z) := fold_right ins [] l.
Lemma ins_perm x l : Permutation (x :: l) (ins x l).
Proof. induction l as [|y l IH]; [apply Permutation_refl|]. cbn [ins]. destruct (snd x <=? snd y); [apply Permutation_refl|]. eapply perm_trans; [apply perm_swap|]. constructor. exact IH. Qed.
Lemma ins_sorted x l : sorted_freq l -> sorted_freq (ins x l).
Proof.
  intros H. induction H as [|y l Hs IH Hall]; cbn [ins]; [repeat constructor|]. destruct (Z.leb_spec (snd x) (snd y)) as [Hle|Hgt].
  - constructor; [constructor; assumption|]. constructor; [exact Hle|]. eapply Forall_impl; [|exact Hall]. intros a Ha. cbn beta in *. lia.
  - constructor; [exact IH|]. eapply Permutation_Forall; [apply ins_perm|]. constructor; [lia|exact Hall].
Qed.
Lemma sorted_nth_ok l : sorted_freq l -> forall i j a b, (i < j)%nat -> nth_error l i = Some a -> nth_error l j = Some b -> snd a <= snd b.
Proof.
  intros H. induction H as [|y l Hs IH Hall]; intros i j a b Hij Ha Hb; [destruct i; discriminate|]. destruct j as [|j]; [lia|]. cbn [nth_error] in Hb. destruct i as [|i].
  - cbn [nth_error] in Ha. injection Ha as ->. exact (proj1 (Forall_forall _ _) Hall b (nth_error_In _ _ Hb)).
  - apply (IH i j); [lia|exact Ha|exact Hb].
Qed.
Lemma demo_srt_ok : sorts_by_frequency demo_srt.
Proof.
  intros path l. unfold demo_srt. split.
  - induction l as [|x l IH]; [constructor|]. cbn [fold_right]. eapply perm_trans; [|apply ins_perm]. constructor. exact IH.
  - apply sorted_nth_ok. induction l as [|x l IH]; [constructor|]. cbn [fold_right]. apply ins_sorted. exact IH.
Qed.
Definition demo_words : list bytes := [[115; 116; 105; 99; 107]; [115; 116; 105; 99; 104]; [115; 117; 99; 104]; [115; 116; 117; 99; 107]].
Lemma ascii_text s : forallb (fun b => (0 <=? b) && (b <? 128)) s = true -> runes s = map (fun b => (b, [b])) s -> valid_text s.
Proof.
  intros H Hr. split.
  - apply Forall_forall. intros b Hb. pose proof (proj1 (forallb_forall _ _) H b Hb) as Hk. cbn beta in Hk. unfold is_byte. lia.
  - unfold well_formed. rewrite Hr. apply Forall_forall. intros rb Hin. apply in_map_iff in Hin. destruct Hin as (b & <- & Hb). pose proof (proj1 (forallb_forall _ _) H b Hb) as Hk. cbn beta in Hk. cbn [fst]. unfold RuneError. lia.
Qed.
Example C64_nonvacuous : Forall valid_text demo_words /\ total_length demo_words < 2 ^ 32 /\
  splits_into_windows demo_split /\ sorts_by_frequency demo_srt /\
  exists t, buildFrequencyTrie demo_split 10 2 4 demo_words = Ret t /\
    GetFrequency (Find t [99]) = Ret 4 /\ GetMarker (Find t [99]) = Ret None /\          (* c *)
    GetFrequency (Find t [115; 116]) = Ret 3 /\ GetMarker (Find t [115; 116]) = Ret (Some 0) /\      (* st *)
    GetFrequency (Find t [115; 116; 105; 99]) = Ret 2 /\ GetMarker (Find t [115; 116; 105; 99]) = Ret (Some 2) /\  (* stic *)
    GetFrequency (Find t [122]) = Panic /\
    zlen (Walk (fun _ l => l) t) = 28 /\
    GetMarker (Find (Prune demo_srt t 2) [115; 116]) = Ret (Some 1) /\                   (* stu was removed *)
    Find (Prune demo_srt t 2) [115; 116; 117] = IPtr None /\
    GetFrequency (Find (Prune demo_srt t 2) [115; 116; 105]) = Ret 2.
Proof.
  split; [repeat (constructor; [apply ascii_text; vm_compute; reflexivity|]); constructor|]. split; [vm_compute; reflexivity|]. split; [apply demo_split_ok|]. split; [apply demo_srt_ok|].
  eexists. split; [vm_compute; reflexivity|]. vm_compute. repeat split; reflexivity.
Qed.
