(** C54 Minimal perfect hash is injective.  C55 Its construction ends.  C56 Stored tables
    load back.  C57 Word ids.  C58 Dictionary lookups (in memory). *)
From Coq Require Import String Permutation Sorting.Sorted ZifyBool.
From Verif Require Import Base BaseLemmas GoMap Store StoreProofs Mph MphSpec MphProofs.
Local Open Scope Z_scope.

(** ** C54 *)
(** Dictionaries of up to 2^31 words whose construction ends with searches of fewer than
    2^31 - 1 steps: each word is mapped to its position, every other string to some
    position; lookups never panic. *)
Theorem C54_perfect_partial : forall words srt fuel m, sorts_by_size srt ->
  1 <= zlen words <= 2 ^ 31 -> Z.of_nat fuel < 2 ^ 31 - 1 -> BuildMph fuel srt words = Ret m ->
  (forall i w, nth_error words i = Some w -> GetMph m w = Ret (Z.of_nat i))
  /\ (forall s, exists k, GetMph m s = Ret k /\ 0 <= k < zlen words).
Proof.
  intros words srt fuel m Hs Hn Hf E. assert (1 <= zlen words < 2 ^ 32) as Hn' by lia.
  destruct (build_ok words Hn' srt Hs fuel (proj2 Hn) Hf) as [E'|(m' & bs & E' & HG & HI)]; rewrite E in E'; [discriminate|injection E' as <-]. split.
  - intros i w Hi. assert (i < length words)%nat as Hil by (apply nth_error_Some; rewrite Hi; discriminate).
    assert (word words (Z.of_nat i) = w) as <-.
    { unfold word, DictGet. destruct ((Z.of_nat i <? 0) || (zlen words <=? Z.of_nat i)) eqn:Eb; [unfold zlen in Eb; lia|]. rewrite Nat2Z.id. apply nth_error_nth. exact Hi. }
    apply (get_found words Hn' m bs); [lia|exact HI|]. apply (g_keys _ _ HG). unfold zlen. lia.
  - apply (get_total words Hn' m bs); [lia|exact HG|exact HI].
Qed.
Print Assumptions C54_perfect_partial.

(** Selecting the largest first: a sorter for the examples. *)
Fixpoint insert_big (b : list Z) (l : list (list Z)) : list (list Z) :=
  match l with [] => [b] | x :: t => if zlen x <=? zlen b then b :: l else x :: insert_big b t end.
Definition sort_big (l : list (list Z)) : list (list Z) := fold_right insert_big [] l.
Lemma insert_perm b l : Permutation (b :: l) (insert_big b l).
Proof. induction l as [|x l IH]; [reflexivity|]. cbn [insert_big]. destruct (zlen x <=? zlen b); [reflexivity|]. etransitivity; [apply perm_swap|]. constructor. exact IH. Qed.
Lemma insert_sorted b l : StronglySorted (fun a b => zlen b <= zlen a) l -> StronglySorted (fun a b => zlen b <= zlen a) (insert_big b l).
Proof.
  induction 1 as [|x l Hs IH Hf]; [repeat constructor|]. cbn [insert_big]. destruct (zlen x <=? zlen b) eqn:E.
  - constructor; [constructor; assumption|]. constructor; [lia|]. eapply Forall_impl; [|exact Hf]. cbn. intros; lia.
  - constructor; [exact IH|]. eapply Permutation_Forall; [apply insert_perm|]. constructor; [lia|exact Hf].
Qed.
Lemma sort_big_ok : sorts_by_size sort_big.
Proof.
  intros bs. unfold sort_big. induction bs as [|b bs [H1 H2]]; cbn [fold_right]; [split; constructor|]. split.
  - etransitivity; [apply perm_skip; exact H1|]. apply insert_perm.
  - apply insert_sorted. exact H2.
Qed.
Definition words0 : list bytes := [bs "Hello"; bs "This"; bs "is"; bs "mph"; bs "package"; bs "!"].
Example C54_nonvacuous : sorts_by_size sort_big /\ 1 <= zlen words0 <= 2 ^ 31
  /\ (exists m, BuildMph 20 sort_big words0 = Ret m) /\ exists B, In B (buckets_of words0 6) /\ 2 <= zlen B.
Proof.
  split; [exact sort_big_ok|]. split; [vm_compute; split; discriminate|]. split; [eexists; vm_compute; reflexivity|].
  destruct (List.find (fun B => 2 <=? zlen B) (buckets_of words0 6)) as [B|] eqn:E; [|vm_compute in E; discriminate].
  apply find_some in E. exists B. split; [tauto|lia].
Qed.

(** ** C55 *)
Section Diverge.
Context (words : list bytes) (srt : list (list Z) -> list (list Z)).
Notation n := (zlen words).
Context (Hn : 1 <= n < 2 ^ 32) (Hs : sorts_by_size srt).
Lemma place_big_any fuel : forall bl done aux vals, good words (done ++ bl) -> zlen aux = n -> zlen vals = n ->
  place_big fuel words n aux vals bl = NoFuel
  \/ exists aux' vals' done' rest, bl = done' ++ rest /\ place_big fuel words n aux vals bl = Ret (aux', vals', rest)
       /\ Forall (fun B => exists d, NoDup (map (slot_of words d) B)) done'
       /\ zlen aux' = n /\ zlen vals' = n /\ (rest = [] \/ exists B r, rest = B :: r /\ zlen B <= 1).
Proof.
  induction bl as [|B rest IH]; intros done aux vals HG Ha Hv; cbn [place_big].
  - right. exists aux, vals, [], []. repeat split; auto.
  - destruct (zlen B <=? 1) eqn:EB.
    { right. exists aux, vals, [], (B :: rest). split; [reflexivity|]. split; [reflexivity|]. split; [constructor|]. split; [exact Ha|]. split; [exact Hv|]. right. exists B, rest. split; [reflexivity|lia]. }
    change (@nil Z) with (map (slot_of words 1) (firstn (Z.to_nat 0) B)).
    destruct (find_slots_ok words Hn vals B Hv fuel 0 1) as [->|(d & Hd1 & Hd2 & -> & Hd3 & Hd4)]; [pose proof (zlen_nonneg B); lia|lia|constructor|intros s []|left; reflexivity|].
    cbn [bind]. assert (exists k0 B', B = k0 :: B') as (k0 & B' & EBk) by (destruct B as [|k0 B']; [change (zlen (@nil Z)) with 0 in EB; lia|eauto]).
    assert (index B 0 = Ret k0) as -> by (rewrite EBk; unfold index; rewrite zlen_cons; pose proof (zlen_nonneg B'); destruct ((0 <=? 0) && (0 <? 1 + zlen B')) eqn:E; [reflexivity|lia]).
    cbn [bind]. rewrite modu_ok by lia. cbn [bind]. fold (word words k0). fold (h0 words k0). pose proof (h0_range words Hn k0) as Hh.
    destruct (set_index_ok aux (h0 words k0) (to_i32 d)) as (aux' & -> & Hl1 & _); [lia|]. cbn [bind].
    assert (forall k, In k B -> 0 <= k < n) as Hkr by (intros k Hk; apply (g_keys _ _ HG); rewrite concat_app; cbn [concat]; rewrite !in_app_iff; tauto).
    destruct (set_values_ok words (slot_of words d) B [] vals Hv Hd3) as (vals' & E2 & Hl2 & _); [intros; apply slot_range; exact Hn|intros k Hk; apply Hd4; apply in_map; exact Hk|intros k Hk; specialize (Hkr k Hk); unfold unused; lia|].
    cbn [app] in E2. change (zlen (@nil Z)) with 0 in E2. rewrite E2. cbn [bind].
    destruct (IH (done ++ [B]) aux' vals') as [H|(aux2 & vals2 & done' & rest' & H1 & H2 & H3 & H4)]; [rewrite <- app_assoc; exact HG|lia|exact Hl2|left; exact H|].
    right. exists aux2, vals2, (B :: done'), rest'. split; [rewrite H1; reflexivity|]. split; [exact H2|]. split; [constructor; [exists d; exact Hd3|exact H3]|exact H4].
Qed.
Lemma nodup_map_inj {A B} (f : A -> B) l x y : NoDup (map f l) -> In x l -> In y l -> f x = f y -> x = y.
Proof.
  induction l as [|z l IH]; intros Hnd Hx Hy E; [destruct Hx|]. cbn [map] in Hnd. inversion Hnd; subst. destruct Hx as [<-|Hx], Hy as [<-|Hy]; try reflexivity; [| |apply IH; assumption]; exfalso; apply H1.
  - rewrite E. apply in_map. exact Hy.
  - rewrite <- E. apply in_map. exact Hx.
Qed.
(* two keys that every displacement sends to the same slot *)
Lemma build_diverges i j : 0 <= i < n -> 0 <= j < n -> i <> j -> h0 words i = h0 words j -> (forall d, slot_of words d i = slot_of words d j) ->
  forall fuel, BuildMph fuel srt words = NoFuel.
Proof.
  intros Hi Hj Hij Hh0 Hsl fuel. unfold BuildMph. rewrite fill_all by exact Hn. cbn [bind]. rewrite size_eq by exact Hn. destruct (Hs (buckets_of words (length words))) as [HP HS].
  pose proof (good_perm words _ _ HP (buckets_good words Hn)) as HG. set (bl := srt (buckets_of words (length words))) in *. clearbody bl.
  destruct (place_big_any fuel bl [] (repeat 0 (Z.to_nat n)) (map (fun _ => unused) words) HG) as [->|(aux & vals & done & rest & Eb & _ & Hdone & _ & _ & Hrest)]; [unfold zlen; rewrite repeat_length; lia|unfold zlen; rewrite map_length; reflexivity|reflexivity|].
  exfalso. assert (In i (concat bl)) as Hin by (apply (g_keys _ _ HG); exact Hi). apply in_concat in Hin. destruct Hin as (B & HB & HiB).
  assert (In j (concat bl)) as Hinj by (apply (g_keys _ _ HG); exact Hj). apply in_concat in Hinj. destruct Hinj as (B' & HB' & HjB').
  assert (In j B) as HjB by (apply (g_diff _ _ HG B' B j i HB' HB HjB' HiB); congruence).
  rewrite Eb in HB, HS. apply in_app_iff in HB. destruct HB as [HB|HB].
  - rewrite Forall_forall in Hdone. destruct (Hdone B HB) as (d & Hnd). apply Hij. exact (nodup_map_inj _ _ _ _ Hnd HiB HjB (Hsl d)).
  - destruct Hrest as [->|(B0 & r & -> & HB0)]; [destruct HB|].
    assert (zlen B <= 1) as Hle.
    { destruct HB as [<-|HB]; [exact HB0|]. clear -HS HB HB0. induction done as [|D done IH]; cbn [app] in HS; inversion HS as [|? ? H1 H2]; subst; [|apply IH; assumption]. rewrite Forall_forall in H2. specialize (H2 B HB). lia. }
    destruct B as [|a [|b B]]; [destruct HiB| |rewrite !zlen_cons in Hle; pose proof (zlen_nonneg B); lia].
    destruct HiB as [<-|[]], HjB as [<-|[]]. congruence.
Qed.
End Diverge.

(** A word twice in the dictionary: the construction never ends. *)
Theorem C55_duplicates_refuted : forall words srt i j w, sorts_by_size srt -> zlen words < 2 ^ 32 ->
  i <> j -> nth_error words i = Some w -> nth_error words j = Some w -> forall fuel, BuildMph fuel srt words = NoFuel.
Proof.
  intros words srt i j w Hs Hn Hij Hi Hj fuel.
  assert (i < length words)%nat as Hil by (apply nth_error_Some; rewrite Hi; discriminate). assert (j < length words)%nat as Hjl by (apply nth_error_Some; rewrite Hj; discriminate).
  assert (forall k, (k < length words)%nat -> nth_error words k = Some w -> word words (Z.of_nat k) = w) as Hw.
  { intros k Hk E. unfold word, DictGet. destruct ((Z.of_nat k <? 0) || (zlen words <=? Z.of_nat k)) eqn:Eb; [unfold zlen in Eb; lia|]. rewrite Nat2Z.id. apply nth_error_nth. exact E. }
  apply (build_diverges words srt) with (i := Z.of_nat i) (j := Z.of_nat j); try assumption; try (unfold zlen in *; lia).
  - unfold h0. rewrite (Hw i), (Hw j) by assumption. reflexivity.
  - intros d. unfold slot_of. rewrite (Hw i), (Hw j) by assumption. reflexivity.
Qed.
Print Assumptions C55_duplicates_refuted.

(** hash keeps parities *)
Lemma odd_wrap x : Z.odd (wrap32 x) = Z.odd x.
Proof. rewrite <- !Z.bit0_odd. unfold wrap32. apply Z.mod_pow2_bits_low. lia. Qed.
Lemma odd_hash w : forall h, Z.odd (fold_left (fun h c => Z.lxor (wrap32 (h * 16777619)) c) w h) = xorb (Z.odd h) (Z.odd (byte_sum w)).
Proof.
  induction w as [|c w IH]; intros h; cbn [fold_left byte_sum fold_right].
  - change (Z.odd 0) with false. rewrite xorb_false_r. reflexivity.
  - rewrite IH. fold (byte_sum w). rewrite Z.odd_add. rewrite <- (Z.bit0_odd (Z.lxor _ c)), Z.lxor_spec, !Z.bit0_odd, odd_wrap, Z.odd_mul. change (Z.odd 16777619) with true. rewrite andb_true_r. apply xorb_assoc.
Qed.
Lemma mod2_hash d w w' : Z.odd (byte_sum w) = Z.odd (byte_sum w') -> hash d w mod 2 = hash d w' mod 2.
Proof. intros E. rewrite !Zmod_odd. unfold hash. rewrite !odd_hash, E. reflexivity. Qed.
Lemma mod2_hash_ne d w w' : Z.odd (byte_sum w) <> Z.odd (byte_sum w') -> hash d w mod 2 <> hash d w' mod 2.
Proof. intros E. rewrite !Zmod_odd. unfold hash. rewrite !odd_hash. destruct (Z.odd (if d =? 0 then 2166136261 else d)), (Z.odd (byte_sum w)), (Z.odd (byte_sum w')); cbn; congruence. Qed.

(** Dictionaries of two words: the construction ends iff exactly one of their byte sums is
    odd.  "a", "c" are distinct and both odd. *)
Theorem C55_two_words_refuted : forall w1 w2 srt, sorts_by_size srt ->
  (Z.odd (byte_sum w1) = Z.odd (byte_sum w2) -> forall fuel, BuildMph fuel srt [w1; w2] = NoFuel)
  /\ (Z.odd (byte_sum w1) <> Z.odd (byte_sum w2) -> forall fuel, exists m, BuildMph fuel srt [w1; w2] = Ret m).
Proof.
  intros w1 w2 srt Hs. assert (1 <= zlen [w1; w2] < 2 ^ 32) as Hn by (rewrite !zlen_cons; change (zlen (@nil bytes)) with 0; lia). split.
  - intros E fuel. apply (build_diverges [w1; w2] srt Hn Hs 0 1); [rewrite !zlen_cons; change (zlen (@nil bytes)) with 0; lia|rewrite !zlen_cons; change (zlen (@nil bytes)) with 0; lia|lia| |].
    + unfold h0. change (zlen [w1; w2]) with 2. change (word [w1; w2] 0) with w1. change (word [w1; w2] 1) with w2. apply mod2_hash. exact E.
    + intros d. unfold slot_of. change (zlen [w1; w2]) with 2. change (word [w1; w2] 0) with w1. change (word [w1; w2] 1) with w2. apply mod2_hash. exact E.
  - intros E fuel. unfold BuildMph. rewrite fill_all by exact Hn. cbn [bind]. rewrite size_eq by exact Hn.
    destruct (Hs (buckets_of [w1; w2] (length [w1; w2]))) as [HP HS]. pose proof (good_perm [w1; w2] _ _ HP (buckets_good [w1; w2] Hn)) as HG.
    assert (forall B, In B (srt (buckets_of [w1; w2] (length [w1; w2]))) -> zlen B <= 1) as Hle.
    { intros B HB. destruct B as [|a [|b B]]; [change (zlen (@nil Z)) with 0; lia|rewrite zlen_cons; change (zlen (@nil Z)) with 0; lia|exfalso].
      assert (In a (concat (srt (buckets_of [w1; w2] (length [w1; w2])))) /\ In b (concat (srt (buckets_of [w1; w2] (length [w1; w2]))))) as [Ha Hb].
      { split; apply in_concat; eexists; (split; [exact HB|cbn; tauto]). }
      assert (a <> b) as Hab.
      { apply in_split in HB. destruct HB as (l1 & l2 & El). pose proof (g_nodup _ _ HG) as Hnd. rewrite El, concat_app in Hnd. cbn [concat app] in Hnd. apply NoDup_remove_2 in Hnd. intros ->. apply Hnd. apply in_or_app. right. left. reflexivity. }
      apply (g_keys _ _ HG) in Ha. apply (g_keys _ _ HG) in Hb. change (zlen [w1; w2]) with 2 in *.
      pose proof (g_same _ _ HG _ a b HB ltac:(left; reflexivity) ltac:(right; left; reflexivity)) as Hh. unfold h0 in Hh. change (zlen [w1; w2]) with 2 in Hh.
      assert (a = 0 /\ b = 1 \/ a = 1 /\ b = 0) as [[-> ->]|[-> ->]] by lia; change (word [w1; w2] 0) with w1 in Hh; change (word [w1; w2] 1) with w2 in Hh; [|symmetry in Hh]; exact (mod2_hash_ne 0 w1 w2 E Hh). }
    set (bl := srt (buckets_of [w1; w2] (length [w1; w2]))) in *. clearbody bl.
    assert (place_big fuel [w1; w2] (zlen [w1; w2]) (repeat 0 (Z.to_nat (zlen [w1; w2]))) (map (fun _ => unused) [w1; w2]) bl = Ret (repeat 0 (Z.to_nat (zlen [w1; w2])), map (fun _ => unused) [w1; w2], bl)) as ->.
    { destruct bl as [|B r]; [reflexivity|]. cbn [place_big]. specialize (Hle B (or_introl eq_refl)). destruct (zlen B <=? 1) eqn:E1; [reflexivity|lia]. }
    cbn [bind]. destruct (free_list_spec (map (fun _ => unused) [w1; w2]) 0) as (F1 & F2 & F3).
    destruct (place_one_ok [w1; w2] Hn ltac:(change (zlen [w1; w2]) with 2; lia) bl [] _ _ (free_slots 0 (map (fun _ => unused) [w1; w2]) []) HG (inv_init [w1; w2] Hn) HS) as (aux & vals & -> & _).
    + apply Forall_forall. exact Hle.
    + rewrite free_slots_eq, app_nil_r. apply NoDup_rev. exact F2.
    + intros s Hin. rewrite free_slots_eq, app_nil_r in Hin. apply in_rev in Hin. destruct (F1 s Hin) as [Hr Hg]. rewrite Z.sub_0_r in Hg. split; [|exact Hg]. change (zlen (map (fun _ : bytes => unused) [w1; w2])) with 2 in Hr. change (zlen [w1; w2]) with 2. lia.
    + rewrite free_slots_eq, app_nil_r, rev_length. exact F3.
    + cbn [bind]. eexists. reflexivity.
Qed.
Print Assumptions C55_two_words_refuted.
Example C55_nonvacuous : sorts_by_size sort_big /\ bs "a" <> bs "c" /\ Z.odd (byte_sum (bs "a")) = Z.odd (byte_sum (bs "c"))
  /\ Z.odd (byte_sum (bs "a")) <> Z.odd (byte_sum (bs "b")).
Proof. split; [exact sort_big_ok|]. split; [discriminate|]. split; [reflexivity|discriminate]. Qed.
(** The empty dictionary's table panics on every lookup. *)
Theorem C54_empty_refuted : forall srt fuel, sorts_by_size srt -> exists m, BuildMph fuel srt [] = Ret m /\ forall s, GetMph m s = Panic.
Proof.
  intros srt fuel Hs. exists (mkMph [] []). split; [|intros s; reflexivity].
  unfold BuildMph. change (wrap32 (DictSize [])) with 0. cbn [fill bind Z.to_nat repeat]. destruct (Hs []) as [HP _]. apply Permutation_nil in HP. rewrite HP. reflexivity.
Qed.
Print Assumptions C54_empty_refuted.

(** ** C56 *)
Definition is_i32 (x : Z) : Prop := - 2 ^ 31 <= x < 2 ^ 31.
Definition table_ok (m : mph) : Prop := Forall is_u32 (values m) /\ Forall is_i32 (auxiliary m) /\ zlen (values m) < 2 ^ 32 /\ zlen (auxiliary m) < 2 ^ 32.
Lemma write_all_ok l : forall o n, write_all o l n = Ret (n + 4 * zlen l, o ++ flat_map le32 l).
Proof.
  induction l as [|v l IH]; intros o n; cbn [write_all flat_map]; [rewrite app_nil_r; change (zlen (@nil Z)) with 0; f_equal; f_equal; lia|].
  unfold WriteUInt32, Write. cbn [bind]. rewrite IH, <- app_assoc, zlen_cons. f_equal. f_equal. change (zlen (le32 v)) with 4. lia.
Qed.
Lemma read_all_ok l : Forall is_u32 l -> forall pre suf, zlen (pre ++ flat_map le32 l ++ suf) < 2 ^ 63 ->
  read_all (length l) (mkIn (pre ++ flat_map le32 l ++ suf) (zlen pre)) = (Ret l, mkIn (pre ++ flat_map le32 l ++ suf) (zlen pre + 4 * zlen l)).
Proof.
  induction 1 as [|v l Hv Hl IH]; intros pre suf Hz; cbn [length read_all flat_map]; [change (zlen (@nil Z)) with 0; do 2 f_equal; lia|].
  cbn [flat_map] in Hz. rewrite <- app_assoc in *. rewrite read_u32_app by assumption. rewrite app_assoc. replace (zlen pre + 4) with (zlen (pre ++ le32 v)) by (rewrite zlen_app; reflexivity).
  rewrite IH by (rewrite <- app_assoc; exact Hz). cbn [bind]. rewrite zlen_cons, zlen_app. change (zlen (le32 v)) with 4. do 2 f_equal. lia.
Qed.
(** Anywhere in a buffer: what Store wrote, Load reads, and leaves the position behind it;
    both return the number of bytes (while the two lengths add up to less than 2^32). *)
Theorem C56_roundtrip : forall m pre suf, table_ok m -> 
  exists stored, (forall o, StoreMph m o = Ret (zlen stored, o ++ stored))
  /\ (zlen (pre ++ stored ++ suf) < 2 ^ 63 ->
      exists n, LoadMph (mkIn (pre ++ stored ++ suf) (zlen pre)) = (Ret (m, n), mkIn (pre ++ stored ++ suf) (zlen pre + zlen stored))
        /\ (zlen (values m) + zlen (auxiliary m) < 2 ^ 32 -> n = zlen stored)).
Proof.
  intros m pre suf (H1 & H2 & H3 & H4). exists (le32 (zlen (values m)) ++ flat_map le32 (values m) ++ le32 (zlen (auxiliary m)) ++ flat_map le32 (map wrap32 (auxiliary m))).
  assert (forall l : list Z, zlen (flat_map le32 l) = 4 * zlen l) as Hfl.
  { induction l as [|x l IH]; [reflexivity|]. cbn [flat_map]. rewrite zlen_app, IH, zlen_cons. change (zlen (le32 x)) with 4. lia. }
  assert (zlen (map wrap32 (auxiliary m)) = zlen (auxiliary m)) as Hml by (unfold zlen; rewrite map_length; reflexivity).
  pose proof (zlen_nonneg (values m)) as Hv0. pose proof (zlen_nonneg (auxiliary m)) as Ha0.
  assert (wrap32 (zlen (values m)) = zlen (values m)) as Ev by (apply Z.mod_small; lia). assert (wrap32 (zlen (auxiliary m)) = zlen (auxiliary m)) as Ea by (apply Z.mod_small; lia).
  split.
  - intros o. unfold StoreMph. unfold WriteUInt32, Write. cbn [bind]. rewrite Ev, Ea, write_all_ok. cbn [bind]. rewrite write_all_ok. rewrite !zlen_app, !Hfl, Hml. change (zlen (le32 (zlen (values m)))) with 4. change (zlen (le32 (zlen (auxiliary m)))) with 4.
    rewrite <- !app_assoc. f_equal. f_equal. lia.
  - intros Hz. set (A := le32 (zlen (values m))) in *. set (B := flat_map le32 (values m)) in *. set (C := le32 (zlen (auxiliary m))) in *. set (D := flat_map le32 (map wrap32 (auxiliary m))) in *.
    assert (zlen A = 4) as HA by reflexivity. assert (zlen C = 4) as HC by reflexivity. assert (zlen B = 4 * zlen (values m)) as HB by apply Hfl. assert (zlen D = 4 * zlen (auxiliary m)) as HD by (unfold D; rewrite Hfl, Hml; reflexivity).
    set (buf := pre ++ (A ++ B ++ C ++ D) ++ suf) in *.
    assert (buf = pre ++ A ++ (B ++ C ++ D ++ suf)) as E1 by (unfold buf; rewrite <- !app_assoc; reflexivity).
    assert (buf = (pre ++ A) ++ B ++ (C ++ D ++ suf)) as E2 by (unfold buf; rewrite <- !app_assoc; reflexivity).
    assert (buf = ((pre ++ A) ++ B) ++ C ++ (D ++ suf)) as E3 by (unfold buf; rewrite <- !app_assoc; reflexivity).
    assert (buf = (((pre ++ A) ++ B) ++ C) ++ D ++ suf) as E4 by (unfold buf; rewrite <- !app_assoc; reflexivity).
    assert (ReadUInt32 (mkIn buf (zlen pre)) = (Ret (zlen (values m)), mkIn buf (zlen pre + 4))) as R1.
    { rewrite E1 in *. apply read_u32_app; [unfold is_u32; lia|exact Hz]. }
    assert (read_all (Z.to_nat (zlen (values m))) (mkIn buf (zlen pre + 4)) = (Ret (values m), mkIn buf (zlen pre + 4 + 4 * zlen (values m)))) as R2.
    { replace (Z.to_nat (zlen (values m))) with (length (values m)) by (unfold zlen; lia). replace (zlen pre + 4) with (zlen (pre ++ A)) by (rewrite zlen_app, HA; reflexivity). rewrite E2 in *. apply read_all_ok; [exact H1|exact Hz]. }
    assert (ReadUInt32 (mkIn buf (zlen pre + 4 + 4 * zlen (values m))) = (Ret (zlen (auxiliary m)), mkIn buf (zlen pre + 8 + 4 * zlen (values m)))) as R3.
    { replace (zlen pre + 4 + 4 * zlen (values m)) with (zlen ((pre ++ A) ++ B)) by (rewrite !zlen_app, HA, HB; reflexivity). rewrite E3 in *. unfold C. rewrite read_u32_app by (try exact Hz; unfold is_u32; lia). do 2 f_equal. rewrite !zlen_app, HA, HB. lia. }
    assert (read_all (Z.to_nat (zlen (auxiliary m))) (mkIn buf (zlen pre + 8 + 4 * zlen (values m))) = (Ret (map wrap32 (auxiliary m)), mkIn buf (zlen pre + 8 + 4 * zlen (values m) + 4 * zlen (auxiliary m)))) as R4.
    { replace (Z.to_nat (zlen (auxiliary m))) with (length (map wrap32 (auxiliary m))) by (rewrite map_length; unfold zlen; lia). replace (zlen pre + 8 + 4 * zlen (values m)) with (zlen (((pre ++ A) ++ B) ++ C)) by (rewrite !zlen_app, HA, HB, HC; lia).
      rewrite E4 in *. unfold D. rewrite read_all_ok; [rewrite Hml; reflexivity| |exact Hz]. apply Forall_forall. intros x Hx. apply in_map_iff in Hx. destruct Hx as (y & <- & _). apply Z.mod_pos_bound. lia. }
    exists (wrap32 (zlen (values m) + zlen (auxiliary m)) * 4 + 8). split.
    + unfold LoadMph. rewrite R1, R2, R3, R4. rewrite map_map. assert (map (fun x => to_i32 (wrap32 x)) (auxiliary m) = auxiliary m) as ->.
      { rewrite <- (map_id (auxiliary m)) at 2. apply map_ext_in. intros x Hx. rewrite Forall_forall in H2. specialize (H2 x Hx). unfold is_i32 in H2. unfold to_i32, wrap32. rewrite Zplus_mod_idemp_l. rewrite Z.mod_small by lia. lia. }
      destruct m as [aux vals]. cbn [auxiliary values] in *. f_equal. f_equal. rewrite !zlen_app, HA, HB, HC, HD. lia.
    + intros Hsum. unfold wrap32. rewrite Z.mod_small by lia. rewrite !zlen_app, HA, HB, HC, HD. lia.
Qed.
Print Assumptions C56_roundtrip.
Definition table0 : mph := mkMph [-1; 2147483647; 0] [5; 0; 4294967295; 7].
Example C56_nonvacuous : table_ok table0 /\ StoreMph table0 [] = Ret (36, match StoreMph table0 [] with Ret (_, o) => o | _ => [] end)
  /\ fst (LoadMph (NewBytesInput (match StoreMph table0 [] with Ret (_, o) => o | _ => [] end))) = Ret (table0, 36).
Proof.
  split; [|split; vm_compute; reflexivity].
  split; [repeat (apply Forall_cons; [split; vm_compute; [discriminate|reflexivity]|]); apply Forall_nil|].
  split; [repeat (apply Forall_cons; [split; vm_compute; [discriminate|reflexivity]|]); apply Forall_nil|].
  split; vm_compute; reflexivity.
Qed.

(** ** C57 *)
(** Under the conditions of C54: a word's id is its position, any other string has the
    unknown id; ids lead back to their words except for the word "<nil/>"; other ids give
    "<UNK>". *)
Theorem C57_word_ids_partial : forall words srt fuel m, sorts_by_size srt ->
  1 <= zlen words <= 2 ^ 31 -> Z.of_nat fuel < 2 ^ 31 - 1 -> BuildMph fuel srt words = Ret m ->
  (forall i w, nth_error words i = Some w -> IndexerGet words m w = Ret (Z.of_nat i))
  /\ (forall s, ~ In s words -> IndexerGet words m s = Ret UnknownWordID)
  /\ (forall i w, nth_error words i = Some w -> w <> bs "<nil/>" -> IndexerFind words (Z.of_nat i) = w)
  /\ (forall i, zlen words <= i -> IndexerFind words i = bs "<UNK>").
Proof.
  intros words srt fuel m Hs Hn Hf E. destruct (C54_perfect_partial words srt fuel m Hs Hn Hf E) as [H1 H2].
  assert (forall i w, nth_error words i = Some w -> DictGet words (Z.of_nat i) = w) as Hd.
  { intros i w Hi. assert (i < length words)%nat as Hil by (apply nth_error_Some; rewrite Hi; discriminate). unfold DictGet. destruct ((Z.of_nat i <? 0) || (zlen words <=? Z.of_nat i)) eqn:Eb; [unfold zlen in Eb; lia|]. rewrite Nat2Z.id. apply nth_error_nth. exact Hi. }
  split; [|split; [|split]].
  - intros i w Hi. unfold IndexerGet. rewrite (H1 i w Hi). cbn [bind]. rewrite (Hd i w Hi). rewrite (eqb_refl _ beqb_ok). reflexivity.
  - intros s Hno. unfold IndexerGet. destruct (H2 s) as (k & -> & Hk). cbn [bind]. assert (DictGet words k <> s) as Hne.
    { intros Es. apply Hno. rewrite <- Es. unfold DictGet. destruct ((k <? 0) || (zlen words <=? k)) eqn:Eb; [lia|]. apply nth_In. unfold zlen in Hk. lia. }
    rewrite (eqb_neq _ beqb_ok) by exact Hne. reflexivity.
  - intros i w Hi Hw. unfold IndexerFind. rewrite (Hd i w Hi). rewrite (eqb_neq _ beqb_ok) by exact Hw. reflexivity.
  - intros i Hi. unfold IndexerFind, DictGet. destruct ((i <? 0) || (zlen words <=? i)) eqn:Eb; [reflexivity|lia].
Qed.
Print Assumptions C57_word_ids_partial.
Example C57_nonvacuous : sorts_by_size sort_big /\ 1 <= zlen words0 <= 2 ^ 31 /\ exists m, BuildMph 20 sort_big words0 = Ret m /\ ~ In (bs "none") words0 /\ IndexerGet words0 m (bs "none") = Ret UnknownWordID.
Proof.
  split; [exact sort_big_ok|]. split; [vm_compute; split; discriminate|]. eexists. split; [vm_compute; reflexivity|]. split; [|vm_compute; reflexivity].
  intros H. repeat (destruct H as [H|H]; [discriminate H|]). destruct H.
Qed.
(** The word "<nil/>" is not led back to. *)
Theorem C57_nil_word_refuted : exists words m, BuildMph 5 sort_big words = Ret m /\ zlen words = 1
  /\ IndexerGet words m (bs "<nil/>") = Ret 0 /\ IndexerFind words 0 = bs "<UNK>".
Proof. exists [bs "<nil/>"]. eexists. split; [vm_compute; reflexivity|]. split; [reflexivity|]. split; vm_compute; reflexivity. Qed.
Print Assumptions C57_nil_word_refuted.

(** ** C58, in memory *)
(** Iterate visits exactly the entries Get gives for the keys below Size, in order, and stops at the
    callback's first error; up to 2^32 entries.  Keys from Size on give "<nil/>". *)
Theorem C58_memory : forall words, zlen words <= 2 ^ 32 ->
  (forall S (f : S -> Z -> bytes -> option err * S) s,
     DictIterate f words s = fold_left (fun acc k => match acc with (None, st) => f st k (DictGet words k) | failed => failed end) (map Z.of_nat (seq 0 (Z.to_nat (DictSize words)))) (None, s))
  /\ (forall i w, nth_error words i = Some w -> DictGet words (Z.of_nat i) = w)
  /\ DictSize words = zlen words
  /\ (forall k, DictSize words <= k -> DictGet words k = bs "<nil/>").
Proof.
  intros words Hz.
  assert (forall i w, nth_error words i = Some w -> DictGet words (Z.of_nat i) = w) as Hd.
  { intros i w Hi. assert (i < length words)%nat as Hil by (apply nth_error_Some; rewrite Hi; discriminate). unfold DictGet. destruct ((Z.of_nat i <? 0) || (zlen words <=? Z.of_nat i)) eqn:Eb; [unfold zlen in Eb; lia|]. rewrite Nat2Z.id. apply nth_error_nth. exact Hi. }
  split; [|split; [exact Hd|split; [reflexivity|]]].
  - intros S f s. unfold DictIterate, DictSize. unfold zlen at 1. rewrite Nat2Z.id.
    assert (forall (l : list Z) e st, fold_left (fun acc k => match acc with (None, st) => f st k (DictGet words k) | failed => failed end) l (Some e, st) = (Some e, st)) as Hfail by (induction l; intros; cbn [fold_left]; auto).
    assert (forall ws pre s, words = pre ++ ws -> DictIterate_from f (zlen pre) ws s = fold_left (fun acc k => match acc with (None, st) => f st k (DictGet words k) | failed => failed end) (map Z.of_nat (seq (length pre) (length ws))) (None, s)) as Hgen; [|exact (Hgen words [] s eq_refl)].
    clear s. induction ws as [|w ws IH]; intros pre s E; cbn [DictIterate_from length seq map fold_left]; [reflexivity|].
    assert (DictGet words (Z.of_nat (length pre)) = w) as -> by (apply Hd; rewrite E, nth_error_app2, Nat.sub_diag by lia; reflexivity).
    assert (wrap32 (zlen pre) = Z.of_nat (length pre)) as -> by (unfold wrap32, zlen in *; rewrite E, app_length in Hz; cbn [length] in Hz; apply Z.mod_small; lia).
    destruct (f s (Z.of_nat (length pre)) w) as [[e|] s']; [rewrite Hfail; reflexivity|].
    replace (zlen pre + 1) with (zlen (pre ++ [w])) by (rewrite zlen_app; reflexivity). rewrite (IH (pre ++ [w])) by (rewrite <- app_assoc; exact E). rewrite app_length. cbn [length]. rewrite Nat.add_1_r. reflexivity.
  - intros k Hk. unfold DictGet, DictSize in *. destruct ((k <? 0) || (zlen words <=? k)) eqn:Eb; [reflexivity|lia].
Qed.
Print Assumptions C58_memory.
Example C58_nonvacuous : zlen words0 <= 2 ^ 32 /\ DictGet words0 3 = bs "mph" /\ DictGet words0 6 = bs "<nil/>".
Proof. split; [vm_compute; discriminate|]. split; reflexivity. Qed.
(** The one ambiguity: "<nil/>" can be an entry. *)
Theorem C58_nil_entry_refuted : exists words k, k < DictSize words /\ DictGet words k = DictGet words (DictSize words).
Proof. exists [bs "<nil/>"], 0. split; reflexivity. Qed.
Print Assumptions C58_nil_entry_refuted.
