(** C55 The construction of the minimal perfect hash ends: dictionaries of any size. *)
From Coq Require Import String Permutation Sorting.Sorted ZifyBool.
From Verif Require Import Base BaseLemmas GoMap Mph MphSpec MphProofs P_Mph.
Local Open Scope Z_scope.
Local Notation length := List.length.

(** ** hash modulo a power of two *)
Lemma lxor_mod_pow2 a b k : 0 <= k -> Z.lxor a b mod 2 ^ k = Z.lxor (a mod 2 ^ k) (b mod 2 ^ k).
Proof.
  intros Hk. apply Z.bits_inj'. intros i Hi. rewrite Z.lxor_spec. destruct (Z_lt_le_dec i k) as [Hlt|Hge].
  - rewrite !Z.mod_pow2_bits_low by lia. apply Z.lxor_spec.
  - rewrite !Z.mod_pow2_bits_high by lia. reflexivity.
Qed.
Lemma wrap32_mod_pow2 x k : 0 <= k <= 32 -> wrap32 x mod 2 ^ k = x mod 2 ^ k.
Proof.
  intros Hk. unfold wrap32. apply Z.bits_inj'. intros i Hi. destruct (Z_lt_le_dec i k) as [Hlt|Hge].
  - rewrite !Z.mod_pow2_bits_low by lia. reflexivity.
  - rewrite !Z.mod_pow2_bits_high by lia. reflexivity.
Qed.
Lemma fold_mod k w w' : 0 <= k <= 32 -> Forall2 (fun a b => a mod 2 ^ k = b mod 2 ^ k) w w' -> forall h h', h mod 2 ^ k = h' mod 2 ^ k ->
  fold_left (fun h c => Z.lxor (wrap32 (h * 16777619)) c) w h mod 2 ^ k = fold_left (fun h c => Z.lxor (wrap32 (h * 16777619)) c) w' h' mod 2 ^ k.
Proof.
  intros Hk HF. induction HF as [|a b w w' E HF IH]; intros h h' Eh; cbn [fold_left]; [exact Eh|]. apply IH.
  rewrite !lxor_mod_pow2 by lia. rewrite !wrap32_mod_pow2 by lia. rewrite E. f_equal.
  assert (2 ^ k <> 0) as Hz by (pose proof (Z.pow_pos_nonneg 2 k); lia).
  rewrite (Z.mul_mod h), (Z.mul_mod h') by exact Hz. rewrite Eh. reflexivity.
Qed.
Definition seed (d : Z) : Z := if d =? 0 then 2166136261 else d.
Lemma hash_mod k w w' d d' : 0 <= k <= 32 -> Forall2 (fun a b => a mod 2 ^ k = b mod 2 ^ k) w w' -> seed d mod 2 ^ k = seed d' mod 2 ^ k ->
  hash d w mod 2 ^ k = hash d' w' mod 2 ^ k.
Proof. intros Hk HF E. unfold hash. apply fold_mod; assumption. Qed.
Lemma word_nth words i w : nth_error words i = Some w -> word words (Z.of_nat i) = w.
Proof.
  intros E. assert (i < length words)%nat as Hk by (apply nth_error_Some; rewrite E; discriminate).
  unfold word, DictGet. destruct ((Z.of_nat i <? 0) || (zlen words <=? Z.of_nat i)) eqn:Eb; [unfold zlen in Eb; lia|]. rewrite Nat2Z.id. apply nth_error_nth. exact E.
Qed.

(** Dictionaries of [2 ^ k] words, two of which are as long as each other and have, place by
    place, bytes that agree modulo [2 ^ k]: the construction never ends. *)
Theorem C55_congruent_words_refuted : forall (words : list bytes) srt k i j (w w' : bytes), sorts_by_size srt ->
  0 <= k < 32 -> zlen words = 2 ^ k -> i <> j -> nth_error words i = Some w -> nth_error words j = Some w' ->
  Forall2 (fun a b => a mod 2 ^ k = b mod 2 ^ k) w w' ->
  forall fuel, BuildMph fuel srt words = NoFuel.
Proof.
  intros words srt k i j w w' Hs Hk Hn Hij Hi Hj HF fuel.
  assert (i < length words)%nat as Hil by (apply nth_error_Some; rewrite Hi; discriminate). assert (j < length words)%nat as Hjl by (apply nth_error_Some; rewrite Hj; discriminate).
  assert (2 ^ k < 2 ^ 32) as Hlt by (apply Z.pow_lt_mono_r; lia). pose proof (Z.pow_pos_nonneg 2 k ltac:(lia) ltac:(lia)) as Hpos.
  assert (1 <= zlen words < 2 ^ 32) as Hn1 by (rewrite Hn; lia).
  apply (build_diverges words srt Hn1 Hs (Z.of_nat i) (Z.of_nat j)); try (unfold zlen, bytes in *; lia).
  - unfold h0. rewrite (word_nth _ _ _ Hi), (word_nth _ _ _ Hj), Hn. apply hash_mod; [lia|exact HF|reflexivity].
  - intros d. unfold slot_of. rewrite (word_nth _ _ _ Hi), (word_nth _ _ _ Hj), Hn. apply hash_mod; [lia|exact HF|reflexivity].
Qed.
Print Assumptions C55_congruent_words_refuted.

(** In particular a word with a capital and with a small first letter, in a dictionary of 2, 4,
    8, 16 or 32 words. *)
Theorem C55_letter_case_refuted : forall (words : list bytes) srt k i j c (w : bytes), sorts_by_size srt ->
  1 <= k <= 5 -> zlen words = 2 ^ k -> 65 <= c <= 90 ->
  nth_error words i = Some (c :: w) -> nth_error words j = Some (c + 32 :: w) ->
  forall fuel, BuildMph fuel srt words = NoFuel.
Proof.
  intros words srt k i j c w Hs Hk Hn Hc Hi Hj. assert (i <> j) as Hij by (intros <-; rewrite Hi in Hj; injection Hj; lia).
  apply (C55_congruent_words_refuted words srt k i j (c :: w) (c + 32 :: w)); try assumption; try lia. constructor.
  - replace 32 with (2 ^ (5 - k) * 2 ^ k) by (rewrite <- Z.pow_add_r by lia; replace (5 - k + k) with 5 by lia; reflexivity).
    rewrite Z.mod_add by (pose proof (Z.pow_pos_nonneg 2 k); lia). reflexivity.
  - clear. induction w; constructor; auto.
Qed.
Print Assumptions C55_letter_case_refuted.
Definition fruit : list bytes := [bs "apple"; bs "Apple"; bs "pear"; bs "plum"].
Example C55_letter_case_nonvacuous : sorts_by_size sort_big /\ NoDup fruit /\ zlen fruit = 2 ^ 2
  /\ nth_error fruit 1 = Some (65 :: bs "pple") /\ nth_error fruit 0 = Some (65 + 32 :: bs "pple").
Proof.
  split; [exact sort_big_ok|]. split; [|repeat split; reflexivity].
  repeat apply NoDup_cons; try apply NoDup_nil; cbn; intuition discriminate.
Qed.

(** ** How long to wait *)
Section Wait.
Context (words : list bytes).
Notation n := (zlen words).
Context (Hn : 1 <= n < 2 ^ 32).
Definition fits (vals B : list Z) (d : Z) : Prop := NoDup (map (slot_of words d) B) /\ forall s, In s (map (slot_of words d) B) -> get vals s = unused.

Lemma find_slots_mono vals B f : forall item d slots r, find_slots f words n vals B item d slots = Ret r ->
  forall f', (f <= f')%nat -> find_slots f' words n vals B item d slots = Ret r.
Proof.
  induction f as [|f IH]; intros item d slots r E f' Hf; cbn [find_slots] in E; [discriminate|]. destruct f' as [|f']; [lia|]. cbn [find_slots].
  destruct (item <? zlen B); [|exact E]. destruct (index B item) as [key| | |]; cbn [bind] in *; try discriminate.
  destruct (modu (hash d (DictGet words key)) n) as [slot| | |]; cbn [bind] in *; try discriminate.
  destruct (index vals slot) as [v| | |]; cbn [bind] in *; try discriminate.
  destruct (negb (v =? unused) || existsb (Z.eqb slot) slots); (eapply IH; [exact E|lia]).
Qed.

Lemma find_slots_ends vals B : zlen vals = n -> forall t d, 0 <= d -> d + Z.of_nat t < 2 ^ 32 -> fits vals B (d + Z.of_nat t) ->
  forall f, (S t * S (length B) <= f)%nat -> exists r, find_slots f words n vals B 0 d [] = Ret r.
Proof.
  intros Hv. induction t as [|t IHt]; intros d Hd Ht Hfit.
  - replace (d + Z.of_nat 0) with d in Hfit by lia. destruct Hfit as [Hnd Hun].
    assert (forall m item f, Z.of_nat m = zlen B - item -> 0 <= item -> (S m <= f)%nat -> exists r, find_slots f words n vals B item d (map (slot_of words d) (firstn (Z.to_nat item) B)) = Ret r) as Hin.
    { induction m as [|m IHm]; intros item f Hm Hi Hf; (destruct f as [|f]; [lia|]); cbn [find_slots].
      - destruct (item <? zlen B) eqn:E; [lia|]. eauto.
      - destruct (item <? zlen B) eqn:E; [|lia]. rewrite index_get by lia. cbn [bind]. rewrite modu_ok by lia. cbn [bind]. fold (word words (get B item)). fold (slot_of words d (get B item)).
        pose proof (slot_range words Hn d (get B item)) as Hs. rewrite (index_get vals) by lia. cbn [bind].
        assert (map (slot_of words d) (firstn (Z.to_nat item) B) ++ [slot_of words d (get B item)] = map (slot_of words d) (firstn (Z.to_nat (item + 1)) B)) as E1.
        { replace (Z.to_nat (item + 1)) with (S (Z.to_nat item)) by lia. rewrite (firstn_snoc _ _ 0) by (unfold zlen in *; lia). rewrite map_app. reflexivity. }
        destruct (negb (get vals (slot_of words d (get B item)) =? unused) || existsb (Z.eqb (slot_of words d (get B item))) (map (slot_of words d) (firstn (Z.to_nat item) B))) eqn:Eb.
        + exfalso. apply orb_true_iff in Eb. destruct Eb as [Eb|Eb].
          * rewrite Hun in Eb; [rewrite Z.eqb_refl in Eb; discriminate|]. apply in_map. unfold get. apply nth_In. unfold zlen in *. lia.
          * apply existsb_In in Eb. rewrite <- (firstn_skipn (Z.to_nat (item + 1)) B), map_app, <- E1 in Hnd. rewrite <- app_assoc in Hnd. cbn [app] in Hnd.
            apply NoDup_remove_2 in Hnd. apply Hnd. apply in_or_app. left. exact Eb.
        + rewrite E1. apply IHm; lia. }
    intros f Hf. apply (Hin (length B) 0 f); unfold zlen; lia.
  - intros f Hf. assert (exists m, m = length B) as [m Em] by eauto.
    assert (forall m item f slots, Z.of_nat m = zlen B - item -> 0 <= item -> (S m + S t * S (length B) <= f)%nat -> exists r, find_slots f words n vals B item d slots = Ret r) as Hin.
    { clear f Hf m Em. induction m as [|m IHm]; intros item f slots Hm Hi Hf; (destruct f as [|f]; [lia|]); cbn [find_slots].
      - destruct (item <? zlen B) eqn:E; [lia|]. eauto.
      - destruct (item <? zlen B) eqn:E; [|eauto]. rewrite index_get by lia. cbn [bind]. rewrite modu_ok by lia. cbn [bind]. fold (word words (get B item)). fold (slot_of words d (get B item)).
        pose proof (slot_range words Hn d (get B item)) as Hs. rewrite (index_get vals) by lia. cbn [bind].
        destruct (negb (get vals (slot_of words d (get B item)) =? unused) || existsb (Z.eqb (slot_of words d (get B item))) slots).
        + replace (wrap32 (d + 1)) with (d + 1) by (unfold wrap32; rewrite Z.mod_small by lia; reflexivity).
          apply IHt; [lia|lia|replace (d + 1 + Z.of_nat t) with (d + Z.of_nat (S t)) by lia; exact Hfit|lia].
        + apply IHm; lia. }
    apply (Hin (length B) 0 f []); unfold zlen; lia.
Qed.

(* [P]: a period of the displacements *)
Context (P : Z) (HP : 1 <= P) (HPmax : P < 2 ^ 32) (Hper : forall d, 0 <= d < 2 ^ 32 -> exists d', 1 <= d' <= P /\ forall i, slot_of words d i = slot_of words d' i).
Lemma find_slots_bound vals B f r : zlen vals = n -> find_slots f words n vals B 0 1 [] = Ret r ->
  forall F, P * (zlen B + 1) <= Z.of_nat F -> find_slots F words n vals B 0 1 [] = Ret r.
Proof.
  intros Hv E F HF.
  destruct (find_slots_ok words Hn vals B Hv f 0 1) as [E'|(d & Hd1 & Hd2 & E' & Hd3 & Hd4)]; [pose proof (zlen_nonneg B); lia|lia|constructor|intros s []| |]; cbn [Z.to_nat firstn map] in E'; rewrite E in E'; [discriminate|].
  destruct (Hper d Hd1) as (d' & Hd' & Hsame).
  assert (map (slot_of words d) B = map (slot_of words d') B) as Em by (apply map_ext; intros; apply Hsame).
  rewrite Em in Hd3, Hd4.
  destruct (find_slots_ends vals B Hv (Z.to_nat (d' - 1)) 1 ltac:(lia) ltac:(lia)) with (f := F) as (r' & Er').
  - replace (1 + Z.of_nat (Z.to_nat (d' - 1))) with d' by lia. split; assumption.
  - apply Nat2Z.inj_le. rewrite Nat2Z.inj_mul. unfold zlen in HF. rewrite !Nat2Z.inj_succ. rewrite Z2Nat.id by lia. nia.
  - rewrite Er'. f_equal. pose proof (find_slots_mono vals B f 0 1 [] r E (Nat.max f F) ltac:(lia)) as H1.
    pose proof (find_slots_mono vals B F 0 1 [] r' Er' (Nat.max f F) ltac:(lia)) as H2. congruence.
Qed.

Lemma set_index_len {A} (l : list A) i v l' : set_index l i v = Ret l' -> zlen l' = zlen l.
Proof.
  unfold set_index. destruct ((0 <=? i) && (i <? zlen l)) eqn:E; [|discriminate]. intros H. injection H as <-.
  unfold zlen in *. rewrite app_length. cbn [length]. rewrite firstn_length, skipn_length. lia.
Qed.
Lemma set_values_len slots : forall B vals i vals', set_values vals slots B i = Ret vals' -> zlen vals' = zlen vals.
Proof.
  induction B as [|b B IH]; intros vals i vals' E; cbn [set_values] in E; [injection E as <-; reflexivity|].
  destruct (index slots i) as [s| | |]; cbn [bind] in E; try discriminate. destruct (set_index vals s b) as [v| | |] eqn:E1; cbn [bind] in E; try discriminate.
  rewrite (IH _ _ _ E). eapply set_index_len. exact E1.
Qed.
Lemma place_big_bound f : forall bl aux vals r, zlen vals = n -> Forall (fun B => zlen B <= n) bl -> place_big f words n aux vals bl = Ret r ->
  forall F, P * (n + 1) <= Z.of_nat F -> place_big F words n aux vals bl = Ret r.
Proof.
  induction bl as [|B rest IH]; intros aux vals r Hv HB E F HF; cbn [place_big] in *; [exact E|].
  destruct (zlen B <=? 1); [exact E|].
  destruct (find_slots f words n vals B 0 1 []) as [[d slots]| | |] eqn:E1; cbn [bind] in E; try discriminate.
  rewrite (find_slots_bound vals B f (d, slots) Hv E1 F) by (inversion HB; subst; nia). cbn [bind].
  destruct (index B 0) as [k0| | |]; cbn [bind] in *; try discriminate.
  destruct (modu (hash 0 (DictGet words k0)) n) as [h| | |]; cbn [bind] in *; try discriminate.
  destruct (set_index aux h (to_i32 d)) as [aux'| | |]; cbn [bind] in *; try discriminate.
  destruct (set_values vals slots B 0) as [vals'| | |] eqn:E2; cbn [bind] in *; try discriminate.
  apply IH; [rewrite (set_values_len _ _ _ _ _ E2); exact Hv|inversion HB; assumption|exact E|exact HF].
Qed.
Lemma bucket_le srt B : sorts_by_size srt -> In B (srt (buckets_of words (length words))) -> zlen B <= n.
Proof.
  intros Hs HB. destruct (Hs (buckets_of words (length words))) as [HPm HS]. pose proof (good_perm words _ _ HPm (buckets_good words Hn)) as HG.
  assert (length B <= length (keys (length words)))%nat as Hl.
  { apply NoDup_incl_length.
    - pose proof (g_nodup _ _ HG) as Hnd. apply in_split in HB. destruct HB as (l1 & l2 & El). rewrite El, concat_app in Hnd. cbn [concat] in Hnd.
      clear -Hnd. induction (concat l1) as [|x l IH]; cbn [app] in Hnd; [|inversion Hnd; auto].
      induction B as [|x B IH]; [constructor|]. cbn [app] in Hnd. inversion Hnd as [|? ? H1 H2]; subst. constructor; [intros H; apply H1; apply in_or_app; left; exact H|apply IH; exact H2].
    - intros k Hk. apply in_keys. change (Z.of_nat (length words)) with n. apply (g_keys _ _ HG). apply in_concat. exists B. split; assumption. }
  unfold keys in Hl. rewrite map_length, seq_length in Hl. unfold zlen. lia.
Qed.
Lemma build_bound srt f m : sorts_by_size srt -> BuildMph f srt words = Ret m -> forall F, P * (n + 1) <= Z.of_nat F -> BuildMph F srt words = Ret m.
Proof.
  intros Hs E F HF. unfold BuildMph in *. rewrite fill_all in * by exact Hn. cbn [bind] in *. rewrite size_eq in * by exact Hn.
  match type of E with bind ?x _ = _ => destruct x as [[[aux vals] rest]| | |] eqn:E1 end; cbn [bind] in E; try discriminate.
  rewrite (place_big_bound f _ _ _ _ ltac:(unfold zlen; rewrite map_length; reflexivity) ltac:(apply Forall_forall; intros B HB; exact (bucket_le srt B Hs HB)) E1 F HF).
  cbn [bind]. exact E.
Qed.
End Wait.

(** The construction ends within 2^32 (n + 1) steps of search per bucket, always with the same
    table, or it never ends. *)
Theorem C55_wait_or_never : forall (words : list bytes) srt fuel m, sorts_by_size srt -> 1 <= zlen words < 2 ^ 32 ->
  BuildMph fuel srt words = Ret m ->
  forall fuel', 2 ^ 32 * (zlen words + 1) <= Z.of_nat fuel' -> BuildMph fuel' srt words = Ret m.
Proof.
  intros words srt fuel m Hs Hn E fuel' HF. apply (build_bound words Hn (2 ^ 32 - 1) ltac:(lia) ltac:(lia)) with (f := fuel); [|exact Hs|exact E|nia].
  intros d Hd. destruct (Z.eq_dec d 0) as [->|Hz].
  - exists 2166136261. split; [lia|]. intros i. reflexivity.
  - exists d. split; [lia|reflexivity].
Qed.
Print Assumptions C55_wait_or_never.
(** Dictionaries of [2 ^ k] words: within 4^k + 2^k steps, or never. *)
Theorem C55_wait_or_never_powers : forall (words : list bytes) srt k fuel m, sorts_by_size srt -> 0 <= k < 32 -> zlen words = 2 ^ k ->
  BuildMph fuel srt words = Ret m ->
  forall fuel', 4 ^ k + 2 ^ k <= Z.of_nat fuel' -> BuildMph fuel' srt words = Ret m.
Proof.
  intros words srt k fuel m Hs Hk Hn E fuel' HF. pose proof (Z.pow_pos_nonneg 2 k ltac:(lia) ltac:(lia)) as Hpos.
  assert (2 ^ k < 2 ^ 32) as Hlt by (apply Z.pow_lt_mono_r; lia).
  assert (4 ^ k = 2 ^ k * 2 ^ k) as E4 by (rewrite <- Z.pow_mul_l; reflexivity).
  assert (1 <= zlen words < 2 ^ 32) as Hn1 by (rewrite Hn; lia).
  apply (build_bound words Hn1 (2 ^ k) ltac:(lia) ltac:(lia)) with (f := fuel); [|exact Hs|exact E|nia].
  intros d Hd. assert (forall x, 1 <= x -> exists d', 1 <= d' <= 2 ^ k /\ d' mod 2 ^ k = x mod 2 ^ k) as Hr.
  { intros x Hx. destruct (Z.eq_dec (x mod 2 ^ k) 0) as [Ez|Ez].
    - exists (2 ^ k). split; [lia|]. rewrite Z.mod_same by lia. congruence.
    - exists (x mod 2 ^ k). pose proof (Z.mod_pos_bound x (2 ^ k) ltac:(lia)). split; [lia|]. apply Z.mod_mod. lia. }
  destruct (Hr (seed d)) as (d' & Hd' & Em); [unfold seed; destruct (d =? 0) eqn:E0; lia|]. exists d'. split; [exact Hd'|].
  intros i. unfold slot_of. rewrite Hn. apply hash_mod; [lia|induction (word words i); constructor; auto|]. rewrite <- Em. unfold seed. destruct (d' =? 0) eqn:E0; [lia|reflexivity].
Qed.
Print Assumptions C55_wait_or_never_powers.
(** So a run of a few steps settles the matter: eight ordinary words, no two of them congruent
    letter by letter, whose construction never ends, and eight whose construction does. *)
Definition colours : list bytes := map bs ["red"; "black"; "sand"; "white"; "green"; "navy"; "cyan"; "grey"]%string.
Example C55_colours_refuted : NoDup colours /\ forall fuel m, BuildMph fuel sort_big colours <> Ret m.
Proof.
  split.
  - match goal with |- NoDup ?t => let v := eval vm_compute in t in change t with v end. repeat apply NoDup_cons; try apply NoDup_nil; cbn; intuition discriminate.
  - intros fuel m E. assert (BuildMph 72 sort_big colours = NoFuel) as H by (vm_compute; reflexivity).
    pose proof (C55_wait_or_never_powers colours sort_big 3 fuel m sort_big_ok ltac:(lia) eq_refl E 72 ltac:(cbn; lia)) as H'. congruence.
Qed.
Definition colours' : list bytes := map bs ["blue"; "lime"; "red"; "green"; "grey"; "plum"; "navy"; "gold"]%string.
Example C55_wait_nonvacuous : sorts_by_size sort_big /\ zlen colours' = 2 ^ 3 /\ (exists m, BuildMph 72 sort_big colours' = Ret m)
  /\ exists B, In B (buckets_of colours' 8) /\ 2 <= zlen B.
Proof.
  split; [exact sort_big_ok|]. split; [reflexivity|]. split; [eexists; vm_compute; reflexivity|].
  destruct (List.find (fun B => 2 <=? zlen B) (buckets_of colours' 8)) as [B|] eqn:E; [|vm_compute in E; discriminate].
  apply find_some in E. exists B. split; [tauto|lia].
Qed.
