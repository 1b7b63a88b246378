(** Lemmas about Base: wraps, bit operations, lists. *)
From Verif Require Import Base.
Local Open Scope Z_scope.

Lemma wrap32_small x : 0 <= x < 2 ^ 32 -> wrap32 x = x.
Proof. intros; unfold wrap32; apply Z.mod_small; lia. Qed.
Lemma wrap16_small x : 0 <= x < 2 ^ 16 -> wrap16 x = x.
Proof. intros; unfold wrap16; apply Z.mod_small; lia. Qed.
Lemma wrap8_small x : 0 <= x < 2 ^ 8 -> wrap8 x = x.
Proof. intros; unfold wrap8; apply Z.mod_small; lia. Qed.
Lemma wrap32_range x : 0 <= wrap32 x < 2 ^ 32.
Proof. unfold wrap32; apply Z.mod_pos_bound; lia. Qed.
Lemma wrap8_range x : 0 <= wrap8 x < 2 ^ 8.
Proof. unfold wrap8; apply Z.mod_pos_bound; lia. Qed.
Lemma wrap16_range x : 0 <= wrap16 x < 2 ^ 16.
Proof. unfold wrap16; apply Z.mod_pos_bound; lia. Qed.
Lemma wrapi64_small x : - 2 ^ 63 <= x < 2 ^ 63 -> wrapi64 x = x.
Proof. intros; unfold wrapi64; rewrite Z.mod_small; lia. Qed.

Lemma wrap32_add_l a b : wrap32 (wrap32 a + b) = wrap32 (a + b).
Proof. unfold wrap32; rewrite Zplus_mod_idemp_l; reflexivity. Qed.
Lemma wrap32_add_r a b : wrap32 (a + wrap32 b) = wrap32 (a + b).
Proof. unfold wrap32; rewrite Zplus_mod_idemp_r; reflexivity. Qed.
Lemma wrap32_sub_l a b : wrap32 (wrap32 a - b) = wrap32 (a - b).
Proof. unfold wrap32; rewrite Zminus_mod_idemp_l; reflexivity. Qed.

(** disjoint [lor] is addition *)
Lemma lor_add a b s : 0 <= s -> 0 <= a < 2 ^ s -> 0 <= b ->
  Z.lor a (Z.shiftl b s) = a + b * 2 ^ s.
Proof.
  intros Hs Ha Hb.
  rewrite <- Z.shiftl_mul_pow2 by lia.
  assert (Z.land a (Z.shiftl b s) = 0) as H0.
  { apply Z.bits_inj'; intros n Hn; rewrite Z.land_spec, Z.bits_0.
    destruct (Z.lt_ge_cases n s).
    - rewrite Z.shiftl_spec_low by lia; apply andb_false_r.
    - assert (a = a mod 2 ^ s) as -> by (symmetry; apply Z.mod_small; lia).
      rewrite Z.mod_pow2_bits_high by lia; reflexivity. }
  rewrite Z.add_nocarry_lxor by exact H0. symmetry. apply Z.lxor_lor. exact H0.
Qed.

Lemma land127 b : Z.land b 127 = b mod 128.
Proof. change 127 with (Z.ones 7). rewrite Z.land_ones by lia. reflexivity. Qed.

Lemma land_pow2_0 b n : 0 <= n -> Z.land b (2 ^ n) = if Z.testbit b n then 2 ^ n else 0.
Proof.
  intros Hn. apply Z.bits_inj'; intros k Hk.
  rewrite Z.land_spec, Z.pow2_bits_eqb by lia.
  destruct (Z.eqb_spec n k) as [->|Hne].
  - destruct (Z.testbit b k) eqn:E; simpl.
    + rewrite Z.pow2_bits_true by lia; reflexivity.
    + rewrite Z.bits_0; reflexivity.
  - rewrite andb_false_r.
    destruct (Z.testbit b n); [rewrite Z.pow2_bits_false by lia|rewrite Z.bits_0]; reflexivity.
Qed.

Lemma land128 b : 0 <= b < 256 -> (Z.land b 128 =? 0) = (b <? 128).
Proof.
  intros Hb. change 128 with (2 ^ 7) at 1. rewrite land_pow2_0 by lia.
  rewrite Z.testbit_odd, Z.shiftr_div_pow2 by lia. change (2 ^ 7) with 128.
  destruct (Z.ltb_spec b 128) as [H|H].
  - rewrite Z.div_small by lia. reflexivity.
  - replace (b / 128) with 1. reflexivity.
    apply Z.div_unique with (b - 128); lia.
Qed.

Lemma lor128 a : 0 <= a < 128 -> Z.lor 128 a = 128 + a.
Proof.
  intros. rewrite Z.lor_comm. change 128 with (Z.shiftl 1 7) at 1.
  rewrite lor_add; lia.
Qed.

Lemma zlen_nonneg {A} (l : list A) : 0 <= zlen l.
Proof. unfold zlen; lia. Qed.
Lemma zlen_app {A} (l m : list A) : zlen (l ++ m) = zlen l + zlen m.
Proof. unfold zlen; rewrite app_length; lia. Qed.
Lemma zlen_cons {A} (x : A) l : zlen (x :: l) = 1 + zlen l.
Proof. unfold zlen; cbn [List.length]; lia. Qed.
Lemma zlen_nil {A} : zlen (@nil A) = 0.
Proof. reflexivity. Qed.

Lemma index_app_r {A} (p l : list A) k : 0 <= k ->
  index (p ++ l) (zlen p + k) = index l k.
Proof.
  intros Hk. unfold index. rewrite zlen_app.
  pose proof (zlen_nonneg p).
  destruct (Z.ltb_spec k (zlen l)).
  - replace (0 <=? zlen p + k) with true by (symmetry; apply Z.leb_le; lia).
    replace (0 <=? k) with true by (symmetry; apply Z.leb_le; lia).
    replace (zlen p + k <? zlen p + zlen l) with true by (symmetry; apply Z.ltb_lt; lia).
    cbn. rewrite nth_error_app2 by (unfold zlen in *; lia).
    replace (Z.to_nat (zlen p + k) - length p)%nat with (Z.to_nat k)
      by (unfold zlen in *; lia). reflexivity.
  - replace (zlen p + k <? zlen p + zlen l) with false by (symmetry; apply Z.ltb_ge; lia).
    rewrite !andb_false_r. reflexivity.
Qed.
Lemma index_app_0 {A} (p : list A) x l : index (p ++ x :: l) (zlen p) = Ret x.
Proof.
  replace (zlen p) with (zlen p + 0) by lia. rewrite index_app_r by lia. reflexivity.
Qed.
Lemma index_cons_S {A} (x : A) l k : 0 <= k -> index (x :: l) (1 + k) = index l k.
Proof. intros. apply (index_app_r [x] l k); lia. Qed.
Lemma index_nth {A} (l : list A) i d : 0 <= i < zlen l -> index l i = Ret (nth (Z.to_nat i) l d).
Proof.
  intros H. unfold index.
  replace (0 <=? i) with true by (symmetry; apply Z.leb_le; lia).
  replace (i <? zlen l) with true by (symmetry; apply Z.ltb_lt; lia). cbn.
  rewrite (nth_error_nth' l d) by (unfold zlen in *; lia). reflexivity.
Qed.
Lemma index_out {A} (l : list A) i : i < 0 \/ zlen l <= i -> index l i = Panic.
Proof.
  intros [H|H]; unfold index.
  - replace (0 <=? i) with false by (symmetry; apply Z.leb_gt; lia). reflexivity.
  - replace (i <? zlen l) with false by (symmetry; apply Z.ltb_ge; lia).
    rewrite andb_false_r. reflexivity.
Qed.

Lemma slice_app {A} (p l s : list A) :
  slice (p ++ l ++ s) (zlen p) (zlen p + zlen l) = Ret l.
Proof.
  unfold slice. rewrite !zlen_app.
  pose proof (zlen_nonneg p); pose proof (zlen_nonneg l); pose proof (zlen_nonneg s).
  replace (0 <=? zlen p) with true by (symmetry; apply Z.leb_le; lia).
  replace (zlen p <=? zlen p + zlen l) with true by (symmetry; apply Z.leb_le; lia).
  replace (zlen p + zlen l <=? zlen p + (zlen l + zlen s)) with true by (symmetry; apply Z.leb_le; lia).
  cbn. f_equal. unfold zlen.
  replace (Z.to_nat (Z.of_nat (length p) + Z.of_nat (length l) - Z.of_nat (length p))) with (length l) by lia.
  rewrite Nat2Z.id, skipn_app, skipn_all, Nat.sub_diag. cbn.
  rewrite firstn_app, firstn_all, Nat.sub_diag. cbn. apply app_nil_r.
Qed.
Lemma slice_app_tail {A} (p l : list A) :
  slice (p ++ l) (zlen p) (zlen (p ++ l)) = Ret l.
Proof.
  rewrite <- (app_nil_r l) at 1. rewrite zlen_app. apply slice_app.
Qed.

Lemma Forall_skipn {A} (P : A -> Prop) n l : Forall P l -> Forall P (skipn n l).
Proof. revert n; induction l; intros [|n] H; cbn; auto. inversion H; auto. Qed.
Lemma Forall_firstn {A} (P : A -> Prop) n l : Forall P l -> Forall P (firstn n l).
Proof. revert n; induction l; intros [|n] H; cbn; auto. inversion H; auto. Qed.
