From Coq Require Import ZifyBool.
From Verif Require Import Base BaseLemmas GoMap Text AnalysisSpec.
Local Open Scope Z_scope.
Ltac Zify.zify_post_hook ::= Z.div_mod_to_equations.

Ltac dmatch := match goal with |- context [match ?x with _ => _ end] => lazymatch x with context [match _ with _ => _ end] => fail | _ => destruct x eqn:? end end.
Lemma decode_width s : s <> [] -> (1 <= snd (decode_rune s) <= length s)%nat.
Proof.
  intros H. unfold decode_rune. destruct s as [|a s]; [congruence|].
  repeat (dmatch; try (cbn [snd length]; lia)).
Qed.
Lemma runes_fuel_concat fuel : forall s, (length s <= fuel)%nat -> concat (map snd (runes_fuel fuel s)) = s.
Proof.
  induction fuel as [|fuel IH]; intros [|a s] H; cbn [runes_fuel]; try reflexivity; [cbn in H; lia|].
  pose proof (decode_width (a :: s) ltac:(discriminate)) as Hw. destruct (decode_rune (a :: s)) as [r w] eqn:E. cbn [snd] in Hw.
  cbn [map concat snd]. rewrite IH; [apply firstn_skipn|]. rewrite skipn_length. cbn [length] in *. lia.
Qed.
Lemma runes_concat s : concat (map snd (runes s)) = s.
Proof. apply runes_fuel_concat. lia. Qed.
Lemma chars_concat s : concat (chars s) = s.
Proof. apply runes_concat. Qed.
Lemma runes_fuel_more f1 : forall f2 s, (length s <= f1)%nat -> (length s <= f2)%nat -> runes_fuel f1 s = runes_fuel f2 s.
Proof.
  induction f1 as [|f1 IH]; intros [|f2] [|a s] H1 H2; cbn [runes_fuel length] in *; try reflexivity; try lia.
  pose proof (decode_width (a :: s) ltac:(discriminate)) as Hw. destruct (decode_rune (a :: s)) as [r w] eqn:E. cbn [snd] in Hw.
  f_equal. apply IH; rewrite skipn_length; cbn [length] in *; lia.
Qed.
Lemma runes_cons s : s <> [] -> runes s = (fst (decode_rune s), firstn (snd (decode_rune s)) s) :: runes (skipn (snd (decode_rune s)) s).
Proof.
  intros Hne. unfold runes at 1. destruct s as [|a s]; [congruence|]. cbn [length runes_fuel].
  pose proof (decode_width (a :: s) ltac:(discriminate)) as Hw. destruct (decode_rune (a :: s)) as [r w] eqn:E. cbn [fst snd] in *.
  f_equal. apply runes_fuel_more; rewrite skipn_length; cbn [length] in *; lia.
Qed.
Lemma runes_nil : runes [] = []. Proof. reflexivity. Qed.
Lemma runes_ind (P : bytes -> Prop) : P [] -> (forall s, s <> [] -> P (skipn (snd (decode_rune s)) s) -> P s) -> forall s, P s.
Proof.
  intros H0 HS s. remember (length s) as n eqn:En. assert (length s <= n)%nat as Hn by lia. clear En. revert s Hn.
  induction n as [|n IH]; intros s Hn.
  - destruct s; [exact H0|cbn in Hn; lia].
  - destruct s as [|a s]; [exact H0|]. apply HS; [discriminate|]. apply IH.
    pose proof (decode_width (a :: s) ltac:(discriminate)). rewrite skipn_length. lia.
Qed.
Lemma chars_nonempty s : Forall (fun c => c <> []) (chars s).
Proof.
  induction s as [|s Hne IH] using runes_ind; [constructor|]. unfold chars. rewrite (runes_cons s Hne). cbn [map snd]. constructor; [|exact IH].
  pose proof (decode_width s Hne). intros E. apply (f_equal (@length _)) in E. rewrite firstn_length in E. cbn in E. lia.
Qed.
Lemma chars_length_le s : (length (chars s) <= length s)%nat.
Proof.
  rewrite <- (chars_concat s) at 2. pose proof (chars_nonempty s) as H. induction H as [|c cs Hc H IH]; cbn; [lia|].
  rewrite app_length. destruct c; [congruence|]. cbn. lia.
Qed.

(** valid characters *)
Definition good (rb : Z * bytes) : Prop := ~ (fst rb = RuneError /\ length (snd rb) = 1%nat).
Lemma land_hi_lo x y k : 0 <= k -> 0 <= y < 2 ^ k -> Z.land (x * 2 ^ k) y = 0.
Proof.
  intros Hk Hy. apply Z.bits_inj'. intros n Hn. rewrite Z.land_spec, Z.bits_0.
  destruct (Z.lt_ge_cases n k) as [H|H].
  - rewrite Z.mul_pow2_bits_low by lia. reflexivity.
  - rewrite <- (Z.mod_small y (2 ^ k)) by lia. rewrite Z.mod_pow2_bits_high by lia. apply andb_false_r.
Qed.
Lemma lor_hi_lo x y k : 0 <= k -> 0 <= y < 2 ^ k -> Z.lor (x * 2 ^ k) y = x * 2 ^ k + y.
Proof.
  intros Hk Hy. rewrite <- Z.lxor_lor by (apply land_hi_lo; assumption). symmetry. apply Z.add_nocarry_lxor. apply land_hi_lo; assumption.
Qed.
Lemma land_mod x k : 0 <= k -> Z.land x (Z.ones k) = x mod 2 ^ k.
Proof. intros H. apply Z.land_ones. exact H. Qed.
Lemma c6_mod x : c6 x = x mod 64. Proof. unfold c6. change 63 with (Z.ones 6). apply land_mod. lia. Qed.
Lemma land31 x : Z.land x 31 = x mod 32. Proof. change 31 with (Z.ones 5). apply (land_mod x 5). lia. Qed.
Lemma land15 x : Z.land x 15 = x mod 16. Proof. change 15 with (Z.ones 4). apply (land_mod x 4). lia. Qed.
Lemma land7 x : Z.land x 7 = x mod 8. Proof. change 7 with (Z.ones 3). apply (land_mod x 3). lia. Qed.
Lemma lor64 x y : 0 <= y < 64 -> Z.lor (Z.shiftl x 6) y = x * 64 + y.
Proof. intros. rewrite Z.shiftl_mul_pow2 by lia. apply (lor_hi_lo x y 6); [lia|exact H]. Qed.
Lemma lor4096 x y : 0 <= y < 4096 -> Z.lor (Z.shiftl x 12) y = x * 4096 + y.
Proof. intros. rewrite Z.shiftl_mul_pow2 by lia. apply (lor_hi_lo x y 12); [lia|exact H]. Qed.
Lemma lor262144 x y : 0 <= y < 262144 -> Z.lor (Z.shiftl x 18) y = x * 262144 + y.
Proof. intros. rewrite Z.shiftl_mul_pow2 by lia. apply (lor_hi_lo x y 18); [lia|exact H]. Qed.
Lemma lor128t y : 0 <= y < 64 -> Z.lor 128 y = 128 + y. Proof. intros. apply (lor_hi_lo 2 y 6); [lia|exact H]. Qed.
Lemma lor192 y : 0 <= y < 64 -> Z.lor 192 y = 192 + y. Proof. intros. apply (lor_hi_lo 3 y 6); [lia|exact H]. Qed.
Lemma lor224 y : 0 <= y < 16 -> Z.lor 224 y = 224 + y. Proof. intros. apply (lor_hi_lo 14 y 4); [lia|exact H]. Qed.
Lemma lor240 y : 0 <= y < 16 -> Z.lor 240 y = 240 + y. Proof. intros. apply (lor_hi_lo 15 y 4); [lia|exact H]. Qed.
Lemma shr6 x : Z.shiftr x 6 = x / 64. Proof. rewrite Z.shiftr_div_pow2 by lia. reflexivity. Qed.
Lemma shr12 x : Z.shiftr x 12 = x / 4096. Proof. rewrite Z.shiftr_div_pow2 by lia. reflexivity. Qed.
Lemma shr18 x : Z.shiftr x 18 = x / 262144. Proof. rewrite Z.shiftr_div_pow2 by lia. reflexivity. Qed.

(* the four shapes of a decoded character *)
Inductive shape (s : bytes) : Z * nat -> Prop :=
| sh_bad : shape s (RuneError, 1%nat)
| sh1 a t : s = a :: t -> a < 128 -> shape s (a, 1%nat)
| sh2 a b t : s = a :: b :: t -> 194 <= a < 224 -> 128 <= b < 192 -> shape s (a mod 32 * 64 + b mod 64, 2%nat)
| sh3 a b c t : s = a :: b :: c :: t -> 224 <= a < 240 -> (if a =? 224 then 160 else 128) <= b <= (if a =? 237 then 159 else 191) -> 128 <= c < 192 ->
    shape s (a mod 16 * 4096 + b mod 64 * 64 + c mod 64, 3%nat)
| sh4 a b c d t : s = a :: b :: c :: d :: t -> 240 <= a < 245 -> (if a =? 240 then 144 else 128) <= b <= (if a =? 244 then 143 else 191) -> 128 <= c < 192 -> 128 <= d < 192 ->
    shape s (a mod 8 * 262144 + b mod 64 * 4096 + c mod 64 * 64 + d mod 64, 4%nat).
Lemma decode_shape s : s <> [] -> shape s (decode_rune s).
Proof.
  intros Hne. destruct s as [|a s]; [congruence|]. unfold decode_rune.
  destruct (a <? 128) eqn:E1; [eapply sh1; [reflexivity|lia]|].
  destruct (a <? 194) eqn:E2; [apply sh_bad|].
  destruct (a <? 224) eqn:E3.
  { destruct s as [|b s]; [apply sh_bad|]. destruct (cont 128 191 b) eqn:Eb; [|apply sh_bad]. unfold cont in Eb.
    rewrite land31, c6_mod, lor64 by lia. eapply sh2; [reflexivity|lia|lia]. }
  destruct (a <? 240) eqn:E4.
  { destruct s as [|b [|c s]]; [apply sh_bad|apply sh_bad|]. destruct (cont _ _ b && cont _ _ c) eqn:Eb; [|apply sh_bad]. unfold cont in Eb.
    rewrite land15, !c6_mod. rewrite (lor64 (b mod 64)) by lia. rewrite lor4096 by lia. rewrite Z.add_assoc. eapply sh3; [reflexivity|lia|lia|lia]. }
  destruct (a <? 245) eqn:E5; [|apply sh_bad].
  destruct s as [|b [|c [|d s]]]; [apply sh_bad|apply sh_bad|apply sh_bad|]. destruct (cont _ _ b && cont _ _ c && cont _ _ d) eqn:Eb; [|apply sh_bad]. unfold cont in Eb.
  rewrite land7, !c6_mod. rewrite (lor64 (c mod 64)) by lia. rewrite (lor4096 (b mod 64)) by lia. rewrite lor262144 by lia. rewrite !Z.add_assoc.
  eapply sh4; [reflexivity|lia|lia|lia|lia].
Qed.
(* stored bytes *)
Lemma decode_good s : Forall is_byte s -> s <> [] -> let '(r, w) := decode_rune s in
  (r = RuneError /\ w = 1%nat) \/ (encode_rune r = firstn w s /\ RuneLen r = Z.of_nat w).
Proof.
  intros Hb Hne. pose proof (decode_shape s Hne) as H. destruct H as [|a t E Ha|a b t E Ha Hb1|a b c t E Ha Hb1 Hc|a b c d t E Ha Hb1 Hc Hd]; [left; auto|right..]; subst s.
  - apply Forall_inv in Hb. unfold is_byte in Hb. unfold encode_rune, valid_rune, RuneLen.
    replace ((0 <=? a) && (a <? 55296) || (57343 <? a) && (a <=? 1114111)) with true by lia.
    replace (a <? 128) with true by lia. replace (a <? 0) with false by lia. auto.
  - set (r := a mod 32 * 64 + b mod 64). assert (128 <= r < 2048) as Hr by (unfold r; lia). unfold encode_rune, valid_rune, RuneLen.
    replace ((0 <=? r) && (r <? 55296) || (57343 <? r) && (r <=? 1114111)) with true by lia.
    replace (r <? 128) with false by lia. replace (r <? 2048) with true by lia. replace (r <? 0) with false by lia.
    split; [|reflexivity]. rewrite shr6, c6_mod. rewrite lor192, lor128t by lia. cbn [firstn]. unfold r. f_equal; [lia|]. f_equal. lia.
  - set (r := a mod 16 * 4096 + b mod 64 * 64 + c mod 64).
    assert (2048 <= r < 65536 /\ ~ 55296 <= r <= 57343) as Hr.
    { unfold r. destruct (Z.eqb_spec a 224); destruct (Z.eqb_spec a 237); try lia. }
    unfold encode_rune, valid_rune, RuneLen.
    replace ((0 <=? r) && (r <? 55296) || (57343 <? r) && (r <=? 1114111)) with true by lia.
    replace (r <? 128) with false by lia. replace (r <? 2048) with false by lia. replace (r <? 65536) with true by lia. replace (r <? 0) with false by lia.
    replace ((55296 <=? r) && (r <=? 57343)) with false by lia.
    split; [|reflexivity]. rewrite shr12, shr6, !c6_mod. rewrite lor224, !lor128t by lia. cbn [firstn]. unfold r.
    destruct (Z.eqb_spec a 224); destruct (Z.eqb_spec a 237); try lia; f_equal; try lia; f_equal; try lia; f_equal; lia.
  - set (r := a mod 8 * 262144 + b mod 64 * 4096 + c mod 64 * 64 + d mod 64).
    assert (65536 <= r <= 1114111) as Hr.
    { unfold r. destruct (Z.eqb_spec a 240); destruct (Z.eqb_spec a 244); try lia. }
    unfold encode_rune, valid_rune, RuneLen.
    replace ((0 <=? r) && (r <? 55296) || (57343 <? r) && (r <=? 1114111)) with true by lia.
    replace (r <? 128) with false by lia. replace (r <? 2048) with false by lia. replace (r <? 65536) with false by lia. replace (r <? 0) with false by lia.
    replace ((55296 <=? r) && (r <=? 57343)) with false by lia. replace (r <=? 1114111) with true by lia.
    split; [|reflexivity]. rewrite shr18, shr12, shr6, !c6_mod. rewrite lor240, !lor128t by lia. cbn [firstn]. unfold r.
    destruct (Z.eqb_spec a 240); destruct (Z.eqb_spec a 244); try lia; f_equal; try lia; f_equal; try lia; f_equal; try lia; f_equal; lia.
Qed.
