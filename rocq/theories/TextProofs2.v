(** Encoding and decoding are inverse; strings made of encoded runes. *)
From Coq Require Import ZifyBool.
From Verif Require Import Base BaseLemmas GoMap Text AnalysisSpec TextProofs.
Local Open Scope Z_scope.
Ltac Zify.zify_post_hook ::= Z.div_mod_to_equations.

Definition vr (r : Z) : Z := if valid_rune r then r else RuneError.
Lemma vr_valid r : valid_rune (vr r) = true.
Proof. unfold vr. destruct (valid_rune r) eqn:E; [exact E|reflexivity]. Qed.
Lemma encode_vr r : encode_rune (vr r) = encode_rune r.
Proof. unfold encode_rune. rewrite (vr_valid r). unfold vr. reflexivity. Qed.
Lemma vr_vr r : vr (vr r) = vr r.
Proof. unfold vr at 1. rewrite vr_valid. reflexivity. Qed.

Lemma decode_encode_valid r s : valid_rune r = true -> decode_rune (encode_rune r ++ s) = (r, length (encode_rune r)).
Proof.
  intros Hv. unfold encode_rune. rewrite Hv. unfold valid_rune in Hv.
  destruct (r <? 128) eqn:E1; [cbn [app decode_rune]; rewrite E1; reflexivity|].
  destruct (r <? 2048) eqn:E2.
  { rewrite shr6, c6_mod, lor192, lor128t by lia. cbn [app length]. unfold decode_rune.
    replace (192 + r / 64 <? 128) with false by lia. replace (192 + r / 64 <? 194) with false by lia. replace (192 + r / 64 <? 224) with true by lia.
    unfold cont. replace ((128 <=? 128 + r mod 64) && (128 + r mod 64 <=? 191)) with true by lia.
    rewrite land31, c6_mod, lor64 by lia. f_equal. lia. }
  destruct (r <? 65536) eqn:E3.
  { rewrite shr12, shr6, !c6_mod, lor224, !lor128t by lia. cbn [app length]. unfold decode_rune.
    replace (224 + r / 4096 <? 128) with false by lia. replace (224 + r / 4096 <? 194) with false by lia. replace (224 + r / 4096 <? 224) with false by lia.
    replace (224 + r / 4096 <? 240) with true by lia. unfold cont.
    match goal with |- context [if ?c then _ else (RuneError, _)] => replace c with true end.
    2:{ destruct (Z.eqb_spec (224 + r / 4096) 224); destruct (Z.eqb_spec (224 + r / 4096) 237); lia. }
    rewrite land15, !c6_mod. rewrite (lor64 ((128 + r / 64 mod 64) mod 64)) by lia. rewrite lor4096 by lia. f_equal. lia. }
  rewrite shr18, shr12, shr6, !c6_mod, lor240, !lor128t by lia. cbn [app length]. unfold decode_rune.
  replace (240 + r / 262144 <? 128) with false by lia. replace (240 + r / 262144 <? 194) with false by lia. replace (240 + r / 262144 <? 224) with false by lia.
  replace (240 + r / 262144 <? 240) with false by lia. replace (240 + r / 262144 <? 245) with true by lia. unfold cont.
  match goal with |- context [if ?c then _ else (RuneError, _)] => replace c with true end.
  2:{ destruct (Z.eqb_spec (240 + r / 262144) 240); destruct (Z.eqb_spec (240 + r / 262144) 244); lia. }
  rewrite land7, !c6_mod. rewrite (lor64 ((128 + r / 64 mod 64) mod 64)) by lia. rewrite (lor4096 ((128 + r / 4096 mod 64) mod 64)) by lia. rewrite lor262144 by lia. f_equal. lia.
Qed.
Lemma decode_encode r s : decode_rune (encode_rune r ++ s) = (vr r, length (encode_rune r)).
Proof. rewrite <- encode_vr. apply decode_encode_valid. apply vr_valid. Qed.
Lemma encode_nonempty r : encode_rune r <> [].
Proof. unfold encode_rune. repeat destruct (_ <? _); discriminate. Qed.
Lemma runes_encode r s : runes (encode_rune r ++ s) = (vr r, encode_rune r) :: runes s.
Proof.
  rewrite runes_cons. 2:{ pose proof (encode_nonempty r). destruct (encode_rune r); [congruence|discriminate]. }
  rewrite decode_encode. cbn [fst snd]. rewrite firstn_app, skipn_app, Nat.sub_diag, firstn_all, skipn_all2 by lia. cbn [firstn skipn app].
  rewrite app_nil_r. reflexivity.
Qed.
Definition enc (l : list Z) : bytes := concat (map encode_rune l).
Lemma enc_app a b : enc (a ++ b) = enc a ++ enc b.
Proof. unfold enc. rewrite map_app, concat_app. reflexivity. Qed.
Lemma runes_enc l : runes (enc l) = map (fun r => (vr r, encode_rune r)) l.
Proof. induction l as [|r l IH]; [reflexivity|]. unfold enc in *. cbn [map concat]. rewrite runes_encode, IH. reflexivity. Qed.
Lemma chars_enc l : chars (enc l) = map encode_rune l.
Proof. unfold chars. rewrite runes_enc, map_map. reflexivity. Qed.
Lemma encode_error_length r : vr r = RuneError -> length (encode_rune r) = 3%nat.
Proof. intros H. rewrite <- encode_vr, H. reflexivity. Qed.
Lemma well_formed_enc l : well_formed (enc l).
Proof.
  unfold well_formed. rewrite runes_enc. apply Forall_forall. intros x Hx. apply in_map_iff in Hx. destruct Hx as (r & <- & _). cbn [fst snd].
  intros (E & L). rewrite (encode_error_length r E) in L. discriminate.
Qed.
Lemma ToLower_enc lowr s : ToLower lowr s = enc (map (fun rb => lowr (fst rb)) (runes s)).
Proof. unfold ToLower, enc. rewrite map_map. reflexivity. Qed.

(** decoding a prefix that is valid *)
Ltac dhyp H := match type of H with context [match ?x with _ => _ end] => lazymatch x with context [match _ with _ => _ end] => fail | _ => destruct x eqn:? end end.
Lemma decode_app s t : s <> [] -> decode_rune s <> (RuneError, 1%nat) -> decode_rune (s ++ t) = decode_rune s.
Proof.
  intros Hne. destruct s as [|a s]; [congruence|]. cbn [app]. unfold decode_rune.
  destruct (a <? 128); [reflexivity|]. destruct (a <? 194); [congruence|]. destruct (a <? 224).
  { destruct s as [|b s]; [congruence|]. reflexivity. }
  destruct (a <? 240).
  { destruct s as [|b [|c s]]; try congruence. reflexivity. }
  destruct (a <? 245); [|congruence].
  destruct s as [|b [|c [|d s]]]; try congruence. reflexivity.
Qed.
Lemma well_formed_nil : well_formed []. Proof. constructor. Qed.
Lemma well_formed_inv s : s <> [] -> well_formed s -> decode_rune s <> (RuneError, 1%nat) /\ well_formed (skipn (snd (decode_rune s)) s).
Proof.
  intros Hne H. unfold well_formed in *. rewrite (runes_cons s Hne) in H. split; [|exact (Forall_inv_tail H)].
  apply Forall_inv in H. cbn [fst snd] in H. intros E. apply H. rewrite E. cbn [fst snd]. split; [reflexivity|].
  destruct s; [congruence|]. reflexivity.
Qed.
Lemma runes_app s t : well_formed s -> runes (s ++ t) = runes s ++ runes t.
Proof.
  induction s as [|s Hne IH] using runes_ind; intros Hw; [reflexivity|].
  destruct (well_formed_inv s Hne Hw) as [Hd Hw']. rewrite runes_cons by (destruct s; [congruence|discriminate]).
  rewrite (decode_app s t Hne Hd). rewrite (runes_cons s Hne). pose proof (decode_width s Hne) as Hlen.
  rewrite firstn_app, skipn_app. replace (snd (decode_rune s) - length s)%nat with 0%nat by lia. cbn [firstn skipn]. rewrite app_nil_r.
  cbn [app]. f_equal. apply IH. exact Hw'.
Qed.
Lemma well_formed_app s t : well_formed s -> well_formed t -> well_formed (s ++ t).
Proof. intros H1 H2. unfold well_formed. rewrite runes_app by exact H1. apply Forall_app. split; assumption. Qed.
Lemma ToLower_app lowr s t : well_formed s -> ToLower lowr (s ++ t) = ToLower lowr s ++ ToLower lowr t.
Proof. intros H. unfold ToLower. rewrite runes_app by exact H. rewrite map_app, concat_app. reflexivity. Qed.

(** Trim on encoded runes *)
Fixpoint ltrim (l : list Z) : list Z := match l with [] => [] | r :: l' => if vr r =? 32 then ltrim l' else l end.
Definition rtrim (l : list Z) : list Z := rev (ltrim (rev l)).
Definition no_space_first (s : bytes) : Prop := match s with a :: _ => a <> 32 | [] => True end.
Lemma trim_left_id s : no_space_first s -> trim_left s = s.
Proof. destruct s as [|a s]; [reflexivity|]. cbn [no_space_first]. intros H. unfold trim_left. destruct a as [|p|p]; try reflexivity. do 6 (destruct p as [p|p|]; try reflexivity). congruence. Qed.
Lemma trim_left_space s : trim_left (32 :: s) = trim_left s. Proof. reflexivity. Qed.
Lemma trim_left_suffix s : exists k, s = repeat 32 k ++ trim_left s /\ no_space_first (trim_left s).
Proof.
  induction s as [|a s IH]; [exists 0%nat; split; [reflexivity|exact I]|].
  destruct (Z.eq_dec a 32) as [->|Hne].
  - rewrite trim_left_space. destruct IH as (k & E & Hn). exists (S k). cbn [repeat app]. split; [congruence|exact Hn].
  - exists 0%nat. rewrite (trim_left_id (a :: s)) by exact Hne. split; [reflexivity|exact Hne].
Qed.
Lemma trim_left_repeat k s : no_space_first s -> trim_left (repeat 32 k ++ s) = s.
Proof. intros H. induction k as [|k IH]; [apply trim_left_id; exact H|exact IH]. Qed.
Lemma encode_ends r : vr r <> 32 -> forall s, no_space_first (encode_rune r ++ s) /\ no_space_first (rev (encode_rune r) ++ s).
Proof.
  intros H s. rewrite <- encode_vr. pose proof (vr_valid r) as Hv. set (x := vr r) in *. clearbody x. unfold encode_rune. rewrite Hv. unfold valid_rune in Hv.
  destruct (x <? 128) eqn:E1; [cbn; auto|]. 
  destruct (x <? 2048) eqn:E2; [rewrite shr6, c6_mod, lor192, lor128t by lia; cbn [rev app no_space_first]; lia|].
  destruct (x <? 65536) eqn:E3; [rewrite shr12, shr6, !c6_mod, lor224, !lor128t by lia; cbn [rev app no_space_first]; lia|].
  rewrite shr18, shr12, shr6, !c6_mod, lor240, !lor128t by lia. cbn [rev app no_space_first]. lia.
Qed.
Lemma trim_left_enc l : trim_left (enc l) = enc (ltrim l).
Proof.
  induction l as [|r l IH]; [reflexivity|]. cbn [ltrim]. destruct (Z.eqb_spec (vr r) 32) as [E|E].
  - unfold enc in *. cbn [map concat]. rewrite <- encode_vr, E. change (encode_rune 32) with [32]. cbn [app]. rewrite trim_left_space. exact IH.
  - unfold enc. cbn [map concat]. apply trim_left_id. apply encode_ends. exact E.
Qed.
Definition rdec (l : list Z) : bytes := concat (map (fun r => rev (encode_rune r)) l).
Lemma rev_enc l : rev (enc l) = rdec (rev l).
Proof.
  induction l as [|r l IH]; [reflexivity|]. unfold enc, rdec in *. cbn [map concat rev]. rewrite rev_app_distr, IH, map_app, concat_app. cbn [map concat]. rewrite app_nil_r. reflexivity.
Qed.
Lemma trim_left_rdec l : trim_left (rdec l) = rdec (ltrim l).
Proof.
  induction l as [|r l IH]; [reflexivity|]. cbn [ltrim]. destruct (Z.eqb_spec (vr r) 32) as [E|E].
  - unfold rdec in *. cbn [map concat]. rewrite <- encode_vr, E. change (rev (encode_rune 32)) with [32]. cbn [app]. rewrite trim_left_space. exact IH.
  - unfold rdec. cbn [map concat]. apply trim_left_id. apply encode_ends. exact E.
Qed.
Lemma Trim_enc l : Trim (enc l) = enc (rtrim (ltrim l)).
Proof.
  unfold Trim. rewrite trim_left_enc, rev_enc, trim_left_rdec. unfold rtrim.
  rewrite <- (rev_involutive (ltrim (rev (ltrim l)))) at 1. rewrite <- rev_enc, rev_involutive. reflexivity.
Qed.
Definition ttrim (l : list Z) := rtrim (ltrim l).
Lemma ltrim_app l m : ltrim l <> [] -> ltrim (l ++ m) = ltrim l ++ m.
Proof.
  induction l as [|r l IH]; [cbn; congruence|]. cbn [app ltrim]. destruct (vr r =? 32); [exact IH|reflexivity].
Qed.
Lemma ltrim_nil_app l m : ltrim l = [] -> ltrim (l ++ m) = ltrim m.
Proof. induction l as [|r l IH]; [reflexivity|]. cbn [app ltrim]. destruct (vr r =? 32); [exact IH|discriminate]. Qed.
Lemma rtrim_app l m : exists t, rtrim (l ++ m) = rtrim l ++ t.
Proof.
  unfold rtrim. rewrite rev_app_distr. destruct (ltrim (rev m)) as [|x t] eqn:E.
  - rewrite ltrim_nil_app by exact E. exists []. rewrite app_nil_r. reflexivity.
  - rewrite ltrim_app by (rewrite E; discriminate). rewrite rev_app_distr, rev_involutive.
    assert (exists s, l = rev (ltrim (rev l)) ++ s) as (s & Hs).
    { assert (forall x, exists k, x = k ++ ltrim x) as Hk.
      { intros y. induction y as [|r y [k IH]]; [exists []; reflexivity|]. cbn [ltrim]. destruct (vr r =? 32); [exists (r :: k); cbn; congruence|exists []; reflexivity]. }
      destruct (Hk (rev l)) as [k Ek]. exists (rev k). rewrite <- rev_app_distr, <- Ek, rev_involutive. reflexivity. }
    exists (s ++ rev (ltrim (rev m))). rewrite app_assoc, <- Hs. reflexivity.
Qed.
Lemma ttrim_app l m : exists t, ttrim l <> [] -> ttrim (l ++ m) = ttrim l ++ t.
Proof.
  unfold ttrim. destruct (ltrim l) as [|x l'] eqn:E.
  - exists []. cbn. congruence.
  - rewrite ltrim_app by (rewrite E; discriminate). rewrite E. destruct (rtrim_app (x :: l') m) as [t Ht]. exists t. auto.
Qed.
