(** Properties C45 (pkg/suggest/search.go) and C66 (request parameters). *)
From Coq Require Import String ZifyBool Reals Lra Lia.
From Flocq Require Import Core.Raux Core.Zaux Core.Defs IEEE754.BinarySingleNaN.
From Verif Require Import Base BaseLemmas GoMap Float64 Metric FloatProofs P_SuggestLemmas Http HttpSpec.
Local Open Scope Z_scope.

Lemma val_0 : fin (S754_zero false) /\ val (S754_zero false) = 0%R.
Proof. split; [split; reflexivity|reflexivity]. Qed.
Lemma val_1 : fin (of_int 1) /\ val (of_int 1) = 1%R.
Proof. split; [split; vm_compute; reflexivity|]. replace (of_int 1) with (S754_finite false 4503599627370496 (-52)) by (vm_compute; reflexivity). unfold val, SF2R, F2R. cbn. lra. Qed.

Lemma config_test x : valid_binary 53 1024 x = true -> fle x (S754_zero false) || flt (of_int 1) x = false <-> x = S754_nan \/ unit_number x.
Proof.
  intros Hv. destruct val_0 as [F0 V0], val_1 as [F1 V1]. destruct x as [s|s| |s m e].
  - split; [destruct s; discriminate|]. intros [H|[_ H]]; [discriminate|]. unfold val in H. cbn in H. lra.
  - split; [destruct s; vm_compute; discriminate|]. intros [H|[[_ H] _]]; [discriminate|discriminate].
  - split; [auto|]. intros _. vm_compute. reflexivity.
  - assert (fin (S754_finite s m e)) as F by (split; [exact Hv|reflexivity]). rewrite orb_false_iff. split.
    + intros [H1 H2]. right. split; [exact F|]. split.
      * apply Rnot_le_lt. intros H. rewrite <- V0 in H. apply (fle_val _ _ F F0) in H. congruence.
      * apply Rnot_lt_le. intros H. rewrite <- V1 in H. apply (flt_val _ _ F1 F) in H. congruence.
    + intros [H|[_ H]]; [discriminate|]. split.
      * destruct (fle _ _) eqn:E; [|reflexivity]. apply (fle_val _ _ F F0) in E. lra.
      * destruct (flt _ _) eqn:E; [|reflexivity]. apply (flt_val _ _ F1 F) in E. lra.
Qed.

(** C45, exactly: accepted iff the count is positive and the similarity is a number in
    (0, 1] or not a number; and the accepted configuration holds what was given. *)
Theorem C45_accepted_iff : forall query topK m x c, valid_binary 53 1024 x = true ->
  NewSearchConfig query topK m x = Ret c <-> 1 <= topK /\ (unit_number x \/ x = S754_nan) /\ c = mkConfig query topK m x.
Proof.
  intros query topK m x c Hv. unfold NewSearchConfig. pose proof (config_test x Hv) as Ht. destruct (Z.leb_spec topK 0).
  - split; [discriminate|lia].
  - destruct (fle x (S754_zero false) || flt (of_int 1) x) eqn:E.
    + split; [discriminate|]. intros (_ & Hu & _). assert (true = false) by (apply Ht; tauto). discriminate.
    + split; [intros [= <-]|intros (_ & _ & ->); reflexivity]. split; [lia|]. split; [|reflexivity]. apply proj1 in Ht. specialize (Ht eq_refl). tauto.
Qed.
Print Assumptions C45_accepted_iff.
(** C45 refuted: NaN is accepted. *)
Theorem C45_number_required_refuted : exists c, NewSearchConfig [] 1 Cosine S754_nan = Ret c /\ ~ unit_number (c_similarity c).
Proof. eexists. split; [vm_compute; reflexivity|]. intros [[_ H] _]. discriminate H. Qed.
Print Assumptions C45_number_required_refuted.
(** C45 for numbers. *)
Theorem C45_numbers_partial : forall query topK m x, valid_binary 53 1024 x = true -> x <> S754_nan ->
  (exists c, NewSearchConfig query topK m x = Ret c) <-> 1 <= topK /\ unit_number x.
Proof.
  intros query topK m x Hv Hn. split.
  - intros (c & Hc). apply (proj1 (C45_accepted_iff query topK m x c Hv)) in Hc. tauto.
  - intros [H1 H2]. exists (mkConfig query topK m x). apply C45_accepted_iff; auto.
Qed.
Print Assumptions C45_numbers_partial.
Example C45_nonvacuous : NewSearchConfig (bs "abc") 5 Jaccard f_half = Ret (mkConfig (bs "abc") 5 Jaccard f_half) /\ NewSearchConfig (bs "abc") 0 Jaccard f_half = Fail (ErrOther 1) /\ valid_binary 53 1024 f_half = true /\ unit_number f_half.
Proof.
  split; [vm_compute; reflexivity|]. split; [reflexivity|]. split; [vm_compute; reflexivity|]. split; [split; vm_compute; reflexivity|].
  replace f_half with (S754_finite false 4503599627370496 (-53)) by (vm_compute; reflexivity). unfold val, SF2R, F2R. cbn. lra.
Qed.

(** ** Request parameters *)
Lemma decimal_ge s acc : Forall is_digit s -> 0 <= acc -> acc <= decimal s acc.
Proof.
  revert acc. induction s as [|c s IH]; intros acc Hf Ha; cbn [decimal]; [lia|]. inversion_clear Hf as [|? ? Hc Hs]. unfold is_digit in Hc. specialize (IH (10 * acc + (c - 48)) Hs). lia.
Qed.
Lemma parse_digits_spec s n : 0 <= n < 2 ^ 64 -> forall v, parse_digits s n = Ret v <-> Forall is_digit s /\ v = decimal s n /\ v < 2 ^ 64.
Proof.
  revert n. induction s as [|c s IH]; intros n Hn v; cbn [parse_digits decimal].
  - split; [intros [= <-]; repeat split; [constructor|lia]|intros (_ & -> & _); reflexivity].
  - destruct ((48 <=? c) && (c <=? 57)) eqn:Ec; cbn [negb].
    2:{ split; [discriminate|]. intros (Hf & _). inversion_clear Hf as [|? ? Hc Hs]. unfold is_digit in Hc. lia. }
    assert (is_digit c) as Hc by (unfold is_digit; lia).
    assert (forall r : res Z, 2 ^ 64 <= 10 * n + (c - 48) -> Fail (ErrOther 11) = Ret v <-> Forall is_digit (c :: s) /\ v = decimal s (10 * n + (c - 48)) /\ v < 2 ^ 64) as Hover.
    { intros _ Hb. split; [discriminate|]. intros (Hf & -> & Hlt). inversion_clear Hf as [|? ? Hc' Hs]. pose proof (decimal_ge s (10 * n + (c - 48)) Hs). unfold is_digit in Hc. lia. }
    change ((2 ^ 64 - 1) / 10 + 1) with 1844674407370955162. unfold is_digit in Hc. destruct (Z.leb_spec 1844674407370955162 n).
    + apply (Hover (Ret 0)). lia.
    + assert (wrap64 (n * 10) = n * 10) as E10 by (apply Z.mod_small; lia). rewrite E10. destruct (Z.ltb_spec (n * 10 + (c - 48)) (2 ^ 64)) as [Hlt|Hge].
      * assert (wrap64 (n * 10 + (c - 48)) = n * 10 + (c - 48)) as E1 by (apply Z.mod_small; lia). rewrite E1. replace ((n * 10 + (c - 48) <? n * 10) || (2 ^ 64 - 1 <? n * 10 + (c - 48))) with false by lia.
        replace (10 * n + (c - 48)) with (n * 10 + (c - 48)) by lia. rewrite IH by lia. split; intros (A & B & D); (split; [|split; assumption]); [constructor; [exact Hc|exact A]|inversion_clear A; assumption].
      * assert (wrap64 (n * 10 + (c - 48)) = n * 10 + (c - 48) - 2 ^ 64) as E1. { unfold wrap64. symmetry. apply Z.mod_unique_pos with 1; lia. }
        rewrite E1. replace ((n * 10 + (c - 48) - 2 ^ 64 <? n * 10) || (2 ^ 64 - 1 <? n * 10 + (c - 48) - 2 ^ 64)) with true by lia. apply (Hover (Ret 0)). lia.
Qed.
Lemma ParseUint_spec s v : ParseUint s = Ret v <-> s <> [] /\ Forall is_digit s /\ v = decimal s 0 /\ v < 2 ^ 64.
Proof.
  unfold ParseUint. destruct s as [|c s]; [split; [discriminate|tauto]|]. rewrite parse_digits_spec by lia. split; [intros H; split; [discriminate|exact H]|tauto].
Qed.
Lemma decimal_nonneg s : Forall is_digit s -> 0 <= decimal s 0. Proof. intros H. apply (decimal_ge s 0 H). lia. Qed.

(** The integers accepted: exactly the signed decimal numerals in the int64 range. *)
Theorem C66_parse_int : forall s v, ParseInt s = Ret v <-> numeral s v /\ - 2 ^ 63 <= v < 2 ^ 63.
Proof.
  intros s v. unfold ParseInt. cbv zeta. destruct s as [|c t].
  - unfold numeral. split; [discriminate|]. intros ((ds & Hne & _ & [[[E|E] _]|[E _]]) & _); try discriminate. symmetry in E. contradiction.
  - match goal with |- context [ParseUint ?b] => set (body := b) end. destruct (ParseUint body) as [un|e| |] eqn:Eu; cbn [bind].
    + apply (proj1 (ParseUint_spec body un)) in Eu. destruct Eu as (Hne & Hf & Hun & Hlt). pose proof (decimal_nonneg _ Hf) as H0.
      assert (numeral (c :: t) (if c =? 45 then - un else un)) as Hnum.
      { exists body. split; [exact Hne|]. split; [exact Hf|]. subst body. destruct (Z.eqb_spec c 43) as [->|]; [left; cbn in *; split; [right; reflexivity|exact Hun]|]. destruct (Z.eqb_spec c 45) as [->|]; cbn [orb] in *; [right|left]; split; auto; congruence. }
      assert (forall w, numeral (c :: t) w -> w = if c =? 45 then - un else un) as Huniq.
      { intros w (ds & Hd & Hfd & [[[E|E] ->]|[E ->]]).
        - subst ds. subst body. inversion_clear Hfd as [|? ? Hc Hs]. unfold is_digit in Hc. replace ((c =? 43) || (c =? 45)) with false in Hun by lia. replace (c =? 45) with false by lia. auto.
        - injection E as -> ->. cbn in Hun. cbn. auto.
        - injection E as -> ->. cbn in Hun. cbn. lia. }
      destruct (c =? 45) eqn:E45; cbn [negb andb].
      * destruct (Z.ltb_spec (2 ^ 63) un); [split; [discriminate|]; intros [Hw Hr]; apply Huniq in Hw; lia|]. split.
        { intros Ew; injection Ew as <-. split; [exact Hnum|lia]. } { intros [Hw _]. apply Huniq in Hw. congruence. }
      * destruct (Z.leb_spec (2 ^ 63) un); [split; [discriminate|]; intros [Hw Hr]; apply Huniq in Hw; lia|]. split.
        { intros Ew; injection Ew as <-. split; [exact Hnum|lia]. } { intros [Hw _]. apply Huniq in Hw. congruence. }
    + assert (forall w, ~ (numeral (c :: t) w /\ - 2 ^ 63 <= w < 2 ^ 63)) as Hno.
      { intros w [(ds & Hd & Hfd & Hcase) Hr]. assert (ParseUint body = Ret (decimal ds 0)) as Hc; [|congruence]. apply ParseUint_spec. pose proof (decimal_nonneg _ Hfd).
        destruct Hcase as [[[E|E] ->]|[E ->]].
        - subst ds. subst body. pose proof Hfd as Hfd'. inversion_clear Hfd' as [|? ? Hc Hs]. unfold is_digit in Hc. replace ((c =? 43) || (c =? 45)) with false by lia. repeat split; auto; lia.
        - injection E as -> ->. subst body. cbn [Z.eqb Pos.eqb orb]. repeat split; auto; lia.
        - injection E as -> ->. subst body. cbn [Z.eqb Pos.eqb orb]. repeat split; auto; lia. }
      split; [discriminate|]. intros H. exfalso. exact (Hno v H).
    + unfold ParseUint in Eu. destruct body as [|b bt]; [discriminate|]. exfalso. clear - Eu. revert Eu. generalize 0. induction (b :: bt) as [|x l IH]; intros n H; cbn [parse_digits] in H; [discriminate|].
      destruct (negb _); [discriminate|]. destruct (_ <=? n); [discriminate|]. destruct (_ || _); [discriminate|]. eauto.
    + unfold ParseUint in Eu. destruct body as [|b bt]; [discriminate|]. exfalso. clear - Eu. revert Eu. generalize 0. induction (b :: bt) as [|x l IH]; intros n H; cbn [parse_digits] in H; [discriminate|].
      destruct (negb _); [discriminate|]. destruct (_ <=? n); [discriminate|]. destruct (_ || _); [discriminate|]. eauto.
Qed.
Print Assumptions C66_parse_int.
(** The result count of a request: the default when absent, else a numeral that is not negative. *)
Theorem C66_topk_param : forall s dflt v, 0 <= dflt -> FormTopKValue s dflt = Ret v <-> (s = [] /\ v = dflt) \/ (numeral s v /\ 0 <= v < 2 ^ 63).
Proof.
  intros s dflt v Hd. unfold FormTopKValue, FormIntValue. destruct s as [|c t].
  - cbn [bind]. replace (dflt <? 0) with false by lia. split; [intros [= <-]; auto|]. intros [[_ ->]|[(ds & Hne & _ & [[[E|E] _]|[E _]]) _]]; try discriminate; [reflexivity|symmetry in E; contradiction].
  - pose proof (C66_parse_int (c :: t)) as Hp. destruct (ParseInt (c :: t)) as [w|e| |] eqn:E; cbn [bind].
    + pose proof (proj1 (Hp w) eq_refl) as [Hn Hr]. destruct (Z.ltb_spec w 0).
      * split; [discriminate|]. intros [[H1 _]|[H1 H2]]; [discriminate|]. assert (Ret w = Ret v) as Ew by (apply Hp; split; [exact H1|lia]). injection Ew as ->. lia.
      * split; [intros [= <-]; right; split; [exact Hn|lia]|]. intros [[H1 _]|[H1 H2]]; [discriminate|]. apply Hp. split; [exact H1|lia].
    + split; [discriminate|]. intros [[H1 _]|[H1 H2]]; [discriminate|]. apply Hp. split; [exact H1|lia].
    + split; [discriminate|]. intros [[H1 _]|[H1 H2]]; [discriminate|]. apply Hp. split; [exact H1|lia].
    + split; [discriminate|]. intros [[H1 _]|[H1 H2]]; [discriminate|]. apply Hp. split; [exact H1|lia].
Qed.
Print Assumptions C66_topk_param.
(** An autocomplete request never passes a negative limit on. *)
Theorem C66_autocomplete_limit : forall s v, autocomplete_limit s = Ret v -> 0 <= v.
Proof. intros s v H. apply (proj1 (C66_topk_param s 5 v ltac:(lia))) in H. destruct H as [[_ ->]|[_ H]]; lia. Qed.
Print Assumptions C66_autocomplete_limit.
(** A suggest request gets a configuration exactly when the count is a positive numeral
    (or absent), the metric has one of the five names, and the similarity is absent or
    reads as a number in (0, 1] - or as NaN. *)
Theorem C66_suggest_request : forall pf query tk mt sm c, (forall s x, pf s = Some x -> valid_binary 53 1024 x = true) ->
  buildSearchConfig pf query tk mt sm = Ret c <->
  (tk = [] /\ c_topK c = 5 \/ numeral tk (c_topK c) /\ 1 <= c_topK c < 2 ^ 63) /\
  In (mt, c_metric c) metrics /\
  (sm = [] /\ c_similarity c = f_half \/ sm <> [] /\ pf sm = Some (c_similarity c) /\ (unit_number (c_similarity c) \/ c_similarity c = S754_nan)) /\
  c_query c = query.
Proof.
  intros pf query tk mt sm c Hpf.
  assert (forall x, FormSimilarityValue pf sm defaultSimilarity = Ret x <-> (sm = [] /\ x = f_half \/ sm <> [] /\ pf sm = Some x) /\ flt x (S754_zero false) || flt (of_int 1) x = false) as Hsim.
  { intros x. unfold FormSimilarityValue, FormFloatValue. destruct sm as [|b sm].
    - cbn [bind]. replace (flt defaultSimilarity _ || _) with false by (vm_compute; reflexivity). split.
      + intros [= <-]. split; [auto|]. vm_compute. reflexivity.
      + intros [[[_ ->]|[H _]] _]; [reflexivity|congruence].
    - destruct (pf (b :: sm)) as [y|] eqn:Ey; cbn [bind].
      + destruct (flt y (S754_zero false) || flt (of_int 1) y) eqn:E.
        * split; [discriminate|]. intros [[[H _]|[_ [= <-]]] H2]; [discriminate|congruence].
        * split; [intros [= <-]; split; [right; split; [discriminate|reflexivity]|exact E]|]. intros [[[H _]|[_ [= <-]]] _]; [discriminate|reflexivity].
      + split; [discriminate|]. intros [[[H _]|[_ H]] _]; discriminate. }
  assert (fle f_half (S754_zero false) || flt (of_int 1) f_half = false) as Hhalf by (vm_compute; reflexivity).
  assert (forall x, valid_binary 53 1024 x = true -> unit_number x \/ x = S754_nan -> flt x (S754_zero false) || flt (of_int 1) x = false) as Hweak.
  { intros x Hv Hu. assert (fle x (S754_zero false) || flt (of_int 1) x = false) as H by (apply config_test; tauto). apply orb_false_iff in H. destruct H as [H1 H2]. rewrite H2, orb_false_r. unfold fle, SFleb in H1. unfold flt, SFltb. destruct (SFcompare x (S754_zero false)) as [[]|]; congruence. }
  unfold buildSearchConfig. pose proof (C66_topk_param tk defaultTopK) as Htk. unfold defaultTopK in *.
  assert (forall m, In (mt, m) metrics <-> mget beqb metrics mt = Some m) as Hm.
  { intros m. symmetry. apply (mget_In _ beqb_ok). cbn [metrics map fst]. repeat constructor; cbn [In]; intuition discriminate. }
  split.
  - intros H. destruct (FormTopKValue tk 5) as [k|e| |] eqn:Ek; cbn [bind] in H; try discriminate. destruct (mget beqb metrics mt) as [m|] eqn:Em; [|discriminate].
    destruct (FormSimilarityValue pf sm defaultSimilarity) as [x|e| |] eqn:Ex; cbn [bind] in H; try discriminate. pose proof (proj1 (Hsim x) eq_refl) as [Hx _].
    pose proof (proj1 (Htk k ltac:(lia)) eq_refl) as Hk. unfold NewSearchConfig in H. destruct (Z.leb_spec k 0); [discriminate|]. destruct (fle x (S754_zero false) || flt (of_int 1) x) eqn:Ec; [discriminate|]. injection H as <-. cbn [c_topK c_metric c_similarity c_query].
    split; [destruct Hk as [Hk|[Hk ?]]; [left; exact Hk|right; split; [exact Hk|lia]]|]. split; [apply Hm; reflexivity|]. split; [|reflexivity].
    destruct Hx as [Hx|[Hx1 Hx2]]; [left; exact Hx|right]. split; [exact Hx1|]. split; [exact Hx2|]. apply config_test in Ec; [tauto|]. eapply Hpf; eauto.
  - intros (Hk & Hmt & Hx & Hq). destruct c as [q k m x]. cbn [c_topK c_metric c_similarity c_query] in *. subst q. rewrite (proj2 (Htk k ltac:(lia))) by (destruct Hk as [?|[? ?]]; [left; assumption|right; split; [assumption|lia]]). cbn [bind].
    rewrite (proj1 (Hm m) Hmt). assert (valid_binary 53 1024 x = true /\ (unit_number x \/ x = S754_nan)) as [Hv Hu].
    { destruct Hx as [[_ ->]|(_ & Hx & Hu)]; [|split; [eapply Hpf; eauto|exact Hu]]. split; [vm_compute; reflexivity|]. apply config_test in Hhalf; [tauto|vm_compute; reflexivity]. }
    rewrite (proj2 (Hsim x)) by (split; [destruct Hx as [?|(? & ? & ?)]; [left; assumption|right; auto]|apply Hweak; assumption]). cbn [bind].
    apply C45_accepted_iff; [exact Hv|]. split; [destruct Hk as [[_ ->]|[_ ?]]; lia|]. split; [exact Hu|reflexivity].
Qed.
Print Assumptions C66_suggest_request.
(** A prediction request may pass the count 0 on (see C62), and any similarity in [0, 1]
    including 0 - and NaN. *)
Theorem C66_predict_zero_refuted : forall pf, predict_params pf (bs "0") [] = Ret (0, f_half).
Proof. intros pf. vm_compute. reflexivity. Qed.
Print Assumptions C66_predict_zero_refuted.
Theorem C66_nan_request_refuted : forall pf, pf (bs "NaN") = Some S754_nan -> buildSearchConfig pf (bs "abc") [] (bs "Cosine") (bs "NaN") = Ret (mkConfig (bs "abc") 5 Cosine S754_nan).
Proof. intros pf H. unfold buildSearchConfig, FormSimilarityValue, FormFloatValue. change (FormTopKValue [] defaultTopK) with (Ret 5). cbn [bind]. change (mget beqb metrics (bs "Cosine")) with (Some Cosine). cbv iota. change (match bs "NaN" with [] => Ret defaultSimilarity | _ :: _ => match pf (bs "NaN") with Some f => Ret f | None => Fail (ErrOther 13) end end) with (match pf (bs "NaN") with Some f => Ret f | None => Fail (ErrOther 13) end). rewrite H. vm_compute. reflexivity. Qed.
Print Assumptions C66_nan_request_refuted.
Example C66_nonvacuous : ParseInt (bs "-12") = Ret (-12) /\ ParseInt (bs "9223372036854775808") = Fail (ErrOther 11) /\ numeral (bs "+7") 7 /\
  exists c, buildSearchConfig (fun _ => Some f_half) (bs "abc") (bs "3") (bs "Dice") (bs "0.5") = Ret c /\ c_topK c = 3.
Proof.
  split; [vm_compute; reflexivity|]. split; [vm_compute; reflexivity|]. split.
  - exists (bs "7"). split; [discriminate|]. split; [repeat constructor; unfold is_digit; vm_compute; discriminate|]. left. split; [right; reflexivity|reflexivity].
  - exists (mkConfig (bs "abc") 3 Dice f_half). split; [vm_compute; reflexivity|reflexivity].
Qed.
