(** C82, the spellchecker's handler. *)
From Coq Require Import String ZifyBool Permutation Sorted Reals Lra Lia.
From Verif Require Import Base BaseLemmas GoMap Postings Index IndexSpec Text AnalysisSpec
  Float64 Metric MetricSpec FloatProofs MetricFloat TopK Suggest SuggestSpec P_SuggestLemmas P_Suggest NGram GoogleNGram Spell SpellSpec SpellProofs P_Spell Http HttpSpec P_Http Json JsonSpec JsonProofs P_Json Handlers P_Handlers.
Local Open Scope Z_scope.
Local Notation length := List.length.

Lemma weak_test x : valid_binary 53 1024 x = true -> flt x (S754_zero false) || flt (of_int 1) x = false <-> x = S754_nan \/ (fin x /\ (0 <= val x <= 1)%R).
Proof.
  intros Hv. destruct val_0 as [F0 V0], val_1 as [F1 V1]. destruct x as [s|s| |s m e].
  - split; [|intros _; destruct s; reflexivity]. intros _. right. split; [split; [exact Hv|reflexivity]|]. unfold val. cbn. lra.
  - split; [destruct s; vm_compute; discriminate|]. intros [H|[[_ H] _]]; [discriminate|discriminate].
  - split; [auto|]. intros _. vm_compute. reflexivity.
  - assert (fin (S754_finite s m e)) as F by (split; [exact Hv|reflexivity]). rewrite orb_false_iff. split.
    + intros [H1 H2]. right. split; [exact F|]. split.
      * apply Rnot_lt_le. intros H. rewrite <- V0 in H. apply (flt_val _ _ F F0) in H. congruence.
      * apply Rnot_lt_le. intros H. rewrite <- V1 in H. apply (flt_val _ _ F1 F) in H. congruence.
    + intros [H|[_ H]]; [discriminate|]. split.
      * destruct (flt _ (S754_zero false)) eqn:E; [|reflexivity]. apply (flt_val _ _ F F0) in E. lra.
      * destruct (flt _ _) eqn:E; [|reflexivity]. apply (flt_val _ _ F1 F) in E. lra.
Qed.
Definition predict_request (pf : bytes -> option f64) (tk sm : bytes) (k : Z) (x : f64) : Prop :=
  count_param tk 0 k /\ similarity_param pf sm x /\ (x = S754_nan \/ (fin x /\ (0 <= val x <= 1)%R)).
Lemma predict_config pf tk sm k x : parses_valid pf -> predict_request pf tk sm k x <-> predict_params pf tk sm = Ret (k, x).
Proof.
  intros Hpf. unfold predict_request, predict_params, count_param, similarity_param. pose proof (fun v => C66_topk_param tk 5 v ltac:(lia)) as Hk.
  assert (valid_binary 53 1024 f_half = true) as Hvh by reflexivity. assert (flt f_half (S754_zero false) || flt (of_int 1) f_half = false) as Hh by (vm_compute; reflexivity).
  split.
  - intros (H1 & H2 & H3). apply Hk in H1. rewrite H1. cbn [bind]. unfold FormSimilarityValue, FormFloatValue. destruct H2 as [[-> ->]|[Hne Hx]].
    + cbn [bind]. rewrite Hh. reflexivity.
    + destruct sm as [|b sm]; [congruence|]. rewrite Hx. cbn [bind]. rewrite (proj2 (weak_test x (Hpf _ _ Hx)) H3). reflexivity.
  - intros H. destruct (FormTopKValue tk 5) as [k'|e| |] eqn:Ek; try discriminate. cbn [bind] in H. unfold FormSimilarityValue, FormFloatValue in H. destruct sm as [|b sm].
    + cbn [bind] in H. rewrite Hh in H. cbn [bind] in H. injection H as <- <-. split; [apply Hk; reflexivity|]. split; [left; auto|]. apply weak_test; assumption.
    + destruct (pf (b :: sm)) as [y|] eqn:Ey; [|discriminate]. cbn [bind] in H. destruct (flt y (S754_zero false) || flt (of_int 1) y) eqn:E; [discriminate|]. cbn [bind] in H. injection H as <- <-.
      split; [apply Hk; reflexivity|]. split; [right; split; [discriminate|reflexivity]|]. apply weak_test; [exact (Hpf _ _ Ey)|exact E].
Qed.
(** A prediction request is refused with status 400 exactly when the count is not a numeral of
    at least 0 or the similarity is a number outside [0, 1]; otherwise a successful prediction is sent
    with status 200 as a JSON array of its strings, an error with status 500. *)
Theorem C82_predict : forall pf bf etext predict query tk sm, parses_valid pf ->
  let o := predict_handle pf bf etext predict query tk sm in
  (answered o 400 <-> ~ exists k x, predict_request pf tk sm k x) /\
  forall k x, predict_request pf tk sm k x ->
    (forall l, predict query k x = Some (Ret l) -> (forall v, In v l -> Forall is_byte v /\ well_formed v) ->
       exists body, o = Some (Sent (mkResp 200 (bs "application/json") body)) /\ read_array read_string body = Some l) /\
    (forall e, predict query k x = Some (Fail e) -> fails o 500 etext).
Proof.
  intros pf bf etext predict query tk sm Hpf o. subst o. split.
  - unfold predict_handle. destruct (predict_params pf tk sm) as [[k x]|e| |] eqn:E.
    + split; [|intros H; exfalso; apply H; exists k, x; apply predict_config; assumption]. intros (r & Hr & Hs). exfalso. unfold when_done in Hr. destruct (predict query k x) as [[l|e| |]|]; try discriminate; cbn [respond MarshalStrings] in Hr; unfold http_error in Hr; injection Hr as <-; discriminate.
    + split; [intros _ (k & x & H); apply (predict_config pf tk sm k x Hpf) in H; congruence|]. intros _. unfold answered, http_error. eauto.
    + split; [intros (r & Hr & _); discriminate|]. intros _. exfalso. revert E. unfold predict_params. destruct (build_total pf [] tk (bs "Cosine") sm) as (r & E & H). unfold buildSearchConfig in E. change (mget beqb metrics (bs "Cosine")) with (Some Cosine) in E. unfold defaultTopK, defaultSimilarity in E.
      destruct (FormTopKValue tk 5) as [k|e| |]; cbn [bind] in *; try discriminate; [|subst r; destruct H as [[? H]|[? H]]; discriminate]. destruct (FormSimilarityValue pf sm f_half) as [y|e| |]; cbn [bind] in *; try discriminate. subst r; destruct H as [[? H]|[? H]]; discriminate.
    + split; [intros (r & Hr & _); discriminate|]. intros _. exfalso. revert E. unfold predict_params. destruct (build_total pf [] tk (bs "Cosine") sm) as (r & E & H). unfold buildSearchConfig in E. change (mget beqb metrics (bs "Cosine")) with (Some Cosine) in E. unfold defaultTopK, defaultSimilarity in E.
      destruct (FormTopKValue tk 5) as [k|e| |]; cbn [bind] in *; try discriminate; [|subst r; destruct H as [[? H]|[? H]]; discriminate]. destruct (FormSimilarityValue pf sm f_half) as [y|e| |]; cbn [bind] in *; try discriminate. subst r; destruct H as [[? H]|[? H]]; discriminate.
  - intros k x Hp. apply (predict_config pf tk sm k x Hpf) in Hp. unfold predict_handle. rewrite Hp. split.
    + intros l Hl Hv. rewrite Hl. cbn [when_done respond]. destruct (C81_strings bf l Hv) as (body & E & H). rewrite E. eauto.
    + intros e He. rewrite He. exists e. reflexivity.
Qed.
Print Assumptions C82_predict.
(** A request with topK=0 for a word some entry completes is accepted and gets no answer: under
    every schedule a goroutine of the server panics (C62). *)
Theorem C82_predict_zero_refuted : forall pf bf etext flog rb srt stable sched sched' sp docs query sm x seq word next terms y ts out,
  parses_valid pf -> similarity_param pf sm x -> (x = S754_nan \/ (fin x /\ (0 <= val x <= 1)%R)) ->
  parts_ok flog rb srt stable sp docs next -> sp_tokenize sp query = Ret (seq ++ [word]) -> scorer_next (sp_get sp) (sp_model sp) seq = Ret next ->
  sp_complete sp word = Ret terms -> NoDup terms -> 1 <= zlen terms < 2 ^ 32 -> In (y, ts) docs -> (forall t, In t terms -> In t ts) ->
  predict_handle pf bf etext (Predict flog rb srt stable sched sched' sp) query (bs "0") sm = Some out -> out = Lost.
Proof.
  intros pf bf etext flog rb srt stable sched sched' sp docs query sm x seq word next terms y ts out Hpf Hs Hx HP Ht Hn Hc Hnd Hsm Hin Hall Hout.
  assert (predict_request pf (bs "0") sm 0 x) as Hr.
  { split; [right; split; [apply (proj1 (C66_parse_int (bs "0") 0)); vm_compute; reflexivity|lia]|]. split; assumption. }
  apply (predict_config pf _ sm 0 x Hpf) in Hr. unfold predict_handle in Hout. rewrite Hr in Hout. destruct (Predict flog rb srt stable sched sched' sp query 0 x) as [r|] eqn:E; [|discriminate]. cbn [when_done] in Hout. injection Hout as <-.
  rewrite (C62_zero_limit_refuted flog rb srt stable sched sched' sp docs query x seq word next terms y ts r HP Ht Hn Hc Hnd Hsm Hin Hall E). reflexivity.
Qed.
Print Assumptions C82_predict_zero_refuted.
Example C82_predict_nonvacuous : let predict := fun q k (_ : f64) => demo61 q k in
  predict_handle (fun _ => None) false (fun _ => bs "error") predict (bs "a ab") (bs "2") [] = Some (Sent (mkResp 200 (bs "application/json") (bs "[""b"",""abcdefgh"",""a""]"))) /\
  predict_handle (fun _ => None) false (fun _ => bs "error") predict (bs "ab") (bs "0") [] = Some Lost /\
  predict_handle (fun _ => None) false (fun _ => bs "error") predict (bs "ab") (bs "-1") [] = Some (Sent (mkResp 400 (bs "text/plain; charset=utf-8") (bs "error" ++ [10]))).
Proof. cbn zeta. split; [|split]; vm_compute; reflexivity. Qed.
