(** Lemmas used in P_Analysis. *)
From Coq Require Import String ZifyBool Permutation.
From Verif Require Import Base BaseLemmas GoMap Text Analysis AnalysisSpec TextProofs TextProofs2 AnalysisProofs AnalysisProofs2.
Local Open Scope Z_scope.
Ltac Zify.zify_post_hook ::= Z.div_mod_to_equations.

Lemma RuneLen_vr r : RuneLen (vr r) = zlen (encode_rune r).
Proof.
  rewrite <- encode_vr. pose proof (vr_valid r) as Hv. set (x := vr r) in *. clearbody x. unfold encode_rune, RuneLen. rewrite Hv. unfold valid_rune in Hv.
  replace (x <? 0) with false by lia. destruct (x <? 128); [reflexivity|]. destruct (x <? 2048); [reflexivity|].
  replace ((55296 <=? x) && (x <=? 57343)) with false by lia. destruct (x <? 65536); [reflexivity|]. replace (x <=? 1114111) with true by lia. reflexivity.
Qed.
Lemma enc_char_ok l : Forall char_ok (runes (enc l)).
Proof.
  rewrite runes_enc. apply Forall_forall. intros x Hx. apply in_map_iff in Hx. destruct Hx as (r & <- & _). split; cbn [fst snd]; [apply encode_vr|apply RuneLen_vr].
Qed.
Lemma usable_chars has s : Forall is_byte s -> has RuneError = false \/ well_formed s -> Forall (fun c => has (fst c) = true -> char_ok c) (runes s).
Proof.
  intros Hb [H|H].
  - pose proof (runes_good s Hb) as Hg. eapply Forall_impl; [|exact Hg]. intros c [[E _]|Hc] Hh; [|exact Hc]. rewrite E in Hh. congruence.
  - eapply Forall_impl; [|exact (well_formed_chars s Hb H)]. auto.
Qed.
Lemma words_correct has text : Forall (fun c => has (fst c) = true -> char_ok c) (runes text) ->
  forall ws, words_of has (runes text) ws <-> WordTokenize has text = Ret (map (fun w => concat (map snd w)) ws) /\ words_of has (runes text) ws.
Proof.
  intros H ws. split; [|tauto]. intros Hw. split; [|exact Hw]. rewrite WordTokenize_runs by exact H. 
  rewrite (words_of_det has _ _ Hw _ (runs_words has (runes text) [] (Forall_nil _))). reflexivity.
Qed.
Lemma words_exist has rs : exists ws, words_of has rs ws.
Proof. exists (runs has [] rs). apply (runs_words has rs []). constructor. Qed.
Lemma words_result has text : Forall (fun c => has (fst c) = true -> char_ok c) (runes text) ->
  exists ws, words_of has (runes text) ws /\ (forall ws', words_of has (runes text) ws' -> ws' = ws) /\
             WordTokenize has text = Ret (map (fun w => concat (map snd w)) ws).
Proof.
  intros H. destruct (words_exist has (runes text)) as [ws Hw]. exists ws. split; [exact Hw|]. split; [intros ws' H'; exact (words_of_det _ _ _ H' _ Hw)|].
  apply (words_correct has text H ws). exact Hw.
Qed.
Lemma normalize_usable has pad t : Forall is_byte t -> has RuneError = false \/ well_formed t ->
  normalize has pad t = concat (map (fun rb => if has (fst rb) then snd rb else pad) (runes t)).
Proof.
  intros Hb Hu. unfold normalize. f_equal. apply map_ext_in. intros rb Hin. pose proof (usable_chars has t Hb Hu) as H. rewrite Forall_forall in H.
  destruct (has (fst rb)) eqn:E; [|reflexivity]. apply (H rb Hin E).
Qed.
Lemma enc_runes s : Forall char_ok (runes s) -> enc (map fst (runes s)) = s.
Proof.
  intros H. rewrite <- (runes_concat s) at 2. unfold enc. f_equal. rewrite map_map. apply map_ext_in. intros rb Hin. rewrite Forall_forall in H. apply (H rb Hin).
Qed.
Lemma runes_vr s : Forall char_ok (runes s) -> forall rb, In rb (runes s) -> vr (fst rb) = fst rb.
Proof.
  intros H. pose proof (runes_enc (map fst (runes s))) as E. rewrite (enc_runes s H) in E. rewrite map_map in E.
  intros rb Hin. rewrite E in Hin. apply in_map_iff in Hin. destruct Hin as (x & <- & _). cbn [fst]. apply vr_vr.
Qed.
Lemma normalize_idem has pad t : Forall is_byte t -> well_formed t -> Forall is_byte pad -> well_formed pad -> Forall (fun rb => has (fst rb) = true) (runes pad) ->
  normalize has pad (normalize has pad t) = normalize has pad t.
Proof.
  intros Hbt Hwt Hbp Hwp Hp. pose proof (well_formed_chars t Hbt Hwt) as Ht. pose proof (well_formed_chars pad Hbp Hwp) as Hpc.
  set (l := concat (map (fun rb => if has (fst rb) then [fst rb] else map fst (runes pad)) (runes t))).
  assert (normalize has pad t = enc l) as ->.
  { unfold normalize, enc, l. rewrite concat_map, map_map. rewrite <- flat_map_concat_map.
    generalize (runes t). clear - Hpc. intros rs. induction rs as [|rb rs IH]; [reflexivity|]. cbn [map concat flat_map]. rewrite concat_app, <- IH. f_equal.
    destruct (has (fst rb)); [cbn; rewrite app_nil_r; reflexivity|]. rewrite <- (enc_runes pad Hpc) at 1. reflexivity. }
  apply normalize_enc_id. unfold l. apply Forall_concat. apply Forall_forall. intros x Hx. apply in_map_iff in Hx. destruct Hx as (rb & <- & Hin).
  destruct (has (fst rb)) eqn:E.
  - constructor; [|constructor]. rewrite (runes_vr t Ht rb Hin). exact E.
  - apply Forall_forall. intros r Hr. apply in_map_iff in Hr. destruct Hr as (pb & <- & Hpb). rewrite (runes_vr pad Hpc pb Hpb). rewrite Forall_forall in Hp. apply Hp. exact Hpb.
Qed.
Lemma prepared_chars lowr s : zlen (chars (Trim (ToLower lowr s))) = zlen (prepared lowr s).
Proof. rewrite prepared_text, chars_enc. unfold zlen. rewrite map_length. reflexivity. Qed.
Lemma prepared_has lowr has s : Forall (fun rb => has (fst rb) = true) (runes (Trim (ToLower lowr s))) -> Forall (fun r => has (vr r) = true) (prepared lowr s).
Proof.
  rewrite prepared_text, runes_enc. intros H. rewrite Forall_forall in *. intros r Hr. apply (H (vr r, encode_rune r)). apply in_map_iff. eauto.
Qed.
Lemma Size_composite l : Size (AComposite l) = fold_right (fun a s => Size a + s) 0 l.
Proof. unfold Size. cbn [Chars]. induction l as [|a l IH]; [reflexivity|]. cbn [map concat fold_right]. rewrite zlen_app, IH. reflexivity. Qed.
Lemma Size_perm l l' : Permutation l l' -> Size (AComposite l) = Size (AComposite l').
Proof. intros H. rewrite !Size_composite. induction H; cbn [fold_right]; lia. Qed.
