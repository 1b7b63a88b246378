(** Properties C61-C62 (pkg/spellchecker): one Predict call, with the goroutines of its two
    searches, under every pair of schedules. *)
From Coq Require Import String ZifyBool Permutation Sorted Reals Lra Lia.
From Verif Require Import Base BaseLemmas GoMap Store StoreSpec Postings PostingsSpec PostingsDrive P_PostingsLemmas Merger MergerSpec P_MergerLemmas Index IndexSpec IndexProofs P_IndexLemmas
  Float64 Metric MetricSpec FloatProofs MetricFloat TopK TopKSpec TopKProofs Suggest SuggestSpec SuggestProofs P_SuggestLemmas P_Suggest AutocompleteSpec AutocompleteProofs NGram P_NGram GoogleNGram Spell SpellSpec SpellProofs.
Local Open Scope Z_scope.

(** The model's score of a word after the query's context; the score of an unknown word if the
    query has no context or the model does not know it. *)
Definition sc_of (flog : f64 -> f64) (next : option scorerNext) (x : Z) : f64 := match newScorer flog next x with Ret v => v | _ => S754_nan end.

(** ** Lemmas *)
Lemma flt_trans_ge a b c : a <> S754_nan -> b <> S754_nan -> c <> S754_nan -> flt a b = false -> flt b c = false -> flt a c = false.
Proof. intros Ha Hb Hc. rewrite !flt_rank by assumption. destruct (rank a) as [[? ?] ?], (rank b) as [[? ?] ?], (rank c) as [[? ?] ?]. cbn. lia. Qed.
Lemma flt_feq a b : a <> S754_nan -> b <> S754_nan -> flt a b = false -> flt b a = false -> feq a b = true.
Proof. intros Ha Hb. rewrite !flt_rank, feq_rank by assumption. destruct (rank a) as [[? ?] ?], (rank b) as [[? ?] ?]. cbn. lia. Qed.
Lemma feq_refl a : a <> S754_nan -> feq a a = true.
Proof. intros Ha. rewrite feq_rank by assumption. destruct (rank a) as [[? ?] ?]. cbn. lia. Qed.
Lemma flt_irrefl a : a <> S754_nan -> flt a a = false.
Proof. intros Ha. rewrite flt_rank by assumption. destruct (rank a) as [[? ?] ?]. cbn. lia. Qed.

(* a list that is sorted already is left alone by a stable sort *)
Lemma stable_same (key : cand -> f64) : forall l s, (forall c, In c l -> key c <> S754_nan) -> Permutation l s ->
  StronglySorted (fun a b => flt (key a) (key b) = false) l -> StronglySorted (fun a b => flt (key a) (key b) = false) s ->
  (forall v, filter (fun c => feq (key c) v) s = filter (fun c => feq (key c) v) l) -> s = l.
Proof.
  induction l as [|a l IH]; intros s Hn Hp Hl Hs Hf; [apply Permutation_nil in Hp; exact Hp|]. destruct s as [|b s]; [apply Permutation_sym, Permutation_nil in Hp; discriminate|].
  assert (In b (a :: l)) as Hb by (eapply Permutation_in; [apply Permutation_sym; exact Hp|left; reflexivity]). assert (In a (b :: s)) as Ha by (eapply Permutation_in; [exact Hp|left; reflexivity]).
  assert (key a <> S754_nan) as Na by (apply Hn; left; reflexivity). assert (key b <> S754_nan) as Nb by (apply Hn; exact Hb).
  inversion_clear Hl as [|? ? Hl1 Hl2]. inversion_clear Hs as [|? ? Hs1 Hs2]. rewrite Forall_forall in Hl2, Hs2.
  assert (flt (key a) (key b) = false) as F1 by (destruct Hb as [<-|Hb]; [apply flt_irrefl; exact Na|apply Hl2; exact Hb]).
  assert (flt (key b) (key a) = false) as F2 by (destruct Ha as [->|Ha]; [apply flt_irrefl; exact Na|apply Hs2; exact Ha]).
  assert (b = a) as ->.
  { pose proof (Hf (key a)) as E. cbn [filter] in E. rewrite (flt_feq _ _ Nb Na F2 F1), (feq_refl _ Na) in E. congruence. }
  f_equal. apply IH; try assumption.
  - intros c Hc. apply Hn. right. exact Hc.
  - eapply Permutation_cons_inv. exact Hp.
  - intros v. specialize (Hf v). cbn [filter] in Hf. destruct (feq (key a) v); [congruence|exact Hf].
Qed.

Lemma merge_app : forall b a, exists t, merge a b = a ++ t /\ (forall c, In c t -> In c b).
Proof.
  induction b as [|y b IH]; intros a; [exists []; split; [cbn; rewrite app_nil_r; reflexivity|intros c []]|]. cbn [merge].
  destruct (existsb _ a); [destruct (IH a) as (t & E & H); exists t; split; [exact E|intros; right; auto]|]. destruct (IH (a ++ [y])) as (t & E & H). exists (y :: t). rewrite <- app_assoc in E. split; [exact E|].
  intros c [<-|Hc]; [left; reflexivity|right; auto].
Qed.
Lemma merge_keys : forall b a, (forall x, In x (map Key (merge a b)) <-> In x (map Key a) \/ In x (map Key b)).
Proof.
  induction b as [|y b IH]; intros a x; [cbn; tauto|]. cbn [merge]. rewrite IH. destruct (existsb (fun x => Key x =? Key y) a) eqn:E.
  - apply existsb_exists in E. destruct E as (z & Hz & E). apply Z.eqb_eq in E. cbn [map In]. split; [tauto|]. intros [H|[<-|H]]; auto. left. rewrite <- E. apply in_map. exact Hz.
  - rewrite map_app, in_app_iff. cbn [map In]. tauto.
Qed.
Lemma merge_nodup : forall b a, NoDup (map Key a) -> NoDup (map Key (merge a b)).
Proof.
  induction b as [|y b IH]; intros a Ha; [exact Ha|]. cbn [merge]. apply IH. destruct (existsb (fun x => Key x =? Key y) a) eqn:E; [exact Ha|].
  rewrite map_app. cbn [map]. apply (Permutation_NoDup (Permutation_cons_append _ _)). constructor; [|exact Ha]. intros Hin. apply in_map_iff in Hin. destruct Hin as (z & Ez & Hz).
  assert (existsb (fun x => Key x =? Key y) a = true) as E' by (apply existsb_exists; exists z; split; [exact Hz|lia]). congruence.
Qed.

Section F.
Context (flog : f64 -> f64) (stable : (cand -> f64) -> list cand -> list cand) (sp : spellchecker) (next : option scorerNext) (topK : Z).
Context (Hst : stable_ok stable) (Hk : 1 <= topK).
Notation sc := (sc_of flog next).
(* the candidates in the order in which they are returned *)
Definition ordered (cs : list cand) : list cand := match next with Some _ => stable (key_of (newScorer flog next)) cs | None => cs end.
Lemma finish_ok cs : (forall c, In c cs -> newScorer flog next (Key c) = Ret (sc (Key c)) /\ sc (Key c) <> S754_nan) -> (forall c, In c cs -> exists b, sp_value sp (Key c) = Ret b) ->
  let l := firstn (Z.to_nat (topK + 1)) (ordered cs) in
  (exists vs, finish_prediction flog stable sp next topK cs = Ret vs /\ map (sp_value sp) (map Key l) = map Ret vs)
  /\ Permutation cs (ordered cs) /\ (next <> None -> StronglySorted (fun a b => flt (sc (Key a)) (sc (Key b)) = false) (ordered cs)).
Proof.
  intros Hs Hv l. unfold finish_prediction.
  assert ((match next with Some _ => sortCandidates stable (newScorer flog next) cs | None => Ret cs end) = Ret (ordered cs)) as E1.
  { unfold ordered. destruct next as [nx|]; [|reflexivity]. unfold sortCandidates. assert (keys_of (newScorer flog (Some nx)) cs = Ret tt) as ->; [|reflexivity].
    clear - Hs. induction cs as [|c cs IH]; [reflexivity|]. cbn [keys_of]. rewrite (proj1 (Hs c (or_introl eq_refl))). cbn [bind]. apply IH. intros c' Hc'. apply Hs. right. exact Hc'. }
  rewrite E1. cbn [bind].
  assert (Permutation cs (ordered cs) /\ (next <> None -> StronglySorted (fun a b => flt (sc (Key a)) (sc (Key b)) = false) (ordered cs))) as [Hp Hso].
  { assert (forall c, key_of (newScorer flog next) c = sc (Key c)) as Ek by reflexivity.
    destruct (Hst (key_of (newScorer flog next)) cs) as (H1 & H2 & _); [intros c Hc; rewrite Ek; apply (Hs c Hc)|].
    unfold ordered. destruct next as [nx|]; [|split; [apply Permutation_refl|congruence]]. split; [exact H1|]. intros _. exact H2. }
  split; [|split; assumption].
  assert ((if topK <? zlen (ordered cs) then slice (ordered cs) 0 (topK + 1) else Ret (ordered cs)) = Ret l) as ->.
  { unfold l. destruct (Z.ltb_spec topK (zlen (ordered cs))) as [Hlt|Hge].
    - unfold slice. replace ((0 <=? 0) && (0 <=? topK + 1) && (topK + 1 <=? zlen (ordered cs))) with true by lia. rewrite Z.sub_0_r. reflexivity.
    - rewrite firstn_all2; [reflexivity|]. unfold zlen in Hge. lia. }
  cbn [bind]. assert (forall c, In c l -> exists b, sp_value sp (Key c) = Ret b) as Hv'.
  { intros c Hc. apply Hv. apply (Permutation_in _ (Permutation_sym Hp)). unfold l in Hc. rewrite <- (firstn_skipn (Z.to_nat (topK + 1)) (ordered cs)). apply in_app_iff. left. exact Hc. }
  clear - Hv'. induction l as [|c l IH]; [exists []; split; reflexivity|]. destruct (Hv' c (or_introl eq_refl)) as (b & Eb). destruct IH as (vs & Ev & Em); [intros c' Hc'; apply Hv'; right; exact Hc'|].
  exists (b :: vs). cbn [retrieveValues map]. rewrite Eb. cbn [bind]. rewrite Ev. cbn [bind]. rewrite Em. split; reflexivity.
Qed.
End F.
Lemma sorted_firstn {A} (R : A -> A -> Prop) : forall n l, StronglySorted R l -> StronglySorted R (firstn n l).
Proof.
  induction n as [|n IH]; intros l H; [constructor|]. destruct l as [|x l]; [constructor|]. cbn [firstn]. inversion_clear H. constructor; [auto|]. rewrite Forall_forall in *. intros y Hy. apply H1. rewrite <- (firstn_skipn n l). apply in_app_iff. left. exact Hy.
Qed.
Lemma sorted_split {A} (R : A -> A -> Prop) n l x y : StronglySorted R l -> In x (firstn n l) -> In y (skipn n l) -> R x y.
Proof.
  revert l. induction n as [|n IH]; intros l H; [intros []|]. destruct l as [|z l]; [intros []|]. cbn [firstn skipn]. inversion_clear H. intros [<-|Hx] Hy; [|eauto]. rewrite Forall_forall in H1. apply H1. rewrite <- (firstn_skipn n l). apply in_app_iff. right. exact Hy.
Qed.


(** ** A call *)
(** The spellchecker's parts: an index over the entries, numeric next-word scores and a
    dictionary for all of them (what C24, C50 and C57 give). *)
Record parts_ok (flog : f64 -> f64) (rb : roaring) (srt : list iter -> list iter) (stable : (cand -> f64) -> list cand -> list cand)
    (sp : spellchecker) (docs : list (Z * list term)) (next : option scorerNext) : Prop := {
  po_docs : docs_ok docs; po_index : index_of rb (sp_index sp) docs; po_srt : sorter_ok srt; po_stable : stable_ok stable;
  po_score : forall doc, In doc docs -> newScorer flog next (fst doc) = Ret (sc_of flog next (fst doc)) /\ sc_of flog next (fst doc) <> S754_nan;
  po_value : forall doc, In doc docs -> exists b, sp_value sp (fst doc) = Ret b }.
(** The query: a context and a last word, with their terms. *)
Record query_of (sp : spellchecker) (query : bytes) (topK : Z) (similarity : f64) (seq : list bytes) (word : bytes) (next : option scorerNext) (terms tokens : list term) : Prop := {
  qo_split : sp_tokenize sp query = Ret (seq ++ [word]);
  qo_next : scorer_next (sp_get sp) (sp_model sp) seq = Ret next;
  qo_terms : sp_complete sp word = Ret terms; qo_nodup : NoDup terms; qo_small : 1 <= zlen terms < 2 ^ 32;
  qo_tokens : sp_suggest sp word = Ret tokens;
  qo_query : query_ok (sp_index sp) tokens Cosine similarity topK; qo_search : searchable (sp_index sp) tokens Cosine similarity }.

Definition fuzzy_ok (docs : list (Z * list term)) (tokens : list term) (alpha : f64) (k : Z) (l : list cand) : Prop :=
  zlen l <= k /\ NoDup (map Key l) /\
  (forall c, In c l -> exists doc, In doc docs /\ c = cand_of Cosine tokens doc /\ (sim_of Cosine tokens doc >= val alpha * (1 - / 2 ^ 46))%R) /\
  (forall doc, In doc docs -> 1 <= zlen (snd doc) -> (sim_of Cosine tokens doc >= val alpha * (1 + / 2 ^ 46))%R -> In (cand_of Cosine tokens doc) l \/ zlen l = k).

Section C.
Context (flog : f64 -> f64) (rb : roaring) (srt : list iter -> list iter) (stable : (cand -> f64) -> list cand -> list cand).
Context (sp : spellchecker) (docs : list (Z * list term)) (query : bytes) (topK : Z) (alpha : f64) (seq : list bytes) (word : bytes) (next : option scorerNext) (terms tokens : list term).
Context (HP : parts_ok flog rb srt stable sp docs next) (HQ : query_of sp query topK alpha seq word next terms tokens).
Notation sc := (sc_of flog next).
Lemma topK_pos : 1 <= topK.
Proof. destruct HQ as [_ _ _ _ _ _ (_ & _ & _ & _ & _ & H) _]. exact H. Qed.
Lemma completed_ok sched r : completed rb srt sched sp terms (newScorer flog next) topK = Some r -> exists l, r = Ret l /\ best_k topK (completions sc terms docs) l.
Proof.
  destruct HP, HQ. unfold completed. intros H. destruct (lrun rb srt (sp_index sp) terms (newScorer flog next) topK sched (lstart terms topK)) as [p|] eqn:E; [|discriminate].
  pose proof (run_lgood rb srt (sp_index sp) docs terms (newScorer flog next) sc topK po_docs0 po_index0 po_srt0 qo_small0 qo_nodup0 topK_pos po_score0 sched _ _ (start_lgood (sp_index sp) docs terms sc topK topK_pos) E) as HG.
  destruct p as [s|r'|]; [discriminate| |destruct HG]. injection H as <-. cbn [LGood] in HG. destruct r' as [l| | |]; [|destruct HG..]. exists l. split; [reflexivity|exact HG].
Qed.
Lemma suggested_ok sched r : suggested rb srt sched sp tokens alpha topK = Some r -> exists l, r = Ret l /\ fuzzy_ok docs tokens alpha topK l.
Proof.
  destruct HP, HQ. unfold suggested. intros H. destruct (run rb srt (sp_index sp) tokens Cosine alpha topK sched (start (sp_index sp) tokens Cosine alpha topK)) as [p|] eqn:E; [|discriminate].
  destruct p as [s|r'|]; [discriminate| |].
  - injection H as <-. destruct (C41_every_schedule_partial rb srt (sp_index sp) docs tokens Cosine alpha topK sched r' qo_query0 qo_search0 po_docs0 po_index0 po_srt0 E) as (l & -> & H1 & _ & H2 & H3 & H4).
    exists l. split; [reflexivity|]. split; [exact H1|]. split; [exact H2|]. split; [exact H3|]. intros doc Hd Hl Hsim. destruct (H4 doc Hd Hl ltac:(discriminate) Hsim) as [Hin|[Hz _]]; auto.
  - destruct (C42_returns_partial rb srt (sp_index sp) docs tokens Cosine alpha topK sched Crashed qo_query0 qo_search0 po_docs0 po_index0 po_srt0 E) as [(l & El)|(s & c & p' & Es & _)]; discriminate.
Qed.
Lemma comp_in comp c : best_k topK (completions sc terms docs) comp -> In c comp -> exists doc, In doc docs /\ has_all terms doc = true /\ c = completion_of sc doc.
Proof.
  intros (_ & _ & rest & Hp & _) Hc. assert (In c (completions sc terms docs)) as Hin by (apply (Permutation_in _ (Permutation_sym Hp)); apply in_app_iff; left; exact Hc).
  unfold completions in Hin. apply in_map_iff in Hin. destruct Hin as (doc & <- & Hd). apply filter_In in Hd. exists doc. tauto.
Qed.
Lemma comp_nodup comp : best_k topK (completions sc terms docs) comp -> NoDup (map Key comp).
Proof.
  intros (_ & _ & rest & Hp & _). assert (NoDup (map Key (completions sc terms docs))) as H.
  { unfold completions. rewrite map_map. cbn [completion_of Key]. pose proof (sorted_sub docs (po_docs _ _ _ _ _ _ _ HP) (has_all terms)) as Hs. change (map (fun x : Z * list term => fst x) (filter (has_all terms) docs)) with (map fst (filter (has_all terms) docs)). clear - Hs. revert Hs. generalize (map fst (filter (has_all terms) docs)). intros ks Hs. induction Hs as [|x l _ IH Hx]; constructor; [|exact IH]. intros Hin. rewrite Forall_forall in Hx. specialize (Hx x Hin). lia. }
  apply (Permutation_map Key) in Hp. rewrite map_app in Hp. apply (Permutation_NoDup Hp) in H. clear - H. induction (map Key comp) as [|x l IH]; [constructor|]. inversion_clear H. constructor; [|auto]. intros Hin. apply H0. apply in_app_iff. left. exact Hin.
Qed.
Lemma predict_shape sched sched' r : Predict flog rb srt stable sched sched' sp query topK alpha = Some r ->
  exists comp fuzzy vs, best_k topK (completions sc terms docs) comp /\ (topK <= zlen comp -> fuzzy = []) /\ (zlen comp < topK -> fuzzy_ok docs tokens alpha topK fuzzy) /\
    (forall c, In c (merge comp fuzzy) -> exists doc, In doc docs /\ Key c = fst doc /\ (has_all terms doc = true \/ (sim_of Cosine tokens doc >= val alpha * (1 - / 2 ^ 46))%R)) /\
    r = Ret vs /\ map (sp_value sp) (map Key (firstn (Z.to_nat (topK + 1)) (ordered flog stable next (merge comp fuzzy)))) = map Ret vs
    /\ Permutation (merge comp fuzzy) (ordered flog stable next (merge comp fuzzy))
    /\ (next <> None -> StronglySorted (fun a b => flt (sc (Key a)) (sc (Key b)) = false) (ordered flog stable next (merge comp fuzzy))).
Proof.
  intros H. unfold Predict in H. destruct HQ. rewrite qo_split0, rev_app_distr in H. cbn [rev app] in H. rewrite rev_involutive, qo_next0, qo_terms0 in H.
  destruct (completed rb srt sched sp terms (newScorer flog next) topK) as [rc|] eqn:Ec; [|discriminate]. destruct (completed_ok _ _ Ec) as (comp & -> & Hb).
  assert (forall fuzzy, (topK <= zlen comp -> fuzzy = []) -> (zlen comp < topK -> fuzzy_ok docs tokens alpha topK fuzzy) -> Some (finish_prediction flog stable sp next topK (merge comp fuzzy)) = Some r ->
    exists comp fuzzy vs, best_k topK (completions sc terms docs) comp /\ (topK <= zlen comp -> fuzzy = []) /\ (zlen comp < topK -> fuzzy_ok docs tokens alpha topK fuzzy) /\
    (forall c, In c (merge comp fuzzy) -> exists doc, In doc docs /\ Key c = fst doc /\ (has_all terms doc = true \/ (sim_of Cosine tokens doc >= val alpha * (1 - / 2 ^ 46))%R)) /\
    r = Ret vs /\ map (sp_value sp) (map Key (firstn (Z.to_nat (topK + 1)) (ordered flog stable next (merge comp fuzzy)))) = map Ret vs
    /\ Permutation (merge comp fuzzy) (ordered flog stable next (merge comp fuzzy))
    /\ (next <> None -> StronglySorted (fun a b => flt (sc (Key a)) (sc (Key b)) = false) (ordered flog stable next (merge comp fuzzy)))) as Hfin.
  { intros fuzzy F1 F2 E. injection E as <-.
    assert (forall c, In c (merge comp fuzzy) -> exists doc, In doc docs /\ Key c = fst doc /\ (has_all terms doc = true \/ (sim_of Cosine tokens doc >= val alpha * (1 - / 2 ^ 46))%R)) as Hin.
    { intros c Hc. destruct (merge_app fuzzy comp) as (t & Et & Ht). rewrite Et in Hc. apply in_app_iff in Hc. destruct Hc as [Hc|Hc].
      - destruct (comp_in comp c Hb Hc) as (doc & Hd & Ha & ->). exists doc. auto.
      - apply Ht in Hc. destruct (Z_lt_le_dec (zlen comp) topK) as [Hl|Hl]; [|rewrite (F1 Hl) in Hc; destruct Hc]. destruct (F2 Hl) as (_ & _ & H3 & _). destruct (H3 c Hc) as (doc & Hd & -> & Hs). exists doc. auto. }
    destruct (finish_ok flog stable sp next topK (po_stable _ _ _ _ _ _ _ HP) topK_pos (merge comp fuzzy)) as ((vs & Ev & Em) & Hp & Hs).
    - intros c Hc. destruct (Hin c Hc) as (doc & Hd & -> & _). exact (po_score _ _ _ _ _ _ _ HP doc Hd).
    - intros c Hc. destruct (Hin c Hc) as (doc & Hd & -> & _). exact (po_value _ _ _ _ _ _ _ HP doc Hd).
    - exists comp, fuzzy, vs. split; [exact Hb|]. split; [exact F1|]. split; [exact F2|]. split; [exact Hin|]. split; [exact Ev|]. split; [exact Em|]. split; [exact Hp|exact Hs]. }
  destruct (Z.ltb_spec (zlen comp) topK) as [Hlt|Hge].
  - rewrite qo_tokens0 in H. destruct (suggested rb srt sched' sp tokens alpha topK) as [rf|] eqn:Ef; [|discriminate]. destruct (suggested_ok _ _ Ef) as (fuzzy & -> & Hf).
    apply (Hfin fuzzy); [lia|auto|exact H].
  - apply (Hfin []); [reflexivity|lia|exact H].
Qed.
End C.

(** ** C61 *)
(** What a call returns, for every index, model, query, limit from 1 and every schedule:
    no error, distinct entries of the dictionary, at most limit + 1 of them, each a
    completion of the last word or similar to it as requested (up to a relative 2^-46),
    descending in the next-word score if the context is known; every completion is returned
    unless there are limit others with no smaller score; and if there are fewer than limit
    completions, every clearly similar entry is returned unless limit entries are. *)
Theorem C61_prediction_partial : forall flog rb srt stable sp docs query topK alpha seq word next terms tokens sched sched' r,
  parts_ok flog rb srt stable sp docs next -> query_of sp query topK alpha seq word next terms tokens ->
  Predict flog rb srt stable sched sched' sp query topK alpha = Some r ->
  exists ids vs, r = Ret vs /\ map (sp_value sp) ids = map Ret vs /\ zlen ids <= topK + 1 /\ NoDup ids /\
    (forall x, In x ids -> exists ts, In (x, ts) docs /\ ((forall t, In t terms -> In t ts) \/ (sim_of Cosine tokens (x, ts) >= val alpha * (1 - / 2 ^ 46))%R)) /\
    (next <> None -> StronglySorted (fun x y => flt (sc_of flog next x) (sc_of flog next y) = false) ids) /\
    (forall x ts, In (x, ts) docs -> (forall t, In t terms -> In t ts) ->
       In x ids \/ (topK <= zlen ids /\ forall y, In y ids -> flt (sc_of flog next y) (sc_of flog next x) = false)) /\
    (zlen (filter (has_all terms) docs) < topK -> forall x ts, In (x, ts) docs -> 1 <= zlen ts -> (sim_of Cosine tokens (x, ts) >= val alpha * (1 + / 2 ^ 46))%R ->
       In x ids \/ topK <= zlen ids).
Proof.
  intros flog rb srt stable sp docs query topK alpha seq word next terms tokens sched sched' r HP HQ Hr. pose proof (topK_pos _ _ _ _ _ _ _ _ _ HQ) as Hk.
  destruct (predict_shape flog rb srt stable sp docs query topK alpha seq word next terms tokens HP HQ sched sched' r Hr) as (comp & fuzzy & vs & Hb & F1 & F2 & Hin & Er & Em & Hp & Hs).
  set (o := ordered flog stable next (merge comp fuzzy)) in *. set (N := Z.to_nat (topK + 1)) in *. exists (map Key (firstn N o)), vs. split; [exact Er|]. split; [exact Em|].
  assert (In_o : forall x, In x (map Key o) <-> In x (map Key comp) \/ In x (map Key fuzzy)).
  { intros x. rewrite <- merge_keys. split; apply Permutation_in; apply Permutation_map; [apply Permutation_sym|]; exact Hp. }
  assert (NoDup (map Key o)) as Hno by (eapply Permutation_NoDup; [apply Permutation_map; exact Hp|]; apply merge_nodup; eapply comp_nodup; eassumption).
  assert (Hcut : forall x, In x (map Key o) -> In x (map Key (firstn N o)) \/ (In x (map Key (skipn N o)) /\ zlen (map Key (firstn N o)) = topK + 1)).
  { intros x Hx. rewrite <- (firstn_skipn N o), map_app in Hx. apply in_app_iff in Hx. destruct Hx as [Hx|Hx]; [left; exact Hx|right]. split; [exact Hx|].
    unfold zlen. rewrite map_length, firstn_length. assert (length (skipn N o) <> O) as Hne by (destruct (skipn N o); [destruct Hx|discriminate]). rewrite skipn_length in Hne. unfold N in *. lia. }
  assert (Hall : forall doc, has_all terms doc = true <-> forall t, In t terms -> In t (snd doc)).
  { intros doc. unfold has_all. rewrite forallb_forall. split; intros H t Ht; specialize (H t Ht); apply mem_In'; exact H. }
  assert (Hkey : forall x, In x (map Key (firstn N o)) -> exists ts, In (x, ts) docs /\ ((forall t, In t terms -> In t ts) \/ (sim_of Cosine tokens (x, ts) >= val alpha * (1 - / 2 ^ 46))%R)).
  { intros x Hx. apply in_map_iff in Hx. destruct Hx as (c & <- & Hc). assert (In c (merge comp fuzzy)) as Hc' by (apply (Permutation_in _ (Permutation_sym Hp)); rewrite <- (firstn_skipn N o); apply in_app_iff; left; exact Hc).
    destruct (Hin c Hc') as ([x ts] & Hd & -> & Hor). exists ts. split; [exact Hd|]. cbn [fst]. destruct Hor as [Ha|Ha]; [left; apply (proj1 (Hall (x, ts))); exact Ha|right; exact Ha]. }
  assert (Hzo : zlen (map Key o) = zlen (merge comp fuzzy)) by (unfold zlen; rewrite map_length, <- (Permutation_length Hp); reflexivity).
  assert (Hzc : zlen (filter (has_all terms) docs) = zlen (completions (sc_of flog next) terms docs)) by (unfold zlen, completions; rewrite map_length; reflexivity).
  pose proof Hb as (Hbl & Hbs & rest & Hbp & Hbr).
  split; [|split; [|split; [exact Hkey|split; [|split]]]].
  - unfold zlen. rewrite map_length, firstn_length. unfold N. lia.
  - rewrite <- firstn_map. clear - Hno. revert Hno. generalize (map Key o). induction N as [|N IH]; intros l H; [constructor|]. destruct l as [|x l]; [constructor|]. cbn [firstn]. inversion_clear H. constructor; [|auto]. intros Hx. apply H0. rewrite <- (firstn_skipn N l). apply in_app_iff. left. exact Hx.
  - intros Hnn. specialize (Hs Hnn). apply (sorted_firstn _ N) in Hs. clear - Hs. induction Hs as [|c l _ IH Hc]; cbn [map]; constructor; [exact IH|]. rewrite Forall_map. exact Hc.
  - intros x ts Hd Ht. assert (In (completion_of (sc_of flog next) (x, ts)) (completions (sc_of flog next) terms docs)) as Hx.
    { apply in_map. apply filter_In. split; [exact Hd|]. apply Hall. exact Ht. }
    assert (Hsx : sc_of flog next x <> S754_nan) by exact (proj2 (po_score _ _ _ _ _ _ _ HP (x, ts) Hd)).
    apply (Permutation_in _ Hbp) in Hx. apply in_app_iff in Hx. destruct Hx as [Hx|Hx].
    + assert (In x (map Key o)) as Hxo by (apply In_o; left; apply in_map_iff; eexists; split; [|exact Hx]; reflexivity). destruct (Hcut x Hxo) as [H|[H Hz]]; [left; exact H|right]. split; [lia|].
      intros y Hy. destruct next as [nx|] eqn:En; [|unfold sc_of, newScorer; apply flt_irrefl; discriminate].
      apply in_map_iff in H, Hy. destruct H as (cx & <- & Hcx), Hy as (cy & <- & Hcy). exact (sorted_split _ N o cy cx (Hs ltac:(discriminate)) Hcy Hcx).
    + right. assert (zlen comp = topK) as Hz.
      { unfold zlen in *. pose proof (Permutation_length Hbp) as Hpl. rewrite app_length in Hpl. destruct rest; [destruct Hx|]. cbn [length] in Hpl. lia. }
      assert (fuzzy = []) as Ef0 by (apply F1; lia). subst fuzzy. change (merge comp []) with comp in *. assert (firstn N o = o) as Efo by (apply firstn_all2; unfold N; unfold zlen in *; rewrite map_length in Hzo; lia).
      rewrite Efo. split; [lia|]. intros y Hy. apply In_o in Hy. destruct Hy as [Hy|[]]. apply in_map_iff in Hy. destruct Hy as (c & <- & Hc). pose proof (Hbr c _ Hc Hx) as Hw.
      destruct (comp_in flog docs topK next terms comp c Hb Hc) as (doc & Hdd & _ & ->). cbn [completion_of Key]. unfold worse in Hw. cbn [completion_of Sc fst] in Hw. destruct (flt _ _); [|reflexivity]. exfalso. apply Hw. left. reflexivity.
  - intros Hfew x ts Hd Hl Hsim. assert (zlen comp < topK) as Hlt by (unfold zlen in *; lia). destruct (F2 Hlt) as (Hfz & Hfn & _ & Hfc). destruct (Hfc (x, ts) Hd Hl Hsim) as [Hf|Hf].
    + assert (In x (map Key o)) as Hxo by (apply In_o; right; apply in_map_iff; eexists; split; [|exact Hf]; reflexivity). destruct (Hcut x Hxo) as [H|[H Hz]]; [left; exact H|right; lia].
    + right. assert (topK <= zlen (map Key o)) as Hto.
      { rewrite <- Hf. unfold zlen. apply inj_le. rewrite <- (map_length Key fuzzy). apply NoDup_incl_length; [exact Hfn|]. intros y Hy. apply In_o. right. exact Hy. }
      unfold zlen in *. rewrite map_length in *. rewrite firstn_length. unfold N. lia.
Qed.
Print Assumptions C61_prediction_partial.
(** With at least limit completions the result is exactly the limit best of them: highest
    next-word score first, ties by the position in the dictionary. *)
Theorem C61_enough_completions : forall flog rb srt stable sp docs query topK alpha seq word next terms tokens sched sched' r,
  parts_ok flog rb srt stable sp docs next -> query_of sp query topK alpha seq word next terms tokens ->
  topK <= zlen (filter (has_all terms) docs) ->
  Predict flog rb srt stable sched sched' sp query topK alpha = Some r ->
  exists l vs, r = Ret vs /\ map (sp_value sp) (map Key l) = map Ret vs /\ zlen vs = topK /\ best_k topK (completions (sc_of flog next) terms docs) l.
Proof.
  intros flog rb srt stable sp docs query topK alpha seq word next terms tokens sched sched' r HP HQ Hmany Hr. pose proof (topK_pos _ _ _ _ _ _ _ _ _ HQ) as Hk.
  destruct (predict_shape flog rb srt stable sp docs query topK alpha seq word next terms tokens HP HQ sched sched' r Hr) as (comp & fuzzy & vs & Hb & F1 & _ & Hin & Er & Em & Hp & Hs).
  assert (zlen comp = topK) as Hz by (pose proof Hb as (Hl & _); unfold zlen, completions in *; rewrite map_length in Hl; lia). assert (fuzzy = []) as -> by (apply F1; lia). change (merge comp []) with comp in *.
  assert (ordered flog stable next comp = comp) as Eo.
  { unfold ordered. destruct next as [nx|]; [|reflexivity].
    assert (Hnum : forall c, In c comp -> key_of (newScorer flog (Some nx)) c <> S754_nan) by (intros c Hc; destruct (Hin c Hc) as (doc & Hd & E & _); unfold key_of; rewrite E; exact (proj2 (po_score _ _ _ _ _ _ _ HP doc Hd))).
    destruct (po_stable _ _ _ _ _ _ _ HP (key_of (newScorer flog (Some nx))) comp Hnum) as (H1 & H2 & H3).
    apply (stable_same (key_of (newScorer flog (Some nx)))); try assumption.
    pose proof Hb as (_ & Hbs & _). assert (Forall (fun c => key_of (newScorer flog (Some nx)) c = Sc c) comp) as Hkey.
    { apply Forall_forall. intros c Hc. destruct (comp_in flog docs topK (Some nx) terms comp c Hb Hc) as (doc & _ & _ & ->). reflexivity. }
    clear - Hbs Hkey. induction Hbs as [|a l _ IH Ha]; constructor; [apply IH; exact (Forall_inv_tail Hkey)|]. rewrite Forall_forall in *. intros b Hbb. specialize (Ha b Hbb). rewrite (Hkey a (or_introl eq_refl)), (Hkey b (or_intror Hbb)).
    unfold worse in Ha. destruct (flt _ _); [exfalso; apply Ha; left; reflexivity|reflexivity]. }
  rewrite Eo in Em. rewrite firstn_all2 in Em by (unfold zlen in Hz; lia). exists comp, vs. split; [exact Er|]. split; [exact Em|]. split; [|exact Hb].
  apply (f_equal (@length _)) in Em. rewrite !map_length in Em. unfold zlen in *. lia.
Qed.
Print Assumptions C61_enough_completions.
(** Without a known context: first the completions with the smallest positions in the
    dictionary, at most limit, ascending; then similar entries only if there are fewer. *)
Theorem C61_no_context : forall flog rb srt stable sp docs query topK alpha seq word terms tokens sched sched' r,
  parts_ok flog rb srt stable sp docs None -> query_of sp query topK alpha seq word None terms tokens ->
  Predict flog rb srt stable sched sched' sp query topK alpha = Some r ->
  exists vs more, r = Ret vs /\ map (sp_value sp) (firstn (Z.to_nat topK) (map fst (filter (has_all terms) docs)) ++ more) = map Ret vs /\
    (topK <= zlen (filter (has_all terms) docs) -> more = []).
Proof.
  intros flog rb srt stable sp docs query topK alpha seq word terms tokens sched sched' r HP HQ Hr. pose proof (topK_pos _ _ _ _ _ _ _ _ _ HQ) as Hk.
  destruct (predict_shape flog rb srt stable sp docs query topK alpha seq word None terms tokens HP HQ sched sched' r Hr) as (comp & fuzzy & vs & Hb & F1 & F2 & Hin & Er & Em & _ & _).
  unfold ordered in Em. destruct (merge_app fuzzy comp) as (t & Et & Ht). rewrite Et in Em.
  set (m := filter (has_all terms) docs) in *. assert (map Key comp = firstn (Z.to_nat topK) (map fst m)) as Ek.
  { assert (best_k topK (completions (sc_of flog None) terms docs) (map (completion_of (sc_of flog None)) (firstn (Z.to_nat topK) m))) as Hb'.
    { unfold completions. fold m. pose proof (sorted_sub docs (po_docs _ _ _ _ _ _ _ HP) (has_all terms)) as Hs. fold m in Hs. split; [|split].
      - rewrite !map_length, firstn_length. lia.
      - rewrite <- firstn_map. apply sorted_firstn. clear - Hs. induction m as [|x l IH]; [constructor|]. cbn [map] in *. inversion_clear Hs. constructor; [auto|]. rewrite Forall_map in *. eapply Forall_impl; [|exact H0].
        intros y Hy [H1|[_ H1]]; cbn [completion_of Sc Key] in *; [unfold sc_of, newScorer in H1; rewrite flt_irrefl in H1 by discriminate; discriminate|lia].
      - exists (map (completion_of (sc_of flog None)) (skipn (Z.to_nat topK) m)). split; [rewrite <- map_app, firstn_skipn; apply Permutation_refl|].
        intros a b Ha Hbb. apply in_map_iff in Ha, Hbb. destruct Ha as (x & <- & Hx), Hbb as (y & <- & Hy). assert (fst x < fst y) as Hxy.
        { apply (sorted_split Z.lt (Z.to_nat topK) (map fst m) (fst x) (fst y) Hs); rewrite ?firstn_map, ?skipn_map; apply in_map; assumption. }
        intros [H1|[_ H1]]; cbn [completion_of Sc Key] in *; [unfold sc_of, newScorer in H1; rewrite flt_irrefl in H1 by discriminate; discriminate|lia]. }
    assert (numeric (completions (sc_of flog None) terms docs)) as Hnum by (apply Forall_forall; intros c Hc; apply in_map_iff in Hc; destruct Hc as (doc & <- & _); discriminate).
    pose proof (best_unique topK _ _ _ _ Hnum (Permutation_refl _) Hb Hb') as Hsame.
    rewrite firstn_map. assert (forall l l', Forall2 same l l' -> map Key l = map Key l') as Hmap by (induction 1 as [|a b l l' [Hab _] _ IH]; [reflexivity|]; cbn [map]; rewrite Hab, IH; reflexivity).
    rewrite (Hmap _ _ Hsame), map_map. reflexivity. }
  rewrite firstn_app, map_app in Em. assert (length comp <= Z.to_nat topK)%nat as Hlc by (pose proof Hb as (Hl & _); unfold zlen in *; lia).
  rewrite (firstn_all2 comp) in Em by lia. rewrite Ek in Em. eexists vs, _. split; [exact Er|]. split; [exact Em|].
  intros Hm. assert (zlen comp = topK) as Hz by (pose proof Hb as (Hl & _); unfold zlen, completions in *; rewrite map_length in Hl; fold m in Hl; lia). rewrite (F1 ltac:(lia)) in Et. cbn [merge] in Et.
  assert (t = []) as -> by (apply (f_equal (@length _)) in Et; rewrite app_length in Et; destruct t; [reflexivity|cbn [length] in Et; lia]). rewrite firstn_nil. reflexivity.
Qed.
Print Assumptions C61_no_context.
(** With a unigram model every query of two or more words is an error. *)
Theorem C61_unigram_model_refuted : forall flog rb srt stable sched sched' sp query topK alpha seq word ids,
  sp_tokenize sp query = Ret (seq ++ [word]) -> seq <> [] -> get_all (sp_get sp) seq = Ret ids ->
  nGramOrder (lm_model (sp_model sp)) = 1 -> lm_order (sp_model sp) = 1 ->
  exists e, Predict flog rb srt stable sched sched' sp query topK alpha = Some (Fail e).
Proof.
  intros flog rb srt stable sched sched' sp query topK alpha seq word ids Ht Hne Hg Ho1 Ho2. unfold Predict. rewrite Ht, rev_app_distr. cbn [rev app]. rewrite rev_involutive.
  assert (zlen ids = zlen seq) as Hz. { clear - Hg. revert ids Hg. induction seq as [|s l IH]; intros ids Hg; cbn [get_all] in Hg; [injection Hg as <-; reflexivity|]. destruct (sp_get sp s); try discriminate. cbn [bind] in Hg. destruct (get_all (sp_get sp) l); try discriminate. cbn [bind] in Hg. injection Hg as <-. rewrite !zlen_cons, (IH a0 eq_refl). reflexivity. }
  assert (1 <= zlen seq) as H1 by (destruct seq; [congruence|]; rewrite zlen_cons; pose proof (zlen_nonneg seq); lia).
  assert (exists e, scorer_next (sp_get sp) (sp_model sp) seq = Fail e) as (e & ->); [|eauto]. unfold scorer_next. rewrite Hg. cbn [bind]. replace (0 <? zlen ids) with true by lia. unfold LMNext, lm_context. rewrite Ho2. replace (zlen ids + 1 <? 1) with false by lia.
  assert (forall l, zlen (A := Z) l = 0 -> exists e, (s <- Ret l ;; Next (lm_model (sp_model sp)) s) = Fail e) as Hf.
  { intros l Hl. cbn [bind]. unfold Next. rewrite Hl. replace ((_ <=? 0) || (0 =? 0)) with true by lia. eauto. }
  destruct (Z.ltb_spec 1 (zlen ids)) as [Hlt|Hge].
  - unfold slice. replace (_ && _ && _) with true by lia. apply Hf. unfold zlen. rewrite firstn_length. lia.
  - replace (zlen ids =? 1) with true by lia. unfold slice. replace (_ && _ && _) with true by lia. apply Hf. reflexivity.
Qed.
Print Assumptions C61_unigram_model_refuted.

(** ** C62 *)
(** A limit from 1: every run of each of the two searches ends within a number of moves, it
    can move until it returns a result, and then the call returns a result. *)
Theorem C62_returns_partial : forall flog rb srt stable sp docs query topK alpha seq word next terms tokens,
  parts_ok flog rb srt stable sp docs next -> query_of sp query topK alpha seq word next terms tokens ->
  let ix := sp_index sp in let score := newScorer flog next in
  (forall sched p, lrun rb srt ix terms score topK sched (lstart terms topK) = Some p ->
     zlen sched <= 5 * Z.max 0 (zlen ix - zlen terms) + 2 /\ ((exists l, p = LFinished (Ret l)) \/ exists c p', lexec rb srt ix terms score topK c p = Some p')) /\
  (forall sched p, run rb srt ix tokens Cosine alpha topK sched (start ix tokens Cosine alpha topK) = Some p ->
     zlen sched <= 20 * Z.max 0 (Z.max (zlen tokens - bMin tokens Cosine alpha + 1) (bMax ix tokens Cosine alpha - zlen tokens)) + 7 /\
     ((exists l, p = Finished (Ret l)) \/ exists c p', exec rb srt ix tokens Cosine alpha topK c p = Some p')) /\
  (forall sched sched' r r', lrun rb srt ix terms score topK sched (lstart terms topK) = Some (LFinished r) ->
     run rb srt ix tokens Cosine alpha topK sched' (start ix tokens Cosine alpha topK) = Some (Finished r') ->
     exists vs, Predict flog rb srt stable sched sched' sp query topK alpha = Some (Ret vs)).
Proof.
  intros flog rb srt stable sp docs query topK alpha seq word next terms tokens HP HQ ix score. pose proof (topK_pos _ _ _ _ _ _ _ _ _ HQ) as Hk. destruct HP, HQ. split; [|split].
  - intros sched p Hr. split.
    + apply lrun_bounded in Hr. pose proof (lmu_nonneg ix score topK p). unfold lstart in Hr. destruct (NewTopKQueue topK); cbn [lmu l_prod l_ws wsum fold_right] in Hr; lia.
    + pose proof (run_lgood rb srt ix docs terms score (sc_of flog next) topK po_docs0 po_index0 po_srt0 qo_small0 qo_nodup0 Hk po_score0 sched _ _ (start_lgood ix docs terms (sc_of flog next) topK Hk) Hr) as HG.
      destruct p as [s|r|]; [right|left|destruct HG].
      * apply lprogress. apply (lrun_lock rb srt ix terms score topK sched _ _) in Hr; [exact Hr|]. unfold lstart. destruct (NewTopKQueue topK); try exact I. reflexivity.
      * cbn [LGood] in HG. destruct r as [l| | |]; [|destruct HG..]. eauto.
  - intros sched p Hr. split; [exact (C42_terminates_partial _ _ _ _ _ _ _ _ _ (query_ok_any _ _ _ _ _ qo_query0) Hr)|]. destruct (C42_returns_partial rb srt ix docs tokens Cosine alpha topK sched p qo_query0 qo_search0 po_docs0 po_index0 po_srt0 Hr) as [H|(s & c & p' & -> & E)]; [left; exact H|right; eauto].
  - intros sched sched' r r' H1 H2.
    assert (Predict flog rb srt stable sched sched' sp query topK alpha <> None) as Hnn.
    { unfold Predict. rewrite qo_split0, rev_app_distr. cbn [rev app]. rewrite rev_involutive, qo_next0, qo_terms0. unfold completed. fold ix score. rewrite H1. destruct r as [comp| | |]; try discriminate. destruct (zlen comp <? topK); [|discriminate].
      rewrite qo_tokens0. unfold suggested. fold ix. rewrite H2. destruct r'; discriminate. }
    destruct (Predict flog rb srt stable sched sched' sp query topK alpha) as [res0|] eqn:E; [|congruence].
    destruct (C61_prediction_partial flog rb srt stable sp docs query topK alpha seq word next terms tokens sched sched' res0) as (ids & vs & -> & _); [split; assumption|split; assumption|exact E|eauto].
Qed.
Print Assumptions C62_returns_partial.
(** The claim is false.  A negative limit panics at once ... *)
Theorem C62_negative_limit_refuted : forall flog rb srt stable sched' sp query topK alpha seq word next terms, topK < 0 ->
  sp_tokenize sp query = Ret (seq ++ [word]) -> scorer_next (sp_get sp) (sp_model sp) seq = Ret next -> sp_complete sp word = Ret terms ->
  Predict flog rb srt stable [] sched' sp query topK alpha = Some Panic /\ forall sched r, Predict flog rb srt stable sched sched' sp query topK alpha = Some r -> r = Panic.
Proof.
  intros flog rb srt stable sched' sp query topK alpha seq word next terms Hk Ht Hn Hc. unfold Predict. rewrite Ht, rev_app_distr. cbn [rev app]. rewrite rev_involutive, Hn, Hc. unfold completed, lstart, NewTopKQueue. replace (topK <? 0) with true by lia. split; [reflexivity|].
  intros [|c t] r; cbn [lrun lexec]; intros E; [injection E as <-; reflexivity|discriminate].
Qed.
Print Assumptions C62_negative_limit_refuted.
(** ... a limit of zero panics whenever some entry completes the word: no schedule returns ... *)
Theorem C62_zero_limit_refuted : forall flog rb srt stable sched sched' sp docs query alpha seq word next terms x ts r,
  parts_ok flog rb srt stable sp docs next -> sp_tokenize sp query = Ret (seq ++ [word]) -> scorer_next (sp_get sp) (sp_model sp) seq = Ret next ->
  sp_complete sp word = Ret terms -> NoDup terms -> 1 <= zlen terms < 2 ^ 32 -> In (x, ts) docs -> (forall t, In t terms -> In t ts) ->
  Predict flog rb srt stable sched sched' sp query 0 alpha = Some r -> r = Panic.
Proof.
  intros flog rb srt stable sched sched' sp docs query alpha seq word next terms x ts r HP Ht Hn Hc Hnd Hsm Hin Hall Hr. destruct HP. set (ix := sp_index sp) in *. set (score := newScorer flog next) in *. set (B := zlen ts).
  assert (has_all terms (x, ts) = true) as Ha by (unfold has_all; apply forallb_forall; intros t Hx; apply mem_In', Hall, Hx).
  destruct (has_all_size rb ix docs terms po_index0 Hsm Hnd (x, ts) Hin Ha) as [HB1 HB2]. cbn [snd] in HB1, HB2. fold B in HB1, HB2. pose proof (get_range ix B HB2) as HB3.
  assert (forall iv, IndicesGet ix B = Some iv -> lsearch rb srt terms score 0 iv = Panic) as Hpan.
  { intros iv Hb. unfold lsearch. destruct (search_all (lm_collect score) srt rb iv (posting_of docs B) terms (NewTopKQueue 0) po_srt0) as (cs & Hans & Es).
    - intros t _. specialize (po_index0 B t). unfold index_holds in po_index0. rewrite Hb in po_index0. exact po_index0.
    - exact Hsm.
    - assert (In (x, zlen terms) cs) as Hx.
      { destruct Hans as [_ Hiff]. apply Hiff. rewrite (count_docs docs B terms x ts po_docs0 Hin eq_refl). apply filter_full in Ha. cbn [snd] in Ha. lia. }
      rewrite Es. destruct cs as [|[y c] cs]; [destruct Hx|]. assert (exists tsy, In (y, tsy) docs /\ c = zlen terms) as (tsy & Hy & ->).
      { destruct Hans as [_ Hiff]. destruct (proj1 (Hiff y c) (or_introl eq_refl)) as (Ec & H1 & H2). 
        assert (count y (map (posting_of docs B) terms) <> 0) as Hnz by lia. assert (exists t, In t terms /\ In y (posting_of docs B t)) as (t & _ & Hy).
        { clear - Hnz. unfold count in Hnz. induction terms as [|t l IH]; [destruct (Hnz eq_refl)|]. cbn [map filter] in Hnz.
          destruct (existsb (Z.eqb y) (posting_of docs B t)) eqn:E; [|destruct (IH Hnz) as (t' & H1 & H2); exists t'; split; [right; exact H1|exact H2]]. apply existsb_exists in E. destruct E as (z & Hz & E). apply Z.eqb_eq in E. subst z. exists t. split; [left; reflexivity|exact Hz]. }
        apply posting_of_In in Hy. destruct Hy as (tsy & H3 & H4 & _). exists tsy. split; [exact H3|]. rewrite (count_docs docs B terms y tsy po_docs0 H3 H4) in *. pose proof (filter_length_le' (fun t => existsb (beqb t) tsy) terms). unfold zlen in *. lia. }
      cbn [feed]. unfold lm_collect at 1. cbn [bind NewTopKQueue Z.ltb Z.compare]. pose proof (doc_u32 docs po_docs0 (y, tsy) Hy) as Hu. cbn [fst] in Hu.
      rewrite MergerProofs.position_pack by (try exact Hu; unfold is_u32; lia). destruct (po_score0 (y, tsy) Hy) as [Es' _]. cbn [fst] in Es'. rewrite Es'. cbn [bind].
      replace (Add (mkQueue 0 []) y (sc_of flog next y)) with (@Panic queue) by reflexivity.
      assert (forall l, feed (lm_collect score) l (@Panic queue) = (Ret tt, Panic)) as Hf by (induction l as [|[y1 c1] l IH]; [reflexivity|]; cbn [feed lm_collect bind]; exact IH). rewrite Hf. reflexivity. }
  set (Pr := fun p => match p with LRunning s => In (LSearch B) (l_ws s) \/ match l_prod s with LLoop b => b <= B | LWait => False end | LFinished _ => False | LCrashed => True end).
  assert (forall c p p', Pr p -> lexec rb srt ix terms score 0 c p = Some p' -> Pr p') as Hstep.
  { intros c p p' Hp He. destruct p as [s| |]; try discriminate. cbn [Pr] in Hp. destruct c as [|i]; cbn [lexec] in He.
    - unfold lexec_prod in He. destruct (l_prod s) as [b|] eqn:Ep.
      + destruct (Z.ltb_spec b (zlen ix)) as [Hlt|Hge]; injection He as <-; cbn [Pr l_ws l_prod].
        * destruct Hp as [Hp|Hp]; [left; destruct (IndicesGet ix b); [apply in_app_iff; left; exact Hp|exact Hp]|]. destruct (Z.eq_dec b B) as [->|Hne]; [|right; lia].
          left. destruct (IndicesGet ix B); [|congruence]. apply in_app_iff. right. left. reflexivity.
        * destruct Hp as [Hp|Hp]; [left; exact Hp|lia].
      + destruct Hp as [Hp|[]]. destruct (forallb lgone (l_ws s)) eqn:Eg; [|discriminate]. rewrite forallb_forall in Eg. discriminate (Eg _ Hp).
    - destruct (nth_error (l_ws s) i) as [w|] eqn:Ew; [|discriminate].
      assert (forall w', w <> LSearch B -> In (LSearch B) (set_nth_opt i w' (l_ws s)) \/ match l_prod s with LLoop b => b <= B | LWait => False end) as Hset.
      { intros w' Hw. destruct Hp as [Hp|Hp]; [left|right; exact Hp]. destruct (set_nth_split w' w i _ Ew) as (l1 & l2 & E1 & E2). rewrite E2. rewrite E1 in Hp. apply in_app_iff in Hp. apply in_app_iff. destruct Hp as [Hp|[Hp|Hp]]; [left; exact Hp|congruence|right; right; exact Hp]. }
      destruct w as [b|b q|b q|b|b|b e]; cbn [lexec_worker] in He.
      + destruct (IndicesGet ix b) as [iv|] eqn:Eb; [|injection He as <-; exact I]. destruct (Z.eq_dec b B) as [->|Hne]; [rewrite (Hpan iv Eb) in He; injection He as <-; exact I|].
        destruct (lsearch rb srt terms score 0 iv); injection He as <-; try exact I; cbn [Pr lset l_ws l_prod]; apply Hset; congruence.
      + destruct (l_locked s); [discriminate|]. injection He as <-. apply Hset. discriminate.
      + destruct (Merge (l_q s) q); injection He as <-; try exact I. apply Hset. discriminate.
      + injection He as <-. apply Hset. discriminate.
      + discriminate.
      + discriminate. }
  assert (forall sched p p', Pr p -> lrun rb srt ix terms score 0 sched p = Some p' -> Pr p') as Hrun.
  { induction sched0 as [|c t IH]; intros q q' Hq Hr'; cbn [lrun] in Hr'; [injection Hr' as <-; exact Hq|]. destruct (lexec _ _ _ _ _ _ c q) eqn:E; [|discriminate]. eapply IH; [|exact Hr']. eapply Hstep; eassumption. }
  unfold Predict in Hr. rewrite Ht, rev_app_distr in Hr. cbn [rev app] in Hr. rewrite rev_involutive, Hn, Hc in Hr. unfold completed in Hr. fold ix score in Hr.
  destruct (lrun rb srt ix terms score 0 sched (lstart terms 0)) as [p|] eqn:E; [|discriminate]. apply Hrun in E; [|cbn [Pr lstart NewTopKQueue Z.ltb Z.compare l_ws l_prod]; right; exact HB1].
  destruct p as [s|r'|]; [discriminate|destruct E|]. injection Hr as <-. reflexivity.
Qed.
Print Assumptions C62_zero_limit_refuted.
(** ... and so does a call with too few completions when every entry is shorter than the
    word by enough (C42). *)
Theorem C62_short_entries_refuted : forall flog rb srt stable sched sp query topK alpha seq word next terms tokens comp,
  sp_tokenize sp query = Ret (seq ++ [word]) -> scorer_next (sp_get sp) (sp_model sp) seq = Ret next -> sp_complete sp word = Ret terms -> sp_suggest sp word = Ret tokens ->
  lrun rb srt (sp_index sp) terms (newScorer flog next) topK sched (lstart terms topK) = Some (LFinished (Ret comp)) -> zlen comp < topK ->
  query_ok (sp_index sp) tokens Cosine alpha topK -> zlen (sp_index sp) < MinY Cosine alpha (zlen tokens) ->
  Predict flog rb srt stable sched [] sp query topK alpha = Some Panic.
Proof.
  intros flog rb srt stable sched sp query topK alpha seq word next terms tokens comp Ht Hn Hc Hs Hr Hl Hq Hm. unfold Predict. rewrite Ht, rev_app_distr. cbn [rev app]. rewrite rev_involutive, Hn, Hc. unfold completed. rewrite Hr.
  replace (zlen comp <? topK) with true by lia. rewrite Hs. unfold suggested. rewrite (C42_short_entries_panic_refuted _ _ _ _ _ Hq Hm). reflexivity.
Qed.
Print Assumptions C62_short_entries_refuted.

(** ** The hypotheses are met *)
(* a stable insertion sort *)
Fixpoint ins (key : cand -> f64) (c : cand) (l : list cand) : list cand :=
  match l with [] => [c] | d :: t => if flt (key c) (key d) then d :: ins key c t else c :: l end.
Definition isort (key : cand -> f64) (l : list cand) : list cand := fold_right (ins key) [] l.
Lemma ins_perm key c l : Permutation (c :: l) (ins key c l).
Proof. induction l as [|d l IH]; [reflexivity|]. cbn [ins]. destruct (flt _ _); [|reflexivity]. rewrite perm_swap. constructor. exact IH. Qed.
Lemma isort_perm key l : Permutation l (isort key l).
Proof. induction l as [|c l IH]; [constructor|]. cbn [isort fold_right]. fold (isort key l). rewrite <- ins_perm. constructor. exact IH. Qed.
Lemma isort_ok : stable_ok isort.
Proof.
  intros key l Hn. split; [apply isort_perm|].
  induction l as [|c l IH]; [split; [constructor|reflexivity]|]. destruct (IH ltac:(intros c' Hc'; apply Hn; right; exact Hc')) as [Hs Hf]. cbn [isort fold_right]. fold (isort key l).
  assert (Nc : key c <> S754_nan) by (apply Hn; left; reflexivity). assert (Nl : forall d, In d (isort key l) -> key d <> S754_nan) by (intros d Hd; apply Hn; right; apply (Permutation_in _ (Permutation_sym (isort_perm key l))); exact Hd).
  revert Hs Hf Nl. generalize (isort key l). intros s Hs Hf Nl. assert (forall v, filter (fun c => feq (key c) v) (ins key c s) = filter (fun c => feq (key c) v) (c :: s)) as Hi.
  { intros v. clear Hs Hf. induction s as [|d s IHs]; [reflexivity|]. cbn [ins]. destruct (flt (key c) (key d)) eqn:E; [|reflexivity]. cbn [filter] in *. rewrite IHs by (intros; apply Nl; right; assumption).
    destruct (feq (key c) v) eqn:E1, (feq (key d) v) eqn:E2; try reflexivity. exfalso. assert (Nd : key d <> S754_nan) by (apply Nl; left; reflexivity). assert (v <> S754_nan) as Nv by (intros ->; destruct (key c); discriminate).
    rewrite flt_rank, feq_rank in * by assumption. revert E E1 E2. destruct (rank (key c)) as [[? ?] ?], (rank (key d)) as [[? ?] ?], (rank v) as [[? ?] ?]. cbn. lia. }
  split.
  - clear Hf Hi. induction s as [|d s IHs]; [constructor; constructor|]. cbn [ins]. inversion_clear Hs. destruct (flt (key c) (key d)) eqn:E.
    + constructor; [apply IHs; [assumption|intros; apply Nl; right; assumption]|]. rewrite Forall_forall. intros e He. apply (Permutation_in _ (Permutation_sym (ins_perm key c s))) in He. destruct He as [<-|He]; [|rewrite Forall_forall in H0; auto].
      assert (Nd : key d <> S754_nan) by (apply Nl; left; reflexivity). rewrite flt_rank in * by assumption. revert E. destruct (rank (key c)) as [[? ?] ?], (rank (key d)) as [[? ?] ?]. cbn. lia.
    + constructor; [constructor; assumption|]. constructor; [exact E|]. rewrite Forall_forall in *. intros e He. eapply flt_trans_ge; [exact Nc|apply Nl; left; reflexivity|apply Nl; right; exact He|exact E|auto].
  - intros v. rewrite Hi. cbn [filter]. rewrite Hf. reflexivity.
Qed.

(* entries "abcdefgh", "a", "b" with their letters as terms; a bigram model in which "b" follows "a" *)
Definition letters (w : bytes) : res (list term) := Ret (map (fun b => [b]) w).
Definition demo61_docs : list (Z * list term) := [(0, map (fun b => [b]) (bs "abcdefgh")); (1, [bs "a"]); (2, [bs "b"])].
Definition demo61_value (x : Z) : res bytes := if x =? 0 then Ret (bs "abcdefgh") else if x =? 1 then Ret (bs "a") else if x =? 2 then Ret (bs "b") else Fail (ErrOther 1).
Definition demo61_lm : languageModel := match read_vectors [] files3 with Ret ixs => mkLM (NewNGramModel ixs) 2 8 9 | _ => mkLM (NewNGramModel []) 0 0 0 end.
(* "a ab": the words "a" (id 1) and "ab"; any other query: one word *)
Definition demo61_tokenize (q : bytes) : res (list bytes) := if beqb q (bs "a ab") then Ret [bs "a"; bs "ab"] else Ret [q].
Definition demo61_sp : spellchecker := mkSpell (build demo61_docs) letters letters (fun _ => Ret 1) demo61_lm demo61_tokenize demo61_value.
(* a scheduler: whoever can move first *)
Fixpoint lauto (fuel : nat) ix terms score k (p : lproc) : list lchoice :=
  match fuel with
  | O => []
  | S f => match List.find (fun c => match lexec rb4 (fun l => l) ix terms score k c p with Some _ => true | None => false end) (LProd :: map LWork (List.seq 0 9)) with
           | Some c => match lexec rb4 (fun l => l) ix terms score k c p with Some p' => c :: lauto f ix terms score k p' | None => [] end
           | None => []
           end
  end.
Fixpoint sauto (fuel : nat) ix tokens alpha k (p : proc) : list choice :=
  match fuel with
  | O => []
  | S f => match List.find (fun c => match exec rb4 (fun l => l) ix tokens Cosine alpha k c p with Some _ => true | None => false end) (CProd :: map CWork (List.seq 0 9)) with
           | Some c => match exec rb4 (fun l => l) ix tokens Cosine alpha k c p with Some p' => c :: sauto f ix tokens alpha k p' | None => [] end
           | None => []
           end
  end.
Definition demo61_terms : list term := [bs "a"; bs "b"].
Definition demo61_next (q : bytes) : option scorerNext := match (t <- demo61_tokenize q ;; scorer_next (fun _ => Ret 1) demo61_lm (removelast t)) with Ret n => n | _ => None end.
Definition demo61 (q : bytes) (k : Z) : option (res (list bytes)) :=
  let score := newScorer (fun x => x) (demo61_next q) in
  Predict (fun x => x) rb4 (fun l => l) isort
    (lauto 100 (build demo61_docs) demo61_terms score k (lstart demo61_terms k)) (sauto 300 (build demo61_docs) demo61_terms quarter k (start (build demo61_docs) demo61_terms Cosine quarter k))
    demo61_sp q k quarter.
Lemma demo61_parts q : q = bs "ab" \/ q = bs "a ab" -> parts_ok (fun x => x) rb4 (fun l => l) isort demo61_sp demo61_docs (demo61_next q).
Proof.
  intros Hq. assert (docs_ok demo61_docs) as Hd by docs_tac. split; [exact Hd|unfold demo61_sp; cbn [sp_index]; build_tac; exact Hd|exact sorter_id|exact isort_ok| |].
  - intros doc Hin. cbn [demo61_docs In] in Hin. destruct Hq as [->| ->]; destruct Hin as [<-|[<-|[<-|[]]]]; (split; [vm_compute; reflexivity|vm_compute; discriminate]).
  - intros doc Hin. cbn [demo61_docs In] in Hin. destruct Hin as [<-|[<-|[<-|[]]]]; eexists; reflexivity.
Qed.
Lemma demo61_query q seq k : (q = bs "ab" /\ seq = []) \/ (q = bs "a ab" /\ seq = [bs "a"]) -> 1 <= k -> query_of demo61_sp q k quarter seq (bs "ab") (demo61_next q) demo61_terms demo61_terms.
Proof.
  intros Hq Hk. assert (zlen (build demo61_docs) = 9) as Hz by (vm_compute; reflexivity). assert (NoDup demo61_terms) as Hn by (repeat apply NoDup_cons; try apply NoDup_nil; cbn; intuition discriminate).
  split; try reflexivity; try exact Hn.
  - destruct Hq as [[-> ->]|[-> ->]]; reflexivity.
  - destruct Hq as [[-> ->]|[-> ->]]; vm_compute; reflexivity.
  - change (zlen demo61_terms) with 2. lia.
  - unfold query_ok. cbn [sp_index demo61_sp]. rewrite Hz. split; [exact alpha_quarter|]. split; [exact Hn|]. change (zlen demo61_terms) with 2. split; [lia|]. split; [lia|]. split; [discriminate|exact Hk].
Qed.
(** C61's claim about the number of entries is false: limit 2, three entries. *)
Theorem C61_limit_refuted :
  parts_ok (fun x => x) rb4 (fun l => l) isort demo61_sp demo61_docs (demo61_next (bs "ab")) /\
  query_of demo61_sp (bs "ab") 2 quarter [] (bs "ab") (demo61_next (bs "ab")) demo61_terms demo61_terms /\
  demo61 (bs "ab") 2 = Some (Ret [bs "abcdefgh"; bs "a"; bs "b"]).
Proof. split; [apply demo61_parts; left; reflexivity|]. split; [apply demo61_query; [left; split; reflexivity|lia]|vm_compute; reflexivity]. Qed.
Print Assumptions C61_limit_refuted.
(** With the context "a" known: "b", which follows it in the model, is first. *)
Example C61_nonvacuous :
  parts_ok (fun x => x) rb4 (fun l => l) isort demo61_sp demo61_docs (demo61_next (bs "a ab")) /\
  query_of demo61_sp (bs "a ab") 2 quarter [bs "a"] (bs "ab") (demo61_next (bs "a ab")) demo61_terms demo61_terms /\
  demo61_next (bs "a ab") <> None /\ demo61_next (bs "ab") = None /\
  demo61 (bs "a ab") 2 = Some (Ret [bs "b"; bs "abcdefgh"; bs "a"]) /\
  (* enough completions *) 1 <= zlen (filter (has_all demo61_terms) demo61_docs) /\ demo61 (bs "a ab") 1 = Some (Ret [bs "abcdefgh"]).
Proof.
  split; [apply demo61_parts; right; reflexivity|]. split; [apply demo61_query; [right; split; reflexivity|lia]|]. split; [vm_compute; discriminate|]. split; [vm_compute; reflexivity|]. split; [vm_compute; reflexivity|]. split; [vm_compute; discriminate|vm_compute; reflexivity].
Qed.
Example C62_nonvacuous : demo61 (bs "ab") 0 = Some Panic /\ In (0, map (fun b => [b]) (bs "abcdefgh")) demo61_docs /\ (forall t, In t demo61_terms -> In t (map (fun b => [b]) (bs "abcdefgh"))) /\
  (* too short: "abcdefghijk" against the entry "a" *)
  let sp := mkSpell (build [(0, [bs "a"])]) letters letters (fun _ => Ret 1) demo61_lm demo61_tokenize demo61_value in let w := bs "bac" in
  zlen (build [(0, [bs "a"])]) < MinY Cosine f_one (zlen w) /\ Predict (fun x => x) rb4 (fun l => l) isort [LProd; LProd] [] sp w 1 f_one = Some Panic.
Proof.
  split; [vm_compute; reflexivity|]. split; [left; reflexivity|]. split; [intros t [<-|[<-|[]]]; cbn; tauto|]. split; [vm_compute; reflexivity|]. vm_compute. reflexivity.
Qed.
(* a unigram model *)
Example C61_unigram_nonvacuous : let lm := match read_vectors [] [[([1], 3)]] with Ret ixs => mkLM (NewNGramModel ixs) 1 8 9 | _ => demo61_lm end in
  nGramOrder (lm_model lm) = 1 /\ lm_order lm = 1 /\ exists e, Predict (fun x => x) rb4 (fun l => l) isort [] [] (mkSpell (build demo61_docs) letters letters (fun _ => Ret 1) lm demo61_tokenize demo61_value) (bs "a ab") 2 quarter = Some (Fail e).
Proof. split; [reflexivity|]. split; [reflexivity|]. eexists. vm_compute. reflexivity. Qed.
