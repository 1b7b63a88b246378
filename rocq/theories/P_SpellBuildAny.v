(** C106: from the training text to the predictions, for every text: the words of the text, and
    those of the query, may repeat n-grams, and the last word may have none. *)
From Coq Require Import String ZifyBool Permutation Sorted Reals Lra Lia.
From Flocq Require Import Core BinarySingleNaN.
From Verif Require P_CountTrie P_Index.
From Verif Require Import Base BaseLemmas GoMap Store StoreSpec Postings PostingsSpec PostingsDrive P_PostingsLemmas Merger MergerSpec MergerAnySpec P_MergerLemmas Index IndexSpec IndexProofs P_IndexLemmas
  Text Analysis Float64 Metric MetricSpec FloatProofs MetricFloat TopK TopKSpec TopKProofs Suggest SuggestSpec SuggestProofs P_SuggestLemmas P_Suggest SuggestAnySpec AutocompleteSpec AutocompleteProofs
  LMText NGram NGramSpec GoogleNGram P_NGram GoogleProofs P_Google CountTrieSpec Scanner ScannerSpec ScannerProofs2 Mph MphSpec P_Mph TrainedSpec TrainedProofs P_Trained LMPipeline LMPipelineSpec P_Pipeline
  NGramIndex NGramIndexSpec NGramIndexProofs P_NGramIndex NGramIndexAnySpec NGramIndexAny P_RepeatedDict CdbDict CdbDictSpec P_Cdb Spell SpellSpec SpellProofs P_Spell SpellBuild SpellBuildSpec P_SpellBuild SpellAny P_SpellAny.
Local Open Scope Z_scope.
Local Notation length := List.length.

(** how often a word is in an answer *)
Definition word_times (w : bytes) (l : list bytes) : nat := List.length (filter (beqb w) l).
Section Query.
Context (lowr : Z -> Z) (has sep : Z -> bool) (first last : bytes) (order : Z) (text : bytes) (sentences : list (list bytes)).
Notation occ := (occurrences_in first last sentences).
Context (L : cdblib) (rb : roaring) (g : gobcodec) (ord : Z -> index_map -> index_map) (tord : list Z -> list (Z * CountTrie.node) -> list (Z * CountTrie.node))
  (srt : list iter -> list iter) (bsrt : list (list Z) -> list (list Z)) (stable : (cand -> f64) -> list cand -> list cand).
Context (chunk chunk' : nat -> nat) (fuel fuel' mfuel : nat) (name : string) (d : tokconf) (words : list bytes) (sp : spellchecker) (flog : f64 -> f64).
Context (Ht : training lowr has sep first last order text sentences) (Hwd : world L rb g ord tord srt bsrt stable) (Hf1 : (2 * length text + 1 < fuel)%nat) (Hf2 : Z.of_nat mfuel < 2 ^ 31 - 1)
  (Hfrom : spellchecker_from lowr has sep first last order text L rb g ord tord bsrt chunk chunk' fuel fuel' mfuel name d words sp) (Hd : dictionary_any lowr d words) (Hlog : log_ok flog).
Context (query : bytes) (seq : list bytes) (word : bytes) (topK : Z) (alpha : f64).
Notation terms := (prefix_grams lowr d word).
Notation tokens := (entry_grams lowr d word).
Notation ctx := (context_of order first seq).
Context (Hq : text_words lowr has query (seq ++ [word])) (Hk : 1 <= topK) (Ha : alpha_ok alpha) (Zt : zlen terms < 2 ^ 32) (Zk : zlen tokens <= 65535)
  (Hlong : tokens <> [] -> exists w, 0 < occ [w] /\ MinY Cosine alpha (zlen tokens) <= zlen (entry_grams lowr d w)).
Definition known_context : Prop := seq <> [] /\ exists w, 0 < occ (ctx ++ [w]).
Lemma occ_range w : 0 <= occ (ctx ++ [w]) <= occ ctx /\ occ ctx < 2 ^ 28.
Proof. pose proof (corpus_nonneg first last sentences (ctx ++ [w])). pose proof (corpus_prefix first last sentences ctx [w]). pose proof (corpus_le first last sentences ctx). pose proof (tr_size _ _ _ _ _ _ _ _ Ht). lia. Qed.
Lemma call : exists next, parts_any flog rb srt stable sp (docs_of lowr d words) next /\ query_every sp query topK alpha seq word next terms tokens /\
  (known_context -> next <> None /\ forall x, 0 <= x < zlen words -> sc_of flog next x = next_score flog (occ (ctx ++ [entry_at words x])) (occ ctx)) /\ (~ known_context -> next = None).
Proof.
  destruct (from_parts lowr has sep first last order text sentences L rb g ord tord srt bsrt stable chunk chunk' fuel fuel' mfuel name d Ht Hwd Hf1 Hf2 words sp Hfrom) as (Hnd & Hin & _ & Hix & Hz & Es & Ec & Et & Ev & l & Htm & Em & Eg & Hid).
  pose proof Hwd as [_ Hrb Hrw Hg Hor _ Hsrt _ Hst].
  pose proof (dict_index_any rb g ord name lowr d words Hrb Hrw Hg Hor Hd (sp_index sp) Hix) as Hok.
  assert (exists next, scorer_next (sp_get sp) (sp_model sp) seq = Ret next /\ (known_context -> exists s, next = Some s /\ forall w, exists i, GetWordID l w = Ret i /\ ScoreNext flog s i = Ret (next_score flog (occ (ctx ++ [w])) (occ ctx))) /\ (~ known_context -> next = None)) as (next & En & Hkn & Hunk).
  { destruct seq as [|s0 seq0] eqn:Eseq; [exists None; split; [reflexivity|split; [intros [H _]; congruence|reflexivity]]|]. rewrite <- Eseq in *.
    assert (seq <> []) as Hne by (rewrite Eseq; discriminate). destruct (trained_next first last sentences order l Htm (tr_order _ _ _ _ _ _ _ _ Ht) (tr_size _ _ _ _ _ _ _ _ Ht) flog seq Hne) as (ids & Ei & H1 & H2).
    assert (get_all (sp_get sp) seq = Ret ids) as Ei'. { rewrite <- Ei. clear - Eg. induction seq as [|w ws IH]; [reflexivity|]. cbn [get_all]. rewrite Eg, IH. reflexivity. }
    assert (0 <? zlen ids = true) as El0.
    { assert (length ids = length seq) as El. { clear - Ei. revert ids Ei. induction seq as [|w ws IH]; intros ids Ei; [injection Ei as <-; reflexivity|]. cbn [get_all] in Ei. destruct (GetWordID l w); try discriminate. cbn [bind] in Ei. destruct (get_all (GetWordID l) ws) as [r| | |]; try discriminate. injection Ei as <-. cbn [List.length]. rewrite (IH r eq_refl). reflexivity. }
      unfold zlen. rewrite El, Eseq. reflexivity. }
    unfold scorer_next. rewrite Ei'. cbn [bind]. rewrite El0, Em.
    assert ((exists w, 0 < occ (ctx ++ [w])) \/ ~ (exists w, 0 < occ (ctx ++ [w]))) as [Hc|Hc] by apply Classical_Prop.classic.
    - destruct (H1 Hc) as (s & Esn & Hs). exists (Some s). split; [exact Esn|]. split; [intros _; exists s; split; [reflexivity|exact Hs]|]. intros Hn. exfalso. apply Hn. split; assumption.
    - exists None. split; [apply H2; exact Hc|]. split; [intros [_ H]; contradiction|reflexivity]. }
  exists next.
  assert (forall x, 0 <= x < zlen words -> nth_error words (Z.to_nat x) = Some (entry_at words x)) as Hnth by (intros x Hx; unfold entry_at; apply nth_error_nth'; unfold zlen in Hx; lia).
  assert (Hsc : forall x, 0 <= x < zlen words -> (known_context -> newScorer flog next x = Ret (next_score flog (occ (ctx ++ [entry_at words x])) (occ ctx))) /\ (~ known_context -> newScorer flog next x = Ret UnknownWordScore)).
  { intros x Hx. split.
    - intros Hc. destruct (Hkn Hc) as (s & -> & Hs). cbn [newScorer]. destruct (Hs (entry_at words x)) as (i & Ei & Er). rewrite (Hid (Z.to_nat x) (entry_at words x) (Hnth x Hx)) in Ei. injection Ei as <-. rewrite Z2Nat.id in Er by lia. exact Er.
    - intros Hc. rewrite (Hunk Hc). reflexivity. }
  split; [|split; [|split]].
  - constructor; [apply (docs_good_any lowr d words Hd)|apply (proj1 Hok)|exact Hsrt|exact Hst| |].
    + intros [x ts] Hx. apply (doc_entry lowr d words) in Hx. destruct Hx as [Hx _]. cbn [fst]. unfold sc_of. destruct (Hsc x Hx) as [S1 S2]. assert (known_context \/ ~ known_context) as [Hc|Hc] by apply Classical_Prop.classic.
      * rewrite (S1 Hc). split; [reflexivity|]. destruct (occ_range (entry_at words x)). apply next_numeric; assumption.
      * rewrite (S2 Hc). split; [reflexivity|discriminate].
    + intros [x ts] Hx. apply (doc_entry lowr d words) in Hx. destruct Hx as [Hx _]. exists (entry_at words x). apply Ev. exact Hx.
  - constructor.
    + rewrite Et. apply tokenize_iff. exact Hq.
    + exact En.
    + rewrite Ec. apply auto_grams. apply Hd.
    + exact Zt.
    + rewrite Es. apply suggest_grams. apply Hd.
    + exact Hk.
    + destruct tokens as [|t0 ts0] eqn:Etk; [left; reflexivity|right]. rewrite <- Etk in *. assert (tokens <> []) as Hne by (rewrite Etk; discriminate). split.
      * split; [exact Ha|]. split; [split; [rewrite Etk, zlen_cons; pose proof (zlen_nonneg ts0); lia|exact Zk]|]. split; [eapply any_len; eassumption|]. split; [discriminate|exact Hk].
      * apply (any_searchable rb lowr d words _ Hok). destruct (Hlong Hne) as (w & Hw & Hm). exists w. split; [apply Hin; exact Hw|exact Hm].
  - intros Hc. split; [destruct (Hkn Hc) as (s & -> & _); discriminate|]. intros x Hx. unfold sc_of. rewrite (proj1 (Hsc x Hx) Hc). reflexivity.
  - exact Hunk.
Qed.
Lemma values ids vs : (forall x, In x ids -> 0 <= x < zlen words) -> map (sp_value sp) ids = map Ret vs -> vs = map (entry_at words) ids.
Proof.
  destruct (from_parts lowr has sep first last order text sentences L rb g ord tord srt bsrt stable chunk chunk' fuel fuel' mfuel name d Ht Hwd Hf1 Hf2 words sp Hfrom) as (_ & _ & _ & _ & _ & _ & _ & _ & Ev & _).
  revert vs. induction ids as [|x ids IH]; intros [|v vs] Hr E; try discriminate; [reflexivity|]. cbn [map] in *. injection E as E1 E2. rewrite Ev in E1 by (apply Hr; left; reflexivity). injection E1 as <-. f_equal. apply IH; [intros; apply Hr; right; assumption|exact E2].
Qed.
Lemma position w : 0 < occ [w] -> exists x, 0 <= x < zlen words /\ entry_at words x = w.
Proof.
  intros Hw. destruct (from_parts lowr has sep first last order text sentences L rb g ord tord srt bsrt stable chunk chunk' fuel fuel' mfuel name d Ht Hwd Hf1 Hf2 words sp Hfrom) as (_ & Hin & _).
  apply Hin in Hw. apply In_nth_error in Hw. destruct Hw as (j & Hj). assert (j < length words)%nat by (apply nth_error_Some; rewrite Hj; discriminate). exists (Z.of_nat j). unfold zlen, entry_at. rewrite Nat2Z.id, (nth_error_nth words j [] Hj). split; [lia|reflexivity].
Qed.
Lemma entry_occ x : 0 <= x < zlen words -> 0 < occ [entry_at words x].
Proof.
  intros Hx. destruct (from_parts lowr has sep first last order text sentences L rb g ord tord srt bsrt stable chunk chunk' fuel fuel' mfuel name d Ht Hwd Hf1 Hf2 words sp Hfrom) as (_ & Hin & _).
  apply Hin. unfold entry_at. apply nth_In. unfold zlen in Hx. lia.
Qed.
Lemma times_entries ids x : (forall y, In y ids -> 0 <= y < zlen words) -> 0 <= x < zlen words -> word_times (entry_at words x) (map (entry_at words) ids) = times x ids.
Proof.
  destruct (from_parts lowr has sep first last order text sentences L rb g ord tord srt bsrt stable chunk chunk' fuel fuel' mfuel name d Ht Hwd Hf1 Hf2 words sp Hfrom) as (Hwn & _).
  intros Hr Hx. unfold word_times, times. induction ids as [|y ids IH]; [reflexivity|]. cbn [map filter count_occ]. rewrite <- IH by (intros; apply Hr; right; assumption). pose proof (Hr y (or_introl eq_refl)) as Hy.
  destruct (Z.eq_dec y x) as [->|Hne].
  - assert (beqb (entry_at words x) (entry_at words x) = true) as -> by (apply beqb_ok; reflexivity). reflexivity.
  - destruct (beqb (entry_at words x) (entry_at words y)) eqn:E; [|reflexivity]. exfalso. apply beqb_ok in E. apply Hne. unfold zlen, entry_at in *.
    assert (Z.to_nat x = Z.to_nat y) as En by (apply (proj1 (NoDup_nth words []) Hwn); [lia|lia|exact E]). lia.
Qed.
Lemma predicted sched sched' r : Predict flog rb srt stable sched sched' sp query topK alpha = Some r ->
  exists vs, r = Ret vs /\ zlen vs <= topK + 1 /\
   (forall w, In w vs -> 0 < occ [w] /\ ((forall t, In t terms -> In t (entry_grams lowr d w)) \/ exists t, In t tokens /\ In t (entry_grams lowr d w))) /\
   (forall w, (word_times w vs <= Nat.max 1 (repeats (entry_grams lowr d w)))%nat) /\
   (known_context -> StronglySorted (fun v w => occ (ctx ++ [w]) <= occ (ctx ++ [v])) vs) /\
   (forall w, 0 < occ [w] -> terms <> [] -> (forall t, In t terms -> In t (entry_grams lowr d w)) -> zlen terms <= zlen (entry_grams lowr d w) ->
      In w vs \/ (topK <= zlen vs /\ (known_context -> forall v, In v vs -> occ (ctx ++ [w]) <= occ (ctx ++ [v])))) /\
   ((forall w, 0 < occ [w] -> NoDup (entry_grams lowr d w)) -> zlen vs < topK -> forall w, 0 < occ [w] -> tokens <> [] -> 1 <= zlen (entry_grams lowr d w) -> overlap_of tokens (entry_grams lowr d w) <= zlen (entry_grams lowr d w) ->
      (gram_similarity lowr d Cosine tokens w >= val alpha * (1 + / 2 ^ 46))%R -> In w vs).
Proof.
  intros Hr. destruct call as (next & HP & HQ & Hsc & _).
  destruct (C105_prediction flog rb srt stable sp _ query topK alpha seq word next terms tokens sched sched' r HP HQ Hr) as (ids & vs & -> & Em & Hl & Hsound & Hsort & Htimes & Hcomp & Hfew).
  assert (forall x, In x ids -> 0 <= x < zlen words) as Hrange. { intros x Hx. destruct (Hsound x Hx) as (ts & Hd1 & _). apply (doc_entry lowr d words) in Hd1. apply Hd1. }
  assert (vs = map (entry_at words) ids) as -> by (apply values; assumption). exists (map (entry_at words) ids). split; [reflexivity|].
  assert (zlen (map (entry_at words) ids) = zlen ids) as Ez by (unfold zlen; rewrite map_length; reflexivity).
  split; [unfold bytes in *; lia|]. split; [|split; [|split; [|split]]].
  - intros w Hw. apply in_map_iff in Hw. destruct Hw as (x & <- & Hx). split; [apply entry_occ, Hrange, Hx|]. destruct (Hsound x Hx) as (ts & Hd1 & H). apply (doc_entry lowr d words) in Hd1. destruct Hd1 as [_ ->]. exact H.
  - intros w. destruct (in_dec (list_eq_dec Z.eq_dec) w (map (entry_at words) ids)) as [Hw|Hw].
    + apply in_map_iff in Hw. destruct Hw as (x & <- & Hx). rewrite times_entries by (assumption || apply Hrange; exact Hx).
      apply (Htimes x (entry_grams lowr d (entry_at words x))); [apply (doc_entry lowr d words); split; [apply Hrange; exact Hx|reflexivity]|lia|]. intros t. pose proof (repeats_bound t (entry_grams lowr d (entry_at words x))). lia.
    + enough (word_times w (map (entry_at words) ids) = 0%nat) by lia. unfold word_times. clear - Hw. induction (map (entry_at words) ids) as [|v l IH]; [reflexivity|]. cbn [filter]. destruct (beqb w v) eqn:E; [apply beqb_ok in E; subst v; destruct Hw; left; reflexivity|]. apply IH. intros H. apply Hw. right. exact H.
  - intros Hc. destruct (Hsc Hc) as [Hne Hs]. specialize (Hsort Hne). clear Hcomp Hfew Hsound Htimes Em Hl Hr Ez. induction Hsort as [|x l Hsort IH Hx]; cbn [map]; constructor; [apply IH; intros; apply Hrange; right; assumption|].
    apply Forall_forall. intros w Hw. apply in_map_iff in Hw. destruct Hw as (y & <- & Hy). rewrite Forall_forall in Hx. specialize (Hx y Hy). rewrite !Hs in Hx by (apply Hrange; cbn; auto).
    destruct (occ_range (entry_at words x)) as [R1 R2]. destruct (occ_range (entry_at words y)) as [R3 _]. exact (next_order flog _ _ _ Hlog R1 R3 R2 Hx).
  - intros w Hw Hne Hcw Hz. destruct (position w Hw) as (x & Hx & <-). destruct (Hcomp x (entry_grams lowr d (entry_at words x))) as [Hi|[Hi1 Hi2]]; [apply (doc_entry lowr d words); split; [exact Hx|reflexivity]|exact Hne|exact Hcw|exact Hz|left; apply in_map; exact Hi|right].
    split; [unfold bytes in *; lia|]. intros Hc v Hv. apply in_map_iff in Hv. destruct Hv as (y & <- & Hy). destruct (Hsc Hc) as [_ Hs]. specialize (Hi2 y Hy). rewrite !Hs in Hi2 by (assumption || apply Hrange; assumption).
    destruct (occ_range (entry_at words x)) as [R1 R2]. destruct (occ_range (entry_at words y)) as [R3 _]. exact (next_order flog _ _ _ Hlog R3 R1 R2 Hi2).
  - intros Hnd Hf w Hw Hne H1 Ho Hs. destruct (position w Hw) as (x & Hx & <-). apply in_map. apply (Hfew) with (ts := entry_grams lowr d (entry_at words x)).
    + intros [y ts] Hy. apply (doc_entry lowr d words) in Hy. destruct Hy as [Hy ->]. cbn [snd]. apply Hnd, entry_occ, Hy.
    + unfold bytes in *. lia.
    + apply (doc_entry lowr d words). split; [exact Hx|reflexivity].
    + exact Hne.
    + exact H1.
    + exact Ho.
    + exact Hs.
Qed.
End Query.

(** The predictions, for every text, configuration, query and schedule: a call that returns gives
    at most limit + 1 words of the text, each with all n-grams of the beginning of the last word
    or with one n-gram of the last word, and none more often than it repeats an n-gram; if the
    words before the last one are followed by anything in the text, the words that follow them
    more often come first; every word with all these n-grams (and at least as many) is
    there unless limit words that follow the context at least as often are; and if the words
    of the text do not repeat n-grams and the answer is not full, every clearly similar word. *)
Theorem C106_predict : forall lowr has sep first last order text sentences L rb g ord tord srt bsrt stable chunk chunk' fuel fuel' mfuel name d words sp flog,
  training lowr has sep first last order text sentences -> world L rb g ord tord srt bsrt stable -> (2 * length text + 1 < fuel)%nat -> Z.of_nat mfuel < 2 ^ 31 - 1 ->
  spellchecker_from lowr has sep first last order text L rb g ord tord bsrt chunk chunk' fuel fuel' mfuel name d words sp -> dictionary_any lowr d words -> log_ok flog ->
  forall query seq word topK alpha,
  let occ := occurrences_in first last sentences in let terms := prefix_grams lowr d word in let tokens := entry_grams lowr d word in let ctx := context_of order first seq in
  let known := seq <> [] /\ exists w, 0 < occ (ctx ++ [w]) in
  text_words lowr has query (seq ++ [word]) -> 1 <= topK -> alpha_ok alpha -> zlen terms < 2 ^ 32 -> zlen tokens <= 65535 ->
  (tokens <> [] -> exists w, 0 < occ [w] /\ MinY Cosine alpha (zlen tokens) <= zlen (entry_grams lowr d w)) ->
  forall sched sched' r, Predict flog rb srt stable sched sched' sp query topK alpha = Some r ->
  exists vs, r = Ret vs /\ zlen vs <= topK + 1 /\
   (forall w, In w vs -> 0 < occ [w] /\ ((forall t, In t terms -> In t (entry_grams lowr d w)) \/ exists t, In t tokens /\ In t (entry_grams lowr d w))) /\
   (forall w, (word_times w vs <= Nat.max 1 (repeats (entry_grams lowr d w)))%nat) /\
   (known -> StronglySorted (fun v w => occ (ctx ++ [w]) <= occ (ctx ++ [v])) vs) /\
   (forall w, 0 < occ [w] -> terms <> [] -> (forall t, In t terms -> In t (entry_grams lowr d w)) -> zlen terms <= zlen (entry_grams lowr d w) ->
      In w vs \/ (topK <= zlen vs /\ (known -> forall v, In v vs -> occ (ctx ++ [w]) <= occ (ctx ++ [v])))) /\
   ((forall w, 0 < occ [w] -> NoDup (entry_grams lowr d w)) -> zlen vs < topK -> forall w, 0 < occ [w] -> tokens <> [] -> 1 <= zlen (entry_grams lowr d w) -> overlap_of tokens (entry_grams lowr d w) <= zlen (entry_grams lowr d w) ->
      (gram_similarity lowr d Cosine tokens w >= val alpha * (1 + / 2 ^ 46))%R -> In w vs).
Proof. intros. eapply predicted; eassumption. Qed.
Print Assumptions C106_predict.
(** And a call does return: the two searches it runs stop after a bounded number of steps,
    never stuck, and then there is a result. *)
Theorem C106_returns : forall lowr has sep first last order text sentences L rb g ord tord srt bsrt stable chunk chunk' fuel fuel' mfuel name d words sp flog,
  training lowr has sep first last order text sentences -> world L rb g ord tord srt bsrt stable -> (2 * length text + 1 < fuel)%nat -> Z.of_nat mfuel < 2 ^ 31 - 1 ->
  spellchecker_from lowr has sep first last order text L rb g ord tord bsrt chunk chunk' fuel fuel' mfuel name d words sp -> dictionary_any lowr d words -> log_ok flog ->
  forall query seq word topK alpha,
  let occ := occurrences_in first last sentences in let terms := prefix_grams lowr d word in let tokens := entry_grams lowr d word in
  text_words lowr has query (seq ++ [word]) -> 1 <= topK -> alpha_ok alpha -> zlen terms < 2 ^ 32 -> zlen tokens <= 65535 ->
  (tokens <> [] -> exists w, 0 < occ [w] /\ MinY Cosine alpha (zlen tokens) <= zlen (entry_grams lowr d w)) ->
  exists next, scorer_next (sp_get sp) (sp_model sp) seq = Ret next /\ let ix := sp_index sp in let score := newScorer flog next in
  (forall sched p, lrun rb srt ix terms score topK sched (lstart terms topK) = Some p ->
     zlen sched <= 5 * Z.max 0 (zlen ix - zlen terms) + 2 /\ ((exists l, p = LFinished (Ret l)) \/ exists c p', lexec rb srt ix terms score topK c p = Some p')) /\
  (forall sched p, run rb srt ix tokens Cosine alpha topK sched (start ix tokens Cosine alpha topK) = Some p ->
     (tokens = [] -> sched = []) /\ (tokens <> [] -> zlen sched <= 20 * Z.max 0 (Z.max (zlen tokens - bMin tokens Cosine alpha + 1) (bMax ix tokens Cosine alpha - zlen tokens)) + 7) /\
     ((exists l, p = Finished (Ret l)) \/ exists c p', exec rb srt ix tokens Cosine alpha topK c p = Some p')) /\
  (forall sched sched' r r', lrun rb srt ix terms score topK sched (lstart terms topK) = Some (LFinished r) ->
     run rb srt ix tokens Cosine alpha topK sched' (start ix tokens Cosine alpha topK) = Some (Finished r') ->
     exists vs, Predict flog rb srt stable sched sched' sp query topK alpha = Some (Ret vs)).
Proof.
  intros lowr has sep first last order text sentences L rb g ord tord srt bsrt stable chunk chunk' fuel fuel' mfuel name d words sp flog Ht Hw H1 H2 Hs Hd Hl query seq word topK alpha occ terms tokens Hq Hk Ha Zt Zk Hlong.
  destruct (call lowr has sep first last order text sentences L rb g ord tord srt bsrt stable chunk chunk' fuel fuel' mfuel name d words sp flog Ht Hw H1 H2 Hs Hd Hl query seq word topK alpha Hq Hk Ha Zt Zk Hlong) as (next & HP & HQ & _).
  exists next. split; [exact (qe_next _ _ _ _ _ _ _ _ _ HQ)|]. exact (C105_returns flog rb srt stable sp _ query topK alpha seq word next terms tokens HP HQ).
Qed.
Print Assumptions C106_returns.
(** A query without words - empty, or of characters outside the alphabet only - is answered with
    no words. *)
Theorem C106_no_words : forall lowr has sep first last order text sentences L rb g ord tord srt bsrt stable chunk chunk' fuel fuel' mfuel name d words sp,
  training lowr has sep first last order text sentences -> world L rb g ord tord srt bsrt stable -> (2 * length text + 1 < fuel)%nat -> Z.of_nat mfuel < 2 ^ 31 - 1 ->
  spellchecker_from lowr has sep first last order text L rb g ord tord bsrt chunk chunk' fuel fuel' mfuel name d words sp ->
  forall flog query topK alpha sched sched', text_words lowr has query [] -> Predict flog rb srt stable sched sched' sp query topK alpha = Some (Ret []).
Proof.
  intros lowr has sep first last order text sentences L rb g ord tord srt bsrt stable chunk chunk' fuel fuel' mfuel name d words sp Ht Hw H1 H2 Hs flog query topK alpha sched sched' Hq.
  destruct (from_parts lowr has sep first last order text sentences L rb g ord tord srt bsrt stable chunk chunk' fuel fuel' mfuel name d Ht Hw H1 H2 words sp Hs) as (_ & _ & _ & _ & _ & _ & _ & Et & _).
  apply C105_no_words. rewrite Et. apply tokenize_iff. exact Hq.
Qed.
Print Assumptions C106_no_words.
(* the hypothesis is met *)
Example C106_no_words_nonvacuous : text_words low70 (Has English) (bs " ,1") [].
Proof. apply (proj2 (tokenize_iff _ _ _ _)). vm_compute. reflexivity. Qed.
(** The spellchecker exists: unless the search for the hash function runs out of attempts, it
    starts, for every text whose files stay below 4 GB and whose dictionary is one. *)
Theorem C106_builds : forall lowr has sep first last order text sentences L rb g ord tord srt bsrt stable chunk chunk' fuel fuel' mfuel name d,
  training lowr has sep first last order text sentences -> world L rb g ord tord srt bsrt stable -> (2 * length text + 1 < fuel)%nat -> Z.of_nat mfuel < 2 ^ 31 - 1 ->
  exists files, ngram_count lowr has sep first last order tord chunk fuel text = Ret files /\ ((forall f, In f files -> (2 * length f + 1 < fuel')%nat) ->
   build_lm order bsrt chunk' fuel' mfuel files = NoFuel \/
   exists words binary, build_lm order bsrt chunk' fuel' mfuel files = Ret (words, binary) /\
     (zlen binary < 2 ^ 63 -> 2048 + fold_right (fun w n => 28 + zlen w + n) 0 words < 2 ^ 32 -> dictionary_any lowr d words ->
      exists recs ops, WriteDictionary L words = Ret recs /\ IndexCdb L rb g ord name (ToLower lowr) d recs = Ret ops /\
        ((forall b, ram_open (ram_run NewRAMDirectory ops) (documentListFile name) = Some b -> zlen b < 2 ^ 32) ->
         exists sp, spellchecker_from lowr has sep first last order text L rb g ord tord bsrt chunk chunk' fuel fuel' mfuel name d words sp))).
Proof.
  intros lowr has sep first last order text sentences L rb g ord tord srt bsrt stable chunk chunk' fuel fuel' mfuel name d Ht Hw H1 H2.
  destruct (text_trained lowr has sep first last order text sentences L rb g ord tord srt bsrt stable chunk chunk' fuel fuel' mfuel Ht Hw H1 H2) as (files & words & Ef & Hnd & Hin & Hne & Hso & H).
  exists files. split; [exact Ef|]. intros Hff. destruct (H Hff) as [E|(binary & Eb & Hl)]; [left; exact E|right]. exists words, binary. split; [exact Eb|]. intros Hbz Hcz Hd.
  destruct (Hl Hbz) as (l & El & Hid & Htm). pose proof (fold_pos words) as Hfp. pose proof (zlen_nonneg words) as Hzn.
  assert (WriteDictionary L words = Ret (recs_from 0 words)) as Er. { unfold WriteDictionary. rewrite (built L (wo_cdb _ _ _ _ _ _ _ _ Hw) words 0 []); [reflexivity|lia|unfold bytes in *; lia|exact Hcz]. }
  assert (zlen words <= 2 ^ 32) as Hz32 by (unfold bytes in *; lia).
  destruct (C95_index_builds_partial rb g ord name lowr d words (wo_rb _ _ _ _ _ _ _ _ Hw) (wo_rw _ _ _ _ _ _ _ _ Hw) (wo_gob _ _ _ _ _ _ _ _ Hw) (wo_ord _ _ _ _ _ _ _ _ Hw) Hd) as (ops & Eo & _ & Hram & _).
  exists (recs_from 0 words), ops. split; [exact Er|].
  assert (IndexCdb L rb g ord name (ToLower lowr) d (recs_from 0 words) = Ret ops) as Ei by (rewrite (index_cdb lowr L rb g ord tord srt bsrt stable name d Hw words Hne Hz32); exact Eo). split; [exact Ei|]. intros Hoz. destruct (Hram Hoz) as (ix & Ex & _).
  unfold RAMBuild in Ex. rewrite Eo in Ex. cbn [bind] in Ex.
  eexists. exists files, binary, (recs_from 0 words), ops. do 3 (split; [assumption|]). split; [exact Hbz|]. split; [exact Hcz|]. split; [exact Er|]. split; [exact Ei|]. split; [exact Hoz|].
  unfold BuildSpellChecker. rewrite map_snd_recs, El. cbn [bind]. unfold RAMBuildCdb. rewrite Ei. cbn [bind]. rewrite Ex. cbn [bind]. reflexivity.
Qed.
Print Assumptions C106_builds.

(** ** The hypotheses are met *)
(* single characters as n-grams: "$" stands around the words and for other characters *)
Definition conf106 : tokconf := mkTok 1 (Has (AComposite [English; ASimple [36]])) (bs "$") (bs "$") (bs "$").
Lemma any106 : dictionary_any low70 conf106 words87.
Proof.
  split; [cbn; lia|]. split; [vm_compute; reflexivity|]. split; [vm_compute; reflexivity|]. split; [exists (bs "</S>"), [bs "<S>"; bs "i"; bs "am"]; split; [reflexivity|vm_compute; discriminate]|].
  intros w [<-|[<-|[<-|[<-|[]]]]]; vm_compute; reflexivity.
Qed.
Lemma from106 : from87 conf106.
Proof. assert (match spell87 conf106 with Ret _ => true | _ => false end = true) as Er by (vm_compute; reflexivity). destruct (spell87 conf106) as [sp| | |] eqn:E; [clear Er|discriminate Er..]. eapply (from87_ok conf106 (ops87 conf106)); [vm_compute; reflexivity|vm_compute; reflexivity|exact E]. Qed.
Example C106_nonvacuous :
  training low70 (Has English) sep70 (bs "<S>") (bs "</S>") 2 text70 sents70 /\ world lib74 rb4 gob1 (fun _ m => m) P_CountTrie.ord_rev (fun l => l) sort_big isort /\ log_ok (fun x => x) /\
  from87 conf106 /\ dictionary_any low70 conf106 words87 /\ ~ dictionary_ok low70 conf106 words87 /\
  let terms := prefix_grams low70 conf106 (bs "am") in let tokens := entry_grams low70 conf106 (bs "am") in let occ := occurrences_in (bs "<S>") (bs "</S>") sents70 in
  text_words low70 (Has English) (bs "I am") ([bs "i"] ++ [bs "am"]) /\ terms <> [] /\ zlen terms <= zlen (entry_grams low70 conf106 (bs "am")) /\ zlen tokens = 3 /\ alpha_ok quarter /\
  (0 < occ [bs "am"] /\ MinY Cosine quarter (zlen tokens) <= zlen (entry_grams low70 conf106 (bs "am"))) /\
  context_of 2 (bs "<S>") [bs "i"] = [bs "i"] /\ 0 < occ ([bs "i"] ++ [bs "am"]) /\ demo87 conf106 (bs "I am") (bs "am") 2 = Some (Ret [bs "am"; bs "i"]).
Proof.
  split; [exact training87|]. split; [exact world87|]. split; [exact log_id|]. split; [exact from106|]. split; [exact any106|].
  split. { intros (_ & _ & _ & H). destruct (H (bs "<S>") ltac:(right; left; reflexivity)) as [Hn _].
    assert (entry_grams low70 conf106 (bs "<S>") = [bs "$"; bs "$"; bs "s"; bs "$"]) as E by (vm_compute; reflexivity). rewrite E in Hn. inversion_clear Hn. apply H0. left. reflexivity. }
  cbv zeta. split; [apply (proj2 (tokenize_iff _ _ _ _)); vm_compute; reflexivity|].
  split; [vm_compute; discriminate|]. split; [vm_compute; discriminate|]. split; [vm_compute; reflexivity|]. split; [exact alpha_quarter|].
  split; [split; [vm_compute; reflexivity|vm_compute; discriminate]|]. split; [reflexivity|]. split; vm_compute; reflexivity.
Qed.
(** "Each word at most once" is false: of the same spellchecker, four answers to "I s" are four
    times the same symbol, though other words share an n-gram with it. *)
Theorem C106_once_refuted :
  training low70 (Has English) sep70 (bs "<S>") (bs "</S>") 2 text70 sents70 /\ world lib74 rb4 gob1 (fun _ m => m) P_CountTrie.ord_rev (fun l => l) sort_big isort /\ log_ok (fun x => x) /\
  from87 conf106 /\ dictionary_any low70 conf106 words87 /\ text_words low70 (Has English) (bs "I s") ([bs "i"] ++ [bs "s"]) /\
  demo87 conf106 (bs "I s") (bs "s") 4 = Some (Ret [bs "</S>"; bs "</S>"; bs "</S>"; bs "</S>"]) /\
  In (bs "<S>") words87 /\ (forall t, In t (prefix_grams low70 conf106 (bs "s")) -> In t (entry_grams low70 conf106 (bs "<S>"))).
Proof.
  split; [exact training87|]. split; [exact world87|]. split; [exact log_id|]. split; [exact from106|]. split; [exact any106|].
  split; [apply (proj2 (tokenize_iff _ _ _ _)); vm_compute; reflexivity|]. split; [vm_compute; reflexivity|]. split; [right; left; reflexivity|].
  assert (prefix_grams low70 conf106 (bs "s") = [bs "$"; bs "s"]) as -> by (vm_compute; reflexivity). assert (entry_grams low70 conf106 (bs "<S>") = [bs "$"; bs "$"; bs "s"; bs "$"]) as -> by (vm_compute; reflexivity).
  intros t [<-|[<-|[]]]; cbn; auto.
Qed.
Print Assumptions C106_once_refuted.
