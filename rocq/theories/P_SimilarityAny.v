(** C101, C102 for dictionaries whose entries repeat n-grams (pkg/suggest, pkg/metric). *)
From Coq Require Import String ZifyBool Permutation Sorted Reals Lra Lia.
From Verif Require Import Base BaseLemmas GoMap Store StoreSpec Postings PostingsSpec PostingsDrive P_PostingsLemmas Merger MergerSpec MergerAnySpec MergerAny P_MergerLemmas
  Text TextProofs TextProofs2 Analysis AnalysisSpec AnalysisProofs AnalysisProofs2 P_AnalysisLemmas P_Analysis
  Index IndexSpec IndexProofs IndexProofs2 P_IndexLemmas P_Index SearchAny
  Float64 Metric MetricSpec MetricProofs FloatProofs MetricFloat MetricFloat2 MetricScore MetricWide P_Metric MetricMono TopK TopKSpec TopKProofs Suggest SuggestSpec SuggestProofs SuggestProofs2 P_SuggestLemmas P_Suggest SuggestAnySpec SuggestAny P_Repeated
  Autocomplete AutocompleteSpec AutocompleteProofs P_Autocomplete Mph P_Mph NGramIndex NGramIndexSpec NGramIndexProofs NGramIndexProofs2 P_NGramIndex NGramIndexAnySpec NGramIndexAny P_RepeatedDict P_Relations AnsweredSpec P_Answered SimilaritySpec P_Similarity.
Local Open Scope Z_scope.
Local Notation length := List.length.
Notation passes := P_Relations.passes.

Section ReturnedAny.
Context (lowr : Z -> Z) (d : tokconf) (words : list bytes) (query : bytes) (m : metric) (beta : f64) (topK : Z) (items : list (f64 * bytes)).
Context (Hdict : dictionary_any lowr d words).
Notation q := (entry_grams lowr d query).
Context (Hq1 : 1 <= zlen q <= 65535) (Hq2 : m = Overlap -> zlen q <= 32767) (Hb : alpha_ok beta) (Hret : returned lowr d words query m beta topK items).
Lemma returned_long_any : exists w, In w words /\ MinY m beta (zlen q) <= zlen (entry_grams lowr d w).
Proof.
  destruct Hret as (rb & srt & g & ord & name & ix & sched & Hrb & Hrw & Hg & Ho & Hsrt & Hix & Hk & Hr). assert (indexable lowr d words) as Hind by (right; exact Hdict).
  destruct (C100_answered rb srt g ord name lowr d words ix query m beta topK Hrb Hrw Hg Ho Hsrt Hind Hix Hq1 Hq2 Hb Hk) as (_ & Hh & Hp).
  destruct (longest_in lowr d words (indexable_nonempty _ _ _ Hind)) as (w & Hw & Ew). exists w. split; [exact Hw|]. rewrite Ew.
  destruct (Z.le_gt_cases (MinY m beta (zlen q)) (longest lowr d words)) as [H|H]; [exact H|exfalso]. destruct (Z.eq_dec (MinY m beta (zlen q)) (longest lowr d words + 1)) as [E|E].
  - specialize (Hh E sched). congruence.
  - destruct Hp as [_ Hp]; [lia|]. specialize (Hp sched _ Hr). discriminate.
Qed.
(* every item is an entry that passes the filters with the similarity or, if the answer is full, a larger one;
   an answer that is not full has every entry that passes, with its score *)
Lemma returned_any : 
  (forall s w, In (s, w) items -> exists i, 0 <= i < zlen words /\ w = entry_at words i /\
    (NoDup q \/ zlen items < topK -> exists s', alpha_ok s' /\ (val beta <= val s')%R /\ (zlen items < topK -> s' = beta) /\ eligible_any m beta (fun _ => s') q (0, entry_grams lowr d (entry_at words i)) = true)) /\
  (zlen items < topK -> forall w, In w words -> passes lowr d query m beta w = true -> In (gram_score lowr d m q w, w) items).
Proof.
  pose proof returned_long_any as Hlong. destruct Hret as (rb & srt & g & ord & name & ix & sched & Hrb & Hrw & Hg & Ho & Hsrt & Hix & Hk & Hr).
  pose proof (dict_index_any rb g ord name lowr d words Hrb Hrw Hg Ho Hdict ix Hix) as Hok. pose proof (any_len rb lowr d words ix Hdict Hok) as Hlen.
  assert (query_any ix q m beta topK) as Hq by (split; [exact Hb|]; split; [exact Hq1|]; split; [exact Hlen|]; split; assumption).
  pose proof (any_searchable rb lowr d words ix Hok q m beta Hlong) as Hse. destruct (docs_good_any lowr d words Hdict) as (Hd & _). pose proof (proj1 Hok) as Hi.
  pose proof Hr as Hr'. unfold ServiceSuggest in Hr'. rewrite suggest_grams in Hr' by (apply Hdict).
  destruct (run rb srt ix q m beta topK sched (start ix q m beta topK)) as [[s|r0|]|] eqn:Er; try discriminate.
  destruct (any_returns rb srt ix _ q m beta topK Hq Hd Hi Hsrt sched r0 Hse Er) as (l & -> & Hgood). cbn [bind] in Hr'. injection Hr' as <-.
  split.
  - destruct Hgood as (sims & L & Hsims & (_ & HL & _) & Hl & _ & rest & Hp & _). intros s w Hit. apply in_map_iff in Hit. destruct Hit as (c & Ec & Hc).
    assert (In c L) as Hin by (apply (Permutation_in _ (Permutation_sym Hp)), in_app_iff; left; exact Hc).
    destruct (HL c Hin) as ([i ts] & n & Hdoc & -> & Hs & Hn & Hth & Hthl). apply (doc_entry lowr d words) in Hdoc. destruct Hdoc as [Hir ->]. cbn [Key Sc fst snd] in *.
    exists i. split; [exact Hir|]. rewrite get_entry in Ec by exact Hir. injection Ec as _ <-. split; [reflexivity|]. set (ts := entry_grams lowr d (entry_at words i)) in *. intros Hor.
    assert (forall s', sims (zlen ts) = s' -> eligible_any m beta (fun _ => s') q (0, ts) = true) as Hel by (intros s' <-; unfold eligible_any, eligible; cbn zeta; cbn [snd]; lia).
    destruct (Hsims (zlen ts)) as [Es|(Hlt & Hsl & Hfull & Hfor)].
    + exists beta. split; [exact Hb|]. split; [lra|]. split; [reflexivity|]. apply Hel. exact Es.
    + assert (~ zlen (map (fun c : cand => (Sc c, DictGet words (Key c))) l) < topK) as Hnf by (unfold zlen in *; rewrite map_length; lia). destruct Hor as [Hnd|Hfew]; [|contradiction].
      exists (sims (zlen ts)). assert (fin (sims (zlen ts)) /\ (val (sims (zlen ts)) <= 1)%R) as [Hf H1].
      { destruct Hsl as (n' & B & Hn' & HnB & HB & ->). specialize (HnB Hnd). destruct (metric_eq_dec m Exact) as [Em|Hne].
        - rewrite Em. unfold Score, Distance. split; [split; vm_compute; reflexivity|]. replace (fsub f_one (of_int 0)) with f_one by (vm_compute; reflexivity). rewrite (proj2 val_one). lra.
        - destruct (score_accurate m n' (zlen q) B Hne ltac:(unfold size_ok; lia) ltac:(unfold size_ok; lia) ltac:(lia) ltac:(lia) ltac:(lia)) as (Hf & Hv & _). split; [exact Hf|lra]. }
      pose proof (proj1 (flt_val _ _ (proj1 Hb) Hf) Hlt) as Hlt'. pose proof (proj2 Hb) as Hr0. split; [split; [exact Hf|lra]|]. split; [lra|]. split; [intros H; contradiction|]. apply Hel. reflexivity.
  - intros Hfew w Hw Hpass. destruct (In_nth_error _ _ Hw) as (j & Hj). assert (0 <= Z.of_nat j < zlen words) as Hir by (split; [lia|]; unfold zlen; apply inj_lt; apply nth_error_Some; rewrite Hj; discriminate).
    assert (entry_at words (Z.of_nat j) = w) as Ew by (unfold entry_at; rewrite Nat2Z.id; apply nth_error_nth; exact Hj).
    assert (In (cand_of m q (Z.of_nat j, entry_grams lowr d w)) l) as Hc.
    { eapply (C94_fewer_than_k rb srt ix _ q m beta topK sched l (Z.of_nat j, entry_grams lowr d w)); try eassumption; [unfold zlen in *; rewrite map_length in Hfew; exact Hfew|]. apply (doc_entry lowr d words). rewrite Ew. split; [exact Hir|reflexivity]. }
    apply in_map_iff. exists (cand_of m q (Z.of_nat j, entry_grams lowr d w)). split; [|exact Hc]. cbn [cand_of Key Sc fst snd]. rewrite get_entry by exact Hir. rewrite Ew. reflexivity.
Qed.
End ReturnedAny.

Lemma indexable_size lowr d words w : indexable lowr d words -> In w words -> zlen (entry_grams lowr d w) + 1 < 2 ^ 26.
Proof. intros [H|H] Hw; apply H; exact Hw. Qed.

(** ** C101 *)
(** As C101_lower_similarity_partial, also for entries that repeat n-grams (such an entry can be
    returned more than once, with fewer common n-grams): every entry that a call with similarity [beta] returns is, with the score of
    all its common n-grams, an answer of a call with a smaller similarity [alpha] that returned
    fewer answers than asked for. *)
Theorem C101_any_dictionary_partial : forall lowr d words query m alpha beta topK topK' items items',
  let q := entry_grams lowr d query in
  indexable lowr d words -> 1 <= zlen q <= 65535 -> (m = Overlap -> zlen q <= 32767) ->
  alpha_ok alpha -> alpha_ok beta -> (val alpha <= val beta)%R -> (m = Jaccard -> val alpha * (1 + / 2 ^ 45) <= val beta)%R ->
  returned lowr d words query m alpha topK items -> zlen items < topK ->
  returned lowr d words query m beta topK' items' -> NoDup q \/ zlen items' < topK' ->
  forall s w, In (s, w) items' -> In (gram_score lowr d m q w, w) items.
Proof.
  intros lowr d words query m alpha beta topK topK' items items' q [Hdict|Hdict] Hq1 Hq2 Ha Hb Hab Hj Hret Hfew Hret' Hor s0 w Hit.
  { pose proof (C101_lower_similarity_partial lowr d words query m alpha beta topK topK' items items' Hdict Hq1 Hq2 Ha Hb Hab Hj Hret Hfew Hret' Hor _ Hit) as Hin.
    destruct (returned_items lowr d words query m alpha topK items Hdict Hq1 Hq2 Ha Hret _ Hin) as (i & _ & E & _). injection E as Es Ew. rewrite Es, Ew in Hin. rewrite Ew. exact Hin. }
  destruct (proj1 (returned_any lowr d words query m beta topK' items' Hdict Hq1 Hq2 Hb Hret') s0 w Hit) as (i & Hi & -> & Hs). destruct (Hs Hor) as (s & Hsok & Hbs & _ & He).
  assert (In (entry_at words i) words) as Hw by (apply entry_In; exact Hi).
  apply (proj2 (returned_any lowr d words query m alpha topK items Hdict Hq1 Hq2 Ha Hret) Hfew _ Hw).
  pose proof (indexable_size lowr d words _ (or_intror Hdict) Hw) as Hz. unfold passes, P_Relations.passes, eligible_any, eligible in *. cbn [snd] in *. set (B := zlen (entry_grams lowr d (entry_at words i))) in *. fold q in He |- *.
  assert (size_ok (zlen q)) as HA by (unfold size_ok; lia). pose proof (min_pos m beta (zlen q) Hb HA) as Hmp.
  assert (size_ok B) as HB by (unfold size_ok; lia).
  pose proof (min_mono alpha beta (zlen q) B Ha Hb Hab HA HB m) as M1. pose proof (max_mono alpha beta (zlen q) B Ha Hb Hab HA HB m) as M2.
  assert (Threshold m alpha (zlen q) B <= Threshold m s (zlen q) B) as M3.
  { destruct (metric_eq_dec m Jaccard) as [E|Hne]; [apply thr_mono_apart|apply thr_mono]; try assumption; try lra. specialize (Hj E). lra. }
  lia.
Qed.
Print Assumptions C101_any_dictionary_partial.

(** ** C102 *)
(** Every dictionary, every query: at the same similarity every entry in an answer with the exact metric is one
    with Jaccard, then Dice, cosine, overlap, each with its score by its metric. *)
Theorem C102_metrics_nest : forall lowr d words query m m' alpha topK topK' items items',
  let q := entry_grams lowr d query in
  indexable lowr d words -> 1 <= zlen q <= 65535 -> (m' = Overlap -> zlen q <= 32767) -> alpha_ok alpha ->
  leniency m <= leniency m' ->
  returned lowr d words query m alpha topK items -> zlen items < topK ->
  returned lowr d words query m' alpha topK' items' -> zlen items' < topK' ->
  forall s w, In (s, w) items -> (m' = Overlap -> zlen (entry_grams lowr d w) <= 32767) -> In (gram_score lowr d m q w, w) items /\ In (gram_score lowr d m' q w, w) items'.
Proof.
  intros lowr d words query m m' alpha topK topK' items items' q [Hdict|Hdict] Hq1 Hq2 Ha Hl Hret Hfew Hret' Hfew' s w Hit Hov.
  { destruct (C102_metrics_nest_partial lowr d words query m m' alpha topK topK' items items' Hdict Hq1 Hq2 Ha Hl Hret Hfew Hret' Hfew' s w Hit Hov) as [E H]. split; [unfold q in *; rewrite <- E; exact Hit|exact H]. }
  assert (m = Overlap -> zlen q <= 32767) as Hq2' by (intros E; apply Hq2; rewrite E in Hl; destruct m'; cbn [leniency] in Hl; try lia; reflexivity).
  pose proof (returned_any lowr d words query m alpha topK items Hdict Hq1 Hq2' Ha Hret) as [R1 R2].
  destruct (R1 s w Hit) as (i & Hi & -> & Hs). destruct (Hs (or_intror Hfew)) as (s' & _ & _ & Es & He). rewrite (Es Hfew) in He. clear Hs.
  assert (In (entry_at words i) words) as Hw by (apply entry_In; exact Hi).
  split; [apply R2; [exact Hfew|exact Hw|exact He]|].
  apply (proj2 (returned_any lowr d words query m' alpha topK' items' Hdict Hq1 Hq2 Ha Hret') Hfew' _ Hw).
  pose proof (indexable_size lowr d words _ (or_intror Hdict) Hw) as Hz. unfold passes, P_Relations.passes, eligible_any, eligible in *. cbn [snd] in *. set (B := zlen (entry_grams lowr d (entry_at words i))) in *. fold q in He |- *.
  assert (size_ok (zlen q)) as HA by (unfold size_ok; lia). pose proof (min_pos m alpha (zlen q) Ha HA) as Hmp. assert (size_ok B) as HB by (unfold size_ok; lia).
  destruct (lenient_filters m m' alpha (zlen q) B (overlap_of q (entry_grams lowr d (entry_at words i))) Ha HA HB (proj2 Hq1)) as (F1 & F2 & F3); lia.
Qed.
Print Assumptions C102_metrics_nest.

(** ** The hypotheses are met by a dictionary that is not one of C71 *)
Fixpoint sauto102 (fuel : nat) tokens m alpha k (p : proc) : list choice :=
  match fuel with
  | O => []
  | S f => match List.find (fun c => match exec rb4 (fun l => l) demo95_index tokens m alpha k c p with Some _ => true | None => false end) (CProd :: map CWork (List.seq 0 9)) with
           | Some c => match exec rb4 (fun l => l) demo95_index tokens m alpha k c p with Some p' => c :: sauto102 f tokens m alpha k p' | None => [] end
           | None => []
           end
  end.
Definition call102 (query : bytes) (m : metric) (alpha : f64) (topK : Z) : option (res (list (f64 * bytes))) :=
  let g := entry_grams demo71_low demo71_conf query in
  ServiceSuggest rb4 (fun l => l) demo95_index demo95_words (ToLower demo71_low) demo71_conf query alpha m topK (sauto102 400 g m alpha topK (start demo95_index g m alpha topK)).
Lemma call102_returned query m alpha topK items : 1 <= topK -> call102 query m alpha topK = Some (Ret items) -> returned demo71_low demo71_conf demo95_words query m alpha topK items.
Proof.
  intros Hk E. exists rb4, (fun l => l), gob1, (fun _ m => rev m), "x"%string, demo95_index. eexists. split; [apply C24_nonvacuous_codecs|]. split; [apply C24_nonvacuous_codecs|]. split; [apply C24_nonvacuous_codecs|].
  split; [intros c l; apply Permutation_rev|]. split; [exact sorter_id|]. split; [exact demo95_built|]. split; [exact Hk|]. exact E.
Qed.
Example C102_any_nonvacuous : let query := bs "ab" in let q := entry_grams demo71_low demo71_conf query in
  indexable demo71_low demo71_conf demo95_words /\ ~ dictionary_ok demo71_low demo71_conf demo95_words /\ 1 <= zlen q <= 65535 /\ alpha_ok quarter /\
  texts (call102 query Jaccard quarter 9) = Some [bs "ab"] /\ texts (call102 query Cosine quarter 9) = Some [bs "ab"; bs "a-a+"; bs "a-a+"] /\
  (forall m items, call102 query m quarter 9 = Some (Ret items) -> returned demo71_low demo71_conf demo95_words query m quarter 9 items).
Proof.
  cbn zeta. split; [right; exact demo95_ok|]. split; [exact (proj1 (proj2 C95_nonvacuous))|]. split; [split; vm_compute; discriminate|]. split; [exact alpha_quarter|].
  split; [vm_compute; reflexivity|]. split; [vm_compute; reflexivity|]. intros m items E. apply call102_returned; [lia|exact E].
Qed.
