(** C101, C102: other similarities, other metrics (pkg/suggest, pkg/metric). *)
From Coq Require Import String ZifyBool Permutation Sorted Reals Lra Lia.
From Verif Require Import Base BaseLemmas GoMap Store StoreSpec Postings PostingsSpec PostingsDrive P_PostingsLemmas Merger MergerSpec P_MergerLemmas
  Text TextProofs TextProofs2 Analysis AnalysisSpec AnalysisProofs AnalysisProofs2 P_AnalysisLemmas P_Analysis
  Index IndexSpec IndexProofs IndexProofs2 P_IndexLemmas P_Index
  Float64 Metric MetricSpec MetricProofs FloatProofs MetricFloat MetricFloat2 MetricScore MetricWide P_Metric MetricMono TopK TopKSpec TopKProofs Suggest SuggestSpec SuggestProofs SuggestProofs2 P_SuggestLemmas P_Suggest
  Autocomplete AutocompleteSpec AutocompleteProofs P_Autocomplete Mph P_Mph NGramIndex NGramIndexSpec NGramIndexProofs NGramIndexProofs2 P_NGramIndex NGramIndexAnySpec P_Relations AnsweredSpec P_Answered SimilaritySpec.
Local Open Scope Z_scope.
Local Notation length := List.length.
Notation passes := P_Relations.passes.

Section Returned.
Context (lowr : Z -> Z) (d : tokconf) (words : list bytes) (query : bytes) (m : metric) (beta : f64) (topK : Z) (items : list (f64 * bytes)).
Context (Hdict : dictionary_ok lowr d words).
Notation q := (entry_grams lowr d query).
Context (Hq1 : 1 <= zlen q <= 65535) (Hq2 : m = Overlap -> zlen q <= 32767) (Hb : alpha_ok beta) (Hret : returned lowr d words query m beta topK items).
Lemma returned_long : exists w, In w words /\ MinY m beta (zlen q) <= zlen (entry_grams lowr d w).
Proof.
  destruct Hret as (rb & srt & g & ord & name & ix & sched & Hrb & Hrw & Hg & Ho & Hsrt & Hix & Hk & Hr). assert (indexable lowr d words) as Hind by (left; exact Hdict).
  destruct (C100_answered rb srt g ord name lowr d words ix query m beta topK Hrb Hrw Hg Ho Hsrt Hind Hix Hq1 Hq2 Hb Hk) as (_ & Hh & Hp).
  destruct (longest_in lowr d words (indexable_nonempty _ _ _ Hind)) as (w & Hw & Ew). exists w. split; [exact Hw|]. rewrite Ew.
  destruct (Z.le_gt_cases (MinY m beta (zlen q)) (longest lowr d words)) as [H|H]; [exact H|exfalso]. destruct (Z.eq_dec (MinY m beta (zlen q)) (longest lowr d words + 1)) as [E|E].
  - specialize (Hh E sched). congruence.
  - destruct Hp as [_ Hp]; [lia|]. specialize (Hp sched _ Hr). discriminate.
Qed.
Lemma returned_items : forall it, In it items -> exists i, 0 <= i < zlen words /\ it = (gram_score lowr d m q (entry_at words i), entry_at words i) /\
  (NoDup q \/ zlen items < topK -> exists s, alpha_ok s /\ (val beta <= val s)%R /\ eligible_any m beta (fun _ => s) q (0, entry_grams lowr d (entry_at words i)) = true).
Proof.
  pose proof returned_long as Hlong. destruct Hret as (rb & srt & g & ord & name & ix & sched & Hrb & Hrw & Hg & Ho & Hsrt & Hix & Hk & Hr).
  pose proof (dict_index rb g ord name lowr d words Hrb Hrw Hg Ho Hdict ix Hix) as Hok.
  assert (query_any ix q m beta topK) as Hq by (split; [exact Hb|]; split; [exact Hq1|]; split; [eapply s_len; eassumption|]; split; assumption).
  pose proof (s_searchable rb lowr d words ix Hok q m beta Hlong) as Hse. pose proof (s_docs lowr d words Hdict) as Hd. pose proof (s_index rb lowr d words ix Hok) as Hi.
  pose proof Hr as Hr'. unfold ServiceSuggest in Hr'. rewrite suggest_grams in Hr' by (apply Hdict).
  destruct (run rb srt ix q m beta topK sched (start ix q m beta topK)) as [[s|r0|]|] eqn:Er; try discriminate.
  destruct (q_returns rb srt ix _ q m beta topK Hq Hd Hi Hsrt sched r0 Hse Er) as (l & -> & Hgood). cbn [bind] in Hr'. injection Hr' as <-.
  destruct Hgood as (sims & Hsims & Hbest). pose proof Hbest as (Hl & _ & rest & Hp & _).
  intros it Hit. apply in_map_iff in Hit. destruct Hit as (c & <- & Hc).
  assert (In c (answers_any m beta sims q (docs_of lowr d words))) as Hin by (apply (Permutation_in _ (Permutation_sym Hp)), in_app_iff; left; exact Hc).
  apply in_map_iff in Hin. destruct Hin as ([i ts] & <- & Hin). apply filter_In in Hin. destruct Hin as [Hin He]. apply (doc_entry lowr d words) in Hin. destruct Hin as [Hir ->].
  exists i. split; [exact Hir|]. cbn [cand_of Key Sc fst snd]. split; [rewrite get_entry by exact Hir; reflexivity|]. intros Hor. set (ts := entry_grams lowr d (entry_at words i)) in *.
  destruct (Hsims (zlen ts)) as [Es|(Hlt & Hsl & Hfull & Hfor)].
  - exists beta. split; [exact Hb|]. split; [lra|]. unfold eligible_any, eligible in *. cbn [snd fst] in *. rewrite Es in He. exact He.
  - destruct Hor as [Hnd|Hfew]; [|unfold zlen in Hfew, Hfull; rewrite map_length in Hfew; lia].
    exists (sims (zlen ts)). assert (fin (sims (zlen ts)) /\ (val (sims (zlen ts)) <= 1)%R) as [Hf H1].
    { destruct Hsl as (n & B & Hn & HnB & HB & ->). specialize (HnB Hnd). assert (zlen ix <= 2 ^ 26) by (eapply s_len; eassumption). destruct (metric_eq_dec m Exact) as [Em|Hne].
      - rewrite Em. unfold Score, Distance. split; [split; vm_compute; reflexivity|]. replace (fsub f_one (of_int 0)) with f_one by (vm_compute; reflexivity). rewrite (proj2 val_one). lra.
      - destruct (score_accurate m n (zlen q) B Hne ltac:(unfold size_ok; lia) ltac:(unfold size_ok; lia) ltac:(lia) ltac:(lia) ltac:(lia)) as (Hf & Hv & _). split; [exact Hf|lra]. }
    pose proof (proj1 (flt_val _ _ (proj1 Hb) Hf) Hlt) as Hlt'. pose proof (proj2 Hb) as Hr0. split; [split; [exact Hf|lra]|]. split; [lra|]. exact He.
Qed.
End Returned.

(** an entry that passes the filters is in every answer that is not full *)
Lemma few_holds lowr d words query m alpha topK items : dictionary_ok lowr d words -> 1 <= zlen (entry_grams lowr d query) <= 65535 -> (m = Overlap -> zlen (entry_grams lowr d query) <= 32767) -> alpha_ok alpha ->
  returned lowr d words query m alpha topK items -> zlen items < topK ->
  forall w, In w words -> passes lowr d query m alpha w = true -> In (gram_score lowr d m (entry_grams lowr d query) w, w) items.
Proof.
  intros Hdict Hq1 Hq2 Ha Hret Hfew w Hw Hp. pose proof (returned_long lowr d words query m alpha topK items Hdict Hq1 Hq2 Ha Hret) as Hlong.
  destruct Hret as (rb & srt & g & ord & name & ix & sched & Hrb & Hrw & Hg & Ho & Hsrt & Hix & Hk & Hr).
  destruct (few_best rb srt g ord name lowr d words ix query m alpha topK sched items Hrb Hrw Hg Ho Hsrt Hdict Hix Hq1 Hq2 Ha Hk Hlong Hr Hfew) as (l & -> & Hlt & Hbest & Hdoc).
  pose proof (best_all _ _ _ Hbest Hlt) as Hp1.
  replace (map (fun c : cand => (Sc c, DictGet words (Key c))) l) with (map (fun c : cand => (Sc c, entry_at words (Key c - 0))) l).
  2: { apply map_ext_in. intros c Hc. destruct (Hdoc c Hc) as ([x ts] & Hx & -> & _). apply (doc_entry lowr d words) in Hx. destruct Hx as [Hx _]. cbn [cand_of Key fst]. rewrite Z.sub_0_r, get_entry by exact Hx. reflexivity. }
  eapply Permutation_in; [apply Permutation_map; exact Hp1|]. unfold docs_of. rewrite (passing lowr d query m alpha words 0). apply in_map_iff. exists w. split; [reflexivity|]. apply filter_In. split; assumption.
Qed.
Lemma entry_size lowr d words i : dictionary_ok lowr d words -> 0 <= i < zlen words -> zlen (entry_grams lowr d (entry_at words i)) + 1 < 2 ^ 26.
Proof. intros (_ & _ & _ & H) Hi. apply H. unfold entry_at. apply nth_In. unfold zlen in Hi. lia. Qed.
Lemma entry_In words i : 0 <= i < zlen words -> In (entry_at words i) words.
Proof. intros Hi. unfold entry_at. apply nth_In. unfold zlen in Hi. lia. Qed.

(** ** C101 *)
(** Asking for less similarity loses no answer.  Whatever the two indexes, limits, sorters and schedules:
    every answer of a call with similarity [beta] is an answer, with the same score, of a call with a smaller
    similarity [alpha] that returned fewer answers than asked for.  (With a repeated
    n-gram in the query, the first call too has to have returned fewer than asked for; with Jaccard the
    two similarities have to differ by a relative 2^-45.) *)
Theorem C101_lower_similarity_partial : forall lowr d words query m alpha beta topK topK' items items',
  let q := entry_grams lowr d query in
  dictionary_ok lowr d words -> 1 <= zlen q <= 65535 -> (m = Overlap -> zlen q <= 32767) ->
  alpha_ok alpha -> alpha_ok beta -> (val alpha <= val beta)%R -> (m = Jaccard -> val alpha * (1 + / 2 ^ 45) <= val beta)%R ->
  returned lowr d words query m alpha topK items -> zlen items < topK ->
  returned lowr d words query m beta topK' items' -> NoDup q \/ zlen items' < topK' ->
  incl items' items.
Proof.
  intros lowr d words query m alpha beta topK topK' items items' q Hdict Hq1 Hq2 Ha Hb Hab Hj Hret Hfew Hret' Hor it Hit.
  destruct (returned_items lowr d words query m beta topK' items' Hdict Hq1 Hq2 Hb Hret' it Hit) as (i & Hi & -> & Hs). destruct (Hs Hor) as (s & Hsok & Hbs & He).
  apply (few_holds lowr d words query m alpha topK items Hdict Hq1 Hq2 Ha Hret Hfew); [apply entry_In; exact Hi|].
  pose proof (entry_size lowr d words i Hdict Hi) as Hz. unfold passes, P_Relations.passes, eligible_any, eligible in *. cbn [snd] in *. set (B := zlen (entry_grams lowr d (entry_at words i))) in *. fold q in He |- *.
  assert (size_ok (zlen q)) as HA by (unfold size_ok; lia).
  assert (1 <= B) as HB1.
  { destruct (Z_le_gt_dec 1 B) as [H|H]; [exact H|exfalso]. destruct (metric_eq_dec m Exact) as [E|Hne]; [rewrite E in He; cbn [MinY] in He; lia|].
    destruct (identical_passes m beta (zlen q) Hb HA Hq2) as [[H1 _] _]. destruct (min_rel beta (zlen q) (zlen q) Hb HA HA m Hne) as (v & Ev & Hv & _). apply rel_pos in Hv; [|unfold u; lra].
    assert (0 < Flocq.Core.Raux.Zceil v) by (apply lt_IZR; pose proof (Flocq.Core.Raux.Zceil_ub v); lra). lia. }
  assert (size_ok B) as HB by (unfold size_ok; lia).
  pose proof (min_mono alpha beta (zlen q) B Ha Hb Hab HA HB m) as M1. pose proof (max_mono alpha beta (zlen q) B Ha Hb Hab HA HB m) as M2.
  assert (Threshold m alpha (zlen q) B <= Threshold m s (zlen q) B) as M3.
  { destruct (metric_eq_dec m Jaccard) as [E|Hne]; [apply thr_mono_apart|apply thr_mono]; try assumption; try lra. specialize (Hj E). lra. }
  lia.
Qed.
Print Assumptions C101_lower_similarity_partial.

(** ** C102 *)
Lemma min_pos m alpha A : alpha_ok alpha -> size_ok A -> 1 <= MinY m alpha A.
Proof.
  intros Ha HA. destruct (metric_eq_dec m Exact) as [E|Hne]; [rewrite E; cbn [MinY]; destruct HA; lia|].
  destruct (min_rel alpha A A Ha HA HA m Hne) as (v & -> & Hv & _). apply rel_pos in Hv; [|unfold u; lra].
  assert (0 < Flocq.Core.Raux.Zceil v) by (apply lt_IZR; pose proof (Flocq.Core.Raux.Zceil_ub v); lra). lia.
Qed.
(* one step of the chain *)
Lemma lenient_step m m' alpha A B : alpha_ok alpha -> size_ok A -> size_ok B -> A <= 65535 -> leniency m' = leniency m + 1 -> m <> Exact ->
  MinY m' alpha A <= MinY m alpha A /\ (m' <> Overlap -> MaxY m alpha A <= MaxY m' alpha A) /\ Threshold m' alpha A B <= Threshold m alpha A B.
Proof.
  intros Ha HA HB H1 Hl Hne. destruct m, m'; cbn [leniency] in Hl; try lia; try congruence.
  - split; [exact (min_ov_cos alpha A B Ha HA HB)|]. split; [congruence|exact (thr_ov_cos alpha A B Ha HA HB)].
  - split; [exact (min_cos_dice alpha A B Ha HA HB H1)|]. split; [intros _; exact (max_dice_cos alpha A B Ha HA HB H1)|exact (thr_cos_dice alpha A B Ha HA HB)].
  - split; [exact (min_dice_jac alpha A B Ha HA HB)|]. split; [intros _; exact (max_jac_dice alpha A B Ha HA HB H1)|exact (thr_dice_jac alpha A B Ha HA HB)].
Qed.
Lemma lenient_filters m m' alpha A B n : alpha_ok alpha -> size_ok A -> size_ok B -> A <= 65535 -> (m' = Overlap -> A <= 32767 /\ B <= 32767) -> leniency m <= leniency m' ->
  MinY m alpha A <= B <= MaxY m alpha A -> Threshold m alpha A B <= n -> Threshold m alpha A B <= B ->
  MinY m' alpha A <= B <= MaxY m' alpha A /\ Threshold m' alpha A B <= n /\ Threshold m' alpha A B <= B.
Proof.
  intros Ha HA HB H1 Hov Hl Hs Hn HnB. destruct (metric_eq_dec m m') as [<-|Hd]; [auto|]. destruct (metric_eq_dec m Exact) as [E|Hne].
  - rewrite E in *. cbn [MinY MaxY Threshold] in *. assert (B = A) as -> by lia. destruct (identical_passes m' alpha A Ha HA ltac:(intros; apply Hov; assumption)) as [H2 H3]. lia.
  - assert (forall m1 m2, leniency m2 = leniency m1 + 1 -> m1 <> Exact -> MinY m2 alpha A <= MinY m1 alpha A /\ (m2 <> Overlap -> MaxY m1 alpha A <= MaxY m2 alpha A) /\ Threshold m2 alpha A B <= Threshold m1 alpha A B) as Hstep
      by (intros; apply lenient_step; assumption).
    pose proof (Hstep Jaccard Dice eq_refl ltac:(discriminate)) as (J1 & J2 & J3). pose proof (Hstep Dice Cosine eq_refl ltac:(discriminate)) as (D1 & D2 & D3). pose proof (Hstep Cosine Overlap eq_refl ltac:(discriminate)) as (C1 & _ & C3).
    specialize (J2 ltac:(discriminate)). specialize (D2 ltac:(discriminate)). assert (m' = Overlap -> B <= MaxY Overlap alpha A) as Ho by (intros E; cbn [MaxY]; apply Hov; exact E).
    destruct m, m'; cbn [leniency] in Hl; try lia; try congruence; try (specialize (Ho eq_refl)); lia.
Qed.
(** The metrics form a chain: at the same similarity every answer with the exact metric is one with
    Jaccard, every answer with Jaccard one with Dice, with Dice one with cosine, and with cosine one with overlap
    (entries of up to 32767 n-grams).  Whatever the indexes, limits and schedules of two calls
    that returned fewer answers than asked for. *)
Theorem C102_metrics_nest_partial : forall lowr d words query m m' alpha topK topK' items items',
  let q := entry_grams lowr d query in
  dictionary_ok lowr d words -> 1 <= zlen q <= 65535 -> (m' = Overlap -> zlen q <= 32767) -> alpha_ok alpha ->
  leniency m <= leniency m' ->
  returned lowr d words query m alpha topK items -> zlen items < topK ->
  returned lowr d words query m' alpha topK' items' -> zlen items' < topK' ->
  forall s w, In (s, w) items -> (m' = Overlap -> zlen (entry_grams lowr d w) <= 32767) -> s = gram_score lowr d m q w /\ In (gram_score lowr d m' q w, w) items'.
Proof.
  intros lowr d words query m m' alpha topK topK' items items' q Hdict Hq1 Hq2 Ha Hl Hret Hfew Hret' Hfew' s w Hit Hov.
  assert (m = Overlap -> zlen q <= 32767) as Hq2' by (intros E; apply Hq2; rewrite E in Hl; destruct m'; cbn [leniency] in Hl; try lia; reflexivity).
  destruct (returned_items lowr d words query m alpha topK items Hdict Hq1 Hq2' Ha Hret (s, w) Hit) as (i & Hi & E & _). injection E as Es Ew. split; [rewrite Ew; exact Es|].
  assert (passes lowr d query m alpha w = true) as Hp.
  { pose proof (returned_long lowr d words query m alpha topK items Hdict Hq1 Hq2' Ha Hret) as Hlong. destruct Hret as (rb & srt & g & ord & name & ix & sched & Hrb & Hrw & Hg & Ho & Hsrt & Hix & Hk & Hr).
    destruct (few_best rb srt g ord name lowr d words ix query m alpha topK sched items Hrb Hrw Hg Ho Hsrt Hdict Hix Hq1 Hq2' Ha Hk Hlong Hr Hfew) as (l & -> & Hlt & Hbest & _).
    apply in_map_iff in Hit. destruct Hit as (c & Ec & Hc). apply (Permutation_in c (Permutation_sym (best_all _ _ _ Hbest Hlt))) in Hc. apply in_map_iff in Hc. destruct Hc as ([x ts] & <- & Hx). apply filter_In in Hx. destruct Hx as [Hx He].
    apply (doc_entry lowr d words) in Hx. destruct Hx as [Hx ->]. cbn [cand_of Key Sc fst snd] in Ec. rewrite get_entry in Ec by exact Hx. injection Ec as _ <-. exact He. }
  assert (In w words) as Hw by (rewrite Ew; apply entry_In; exact Hi).
  apply (few_holds lowr d words query m' alpha topK' items' Hdict Hq1 Hq2 Ha Hret' Hfew' w Hw).
  pose proof (entry_size lowr d words i Hdict Hi) as Hz. rewrite <- Ew in Hz. unfold passes, P_Relations.passes, eligible_any, eligible in *. cbn [snd] in *. set (B := zlen (entry_grams lowr d w)) in *. fold q in Hp |- *.
  assert (size_ok (zlen q)) as HA by (unfold size_ok; lia). pose proof (min_pos m alpha (zlen q) Ha HA) as Hmp. assert (size_ok B) as HB by (unfold size_ok; lia).
  destruct (lenient_filters m m' alpha (zlen q) B (overlap_of q (entry_grams lowr d w)) Ha HA HB (proj2 Hq1)) as (F1 & F2 & F3); lia.
Qed.
Print Assumptions C102_metrics_nest_partial.

(** ** Where they fail, and examples *)
(* the n-grams of length 2 of an entry, without wrapping *)
Definition conf101 : tokconf := mkTok 2 (Has English) (bs "$") [] [].
Definition words101 : list bytes := [bs "abcdefghijklmnopqr"; bs "xyz"; bs "abcdefghij"; bs "abcdefghijklm"].
Definition ops101 : list dop := match IndexDictionary rb4 gob1 (fun _ m => rev m) (documentListFile "x") (headerFile "x") 0 (ToLower demo71_low) conf101 words101 with Ret o => o | _ => [] end.
Definition index101 : list (option inverted) := match FSBuild gob1 "x" (fs_run NewFSDirectory ops101) with Ret i => i | _ => [] end.
Fixpoint sauto101 (fuel : nat) tokens m alpha k (p : proc) : list choice :=
  match fuel with
  | O => []
  | S f => match List.find (fun c => match exec rb4 (fun l => l) index101 tokens m alpha k c p with Some _ => true | None => false end) (CProd :: map CWork (List.seq 0 5)) with
           | Some c => match exec rb4 (fun l => l) index101 tokens m alpha k c p with Some p' => c :: sauto101 f tokens m alpha k p' | None => [] end
           | None => []
           end
  end.
Definition call101 (query : bytes) (m : metric) (alpha : f64) (topK : Z) : option (res (list (f64 * bytes))) :=
  let g := entry_grams demo71_low conf101 query in
  ServiceSuggest rb4 (fun l => l) index101 words101 (ToLower demo71_low) conf101 query alpha m topK (sauto101 400 g m alpha topK (start index101 g m alpha topK)).
(* 0.36 and the next double *)
Definition sim36 : f64 := S754_finite false 6485183463413514 (-54).
Definition above36 : f64 := S754_finite false 6485183463413515 (-54).
Definition texts (r : option (res (list (f64 * bytes)))) : option (list bytes) := match r with Some (Ret l) => Some (map snd l) | _ => None end.
Lemma ok101 : dictionary_ok demo71_low conf101 words101.
Proof.
  split; [cbn; lia|]. split; [vm_compute; reflexivity|]. split; [exists (bs "abcdefghijklmnopqr"), [bs "xyz"; bs "abcdefghij"; bs "abcdefghijklm"]; split; [reflexivity|vm_compute; discriminate]|].
  intros w [<-|[<-|[<-|[<-|[]]]]];
  (split; [match goal with |- NoDup ?t => let v := eval vm_compute in t in change t with v end; repeat apply NoDup_cons; try apply NoDup_nil; cbn; intuition discriminate|vm_compute; reflexivity]).
Qed.
Lemma built101 : index_built rb4 gob1 (fun _ m => rev m) "x" demo71_low conf101 words101 index101.
Proof.
  exists ops101. split; [vm_compute; reflexivity|]. right. exists ops101.
  destruct (C71_index_builds_partial rb4 gob1 (fun _ m => rev m) "x" demo71_low conf101 words101) as (ops & E & Hf & _);
    [apply C24_nonvacuous_codecs|apply C24_nonvacuous_codecs|apply C24_nonvacuous_codecs|intros c m; apply Permutation_rev|exact ok101|].
  assert (ops = ops101) as -> by (unfold ops101; rewrite E; reflexivity). split; [exact Hf|]. split; [vm_compute; reflexivity|].
  intros b Hb. match type of Hb with ?t = _ => let v := eval vm_compute in t in change t with v in Hb end. injection Hb as <-. vm_compute. reflexivity.
Qed.
Lemma call_returned query m alpha topK items : 1 <= topK -> call101 query m alpha topK = Some (Ret items) -> returned demo71_low conf101 words101 query m alpha topK items.
Proof.
  intros Hk E. exists rb4, (fun l => l), gob1, (fun _ m => rev m), "x"%string, index101. eexists. split; [apply C24_nonvacuous_codecs|]. split; [apply C24_nonvacuous_codecs|]. split; [apply C24_nonvacuous_codecs|].
  split; [intros c l; apply Permutation_rev|]. split; [exact sorter_id|]. split; [exact built101|]. split; [exact Hk|]. exact E.
Qed.
Lemma called query m alpha topK ws : 1 <= topK -> texts (call101 query m alpha topK) = Some ws -> exists items, returned demo71_low conf101 words101 query m alpha topK items /\ map snd items = ws.
Proof.
  intros Hk E. destruct (call101 query m alpha topK) as [[items| | |]|] eqn:Ec; try discriminate. cbn [texts] in E. injection E as E. exists items. split; [apply call_returned; assumption|exact E].
Qed.
Lemma alpha_36 : alpha_ok sim36 /\ alpha_ok above36 /\ (val sim36 < val above36)%R /\ (val sim36 < 9 / 25)%R.
Proof.
  unfold alpha_ok, sim36, above36. rewrite !val_finite. cbn [sgn].
  change (Flocq.Core.Raux.bpow Flocq.Core.Zaux.radix2 (-54)) with (/ IZR (Z.pow_pos 2 54))%R. change (Z.pow_pos 2 54) with 18014398509481984.
  split; [split; [split; vm_compute; reflexivity|lra]|]. split; [split; [split; vm_compute; reflexivity|lra]|]. lra.
Qed.
(** With Jaccard and neighbouring doubles, a lower similarity does lose answers: an entry of
    similarity 9/25 is not returned for 0.36, but for the next double above it. *)
Theorem C101_lower_similarity_refuted : let q := entry_grams demo71_low conf101 (bs "abcdefghijstuvwxyz") in let w := bs "abcdefghijklmnopqr" in
  dictionary_ok demo71_low conf101 words101 /\ NoDup q /\ 1 <= zlen q <= 65535 /\ alpha_ok sim36 /\ alpha_ok above36 /\ (val sim36 < val above36)%R /\
  gram_similarity demo71_low conf101 Jaccard q w = (9 / 25)%R /\ (val sim36 < 9 / 25)%R /\
  exists items items', returned demo71_low conf101 words101 (bs "abcdefghijstuvwxyz") Jaccard sim36 10 items /\ zlen items < 10 /\ ~ In w (map snd items) /\
    returned demo71_low conf101 words101 (bs "abcdefghijstuvwxyz") Jaccard above36 10 items' /\ zlen items' < 10 /\ In w (map snd items').
Proof.
  intros q w. destruct alpha_36 as (H1 & H2 & H3 & H4). split; [exact ok101|]. split; [unfold q; match goal with |- NoDup ?t => let v := eval vm_compute in t in change t with v end; repeat apply NoDup_cons; try apply NoDup_nil; cbn; intuition discriminate|].
  split; [split; vm_compute; discriminate|]. split; [exact H1|]. split; [exact H2|]. split; [exact H3|]. split; [|split; [exact H4|]].
  - unfold gram_similarity.
    replace (common q (entry_grams demo71_low conf101 w)) with 9 by (vm_compute; reflexivity). replace (zlen q) with 17 by (vm_compute; reflexivity). replace (zlen (entry_grams demo71_low conf101 w)) with 17 by (vm_compute; reflexivity). cbn [similarity]. lra.
  - destruct (called (bs "abcdefghijstuvwxyz") Jaccard sim36 10 [bs "abcdefghij"; bs "abcdefghijklm"] ltac:(lia) ltac:(vm_compute; reflexivity)) as (items & Hr & E).
    destruct (called (bs "abcdefghijstuvwxyz") Jaccard above36 10 [bs "abcdefghij"; bs "abcdefghijklm"; w] ltac:(lia) ltac:(vm_compute; reflexivity)) as (items' & Hr' & E').
    exists items, items'. assert (zlen items = 2) as L by (unfold zlen; rewrite <- (map_length snd), E; reflexivity). assert (zlen items' = 3) as L' by (unfold zlen; rewrite <- (map_length snd), E'; reflexivity). rewrite E, E'.
    split; [exact Hr|]. split; [lia|]. split; [vm_compute; intuition discriminate|]. split; [exact Hr'|]. split; [lia|]. right. right. left. reflexivity.
Qed.
Print Assumptions C101_lower_similarity_refuted.
(** At 7/8 the five metrics return more and more; with Jaccard, 1/4 returns more than 7/8. *)
Definition seven_eighths : f64 := fdiv (of_int 7) (of_int 8).
Lemma val_seven_eighths : alpha_ok seven_eighths /\ val seven_eighths = (7 / 8)%R.
Proof.
  assert (seven_eighths = S754_finite false 7881299347898368 (-53)) as -> by (vm_compute; reflexivity). unfold alpha_ok. rewrite val_finite. cbn [sgn].
  change (Flocq.Core.Raux.bpow Flocq.Core.Zaux.radix2 (-53)) with (/ IZR (Z.pow_pos 2 53))%R. change (Z.pow_pos 2 53) with 9007199254740992. split; [split; [split; vm_compute; reflexivity|lra]|lra].
Qed.
Example C102_nonvacuous : let query := bs "abcdefghijk" in let q := entry_grams demo71_low conf101 query in
  dictionary_ok demo71_low conf101 words101 /\ 1 <= zlen q <= 32767 /\ alpha_ok seven_eighths /\
  map (fun m => texts (call101 query m seven_eighths 10)) [Exact; Jaccard; Dice; Cosine; Overlap] =
    [Some []; Some [bs "abcdefghij"]; Some [bs "abcdefghij"; bs "abcdefghijklm"]; Some [bs "abcdefghij"; bs "abcdefghijklm"]; Some [bs "abcdefghijklmnopqr"; bs "abcdefghij"; bs "abcdefghijklm"]] /\
  (forall m items, call101 query m seven_eighths 10 = Some (Ret items) -> returned demo71_low conf101 words101 query m seven_eighths 10 items).
Proof.
  cbn zeta. split; [exact ok101|]. split; [split; vm_compute; discriminate|]. split; [exact (proj1 val_seven_eighths)|]. split; [vm_compute; reflexivity|]. intros m items E. apply call_returned; [lia|exact E].
Qed.
Example C101_nonvacuous : let query := bs "abcdefghijk" in (val quarter * (1 + / 2 ^ 45) <= val seven_eighths)%R /\
  texts (call101 query Jaccard quarter 10) = Some [bs "abcdefghij"; bs "abcdefghijklm"; bs "abcdefghijklmnopqr"] /\ texts (call101 query Jaccard seven_eighths 10) = Some [bs "abcdefghij"].
Proof. cbn zeta. rewrite val_quarter, (proj2 val_seven_eighths). split; [lra|]. split; vm_compute; reflexivity. Qed.
