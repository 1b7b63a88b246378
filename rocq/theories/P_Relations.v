(** C96: how the answers of different requests relate (pkg/suggest, pkg/analysis). *)
From Coq Require Import String ZifyBool Permutation Sorted Reals Lra Lia.
From Verif Require Import Base BaseLemmas GoMap Store StoreSpec Postings PostingsSpec PostingsDrive P_PostingsLemmas Merger MergerSpec P_MergerLemmas
  Text TextProofs TextProofs2 Analysis AnalysisSpec AnalysisProofs AnalysisProofs2 P_AnalysisLemmas P_Analysis
  Index IndexSpec IndexProofs IndexProofs2 P_IndexLemmas P_Index
  Float64 Metric MetricSpec MetricProofs FloatProofs MetricFloat MetricFloat2 MetricScore MetricWide P_Metric TopK TopKSpec TopKProofs Suggest SuggestSpec SuggestProofs SuggestProofs2 P_SuggestLemmas P_Suggest
  Autocomplete AutocompleteSpec AutocompleteProofs P_Autocomplete Mph P_Mph NGramIndex NGramIndexSpec NGramIndexProofs NGramIndexProofs2 P_NGramIndex.
Local Open Scope Z_scope.
Local Notation length := List.length.

(** ** Suggest: an entry is answered or not, whatever else is in the dictionary *)
(* the filter an entry has to pass; only the query, the metric, the similarity and the entry matter *)
Definition passes (lowr : Z -> Z) (d : tokconf) (query : bytes) (m : metric) (alpha : f64) (w : bytes) : bool :=
  eligible_any m alpha (fun _ => alpha) (entry_grams lowr d query) (0, entry_grams lowr d w).
Section Few.
Context (rb : roaring) (srt : list iter -> list iter) (g : gobcodec) (ord : Z -> index_map -> index_map) (name : string) (lowr : Z -> Z) (d : tokconf) (words : list bytes) (ix : list (option inverted)).
Context (query : bytes) (m : metric) (alpha : f64) (topK : Z) (sched : list choice) (items : list (f64 * bytes)).
Context (Hrb : roaring_ok rb) (Hrw : roaring_written rb) (Hg : gob_ok g) (Ho : order_ok ord) (Hsrt : sorter_ok srt).
Context (Hdict : dictionary_ok lowr d words) (Hb : index_built rb g ord name lowr d words ix).
Notation q := (entry_grams lowr d query).
Context (Hq1 : 1 <= zlen q <= 65535) (Hq2 : m = Overlap -> zlen q <= 32767) (Ha : alpha_ok alpha) (Hk : 1 <= topK).
Context (Hlong : exists w, In w words /\ MinY m alpha (zlen q) <= zlen (entry_grams lowr d w)).
Context (Hr : ServiceSuggest rb srt ix words (ToLower lowr) d query alpha m topK sched = Some (Ret items)) (Hfew : zlen items < topK).
Notation all := (answers_any m alpha (fun _ => alpha) q (docs_of lowr d words)).
Lemma few_best : exists l, items = map (fun c => (Sc c, DictGet words (Key c))) l /\ zlen l < topK /\ best_k topK all l /\
  (forall c, In c l -> exists doc, In doc (docs_of lowr d words) /\ c = cand_of m q doc /\ 1 <= overlap_of q (snd doc)).
Proof.
  pose proof (dict_index rb g ord name lowr d words Hrb Hrw Hg Ho Hdict ix Hb) as Hok.
  assert (query_any ix q m alpha topK) as Hq by (split; [exact Ha|]; split; [exact Hq1|]; split; [eapply s_len; eassumption|]; split; assumption).
  pose proof (s_searchable rb lowr d words ix Hok q m alpha Hlong) as Hse. pose proof (s_docs lowr d words Hdict) as Hd. pose proof (s_index rb lowr d words ix Hok) as Hi.
  pose proof Hr as Hr'. unfold ServiceSuggest in Hr'. rewrite suggest_grams in Hr' by (apply Hdict).
  destruct (run rb srt ix q m alpha topK sched (start ix q m alpha topK)) as [[s|r0|]|] eqn:Er; try discriminate.
  destruct (C41_repeated_tokens_partial rb srt ix _ q m alpha topK sched r0 Hq Hse Hd Hi Hsrt Er) as (l & -> & Hl & Hsort & Hnd & Hsound & Hbest). cbn [bind] in Hr'. injection Hr' as <-.
  exists l. split; [reflexivity|]. assert (zlen l < topK) as Hlt by (unfold zlen in *; rewrite map_length in Hfew; exact Hfew). split; [exact Hlt|]. split; [apply Hbest; exact Hlt|].
  intros c Hc. destruct (Hsound c Hc) as (doc & H1 & H2 & H3 & _). eauto.
Qed.
End Few.
Lemma best_all k all l : best_k k all l -> zlen l < k -> Permutation all l.
Proof.
  intros (Hl & _ & rest & Hp & _) Hk. pose proof (Permutation_length Hp) as Hn. rewrite app_length in Hn. unfold zlen in Hk. destruct rest as [|x rest]; [rewrite app_nil_r in Hp; exact Hp|]. cbn [List.length] in Hn. lia.
Qed.
Lemma passing lowr d query m alpha words : forall i,
  map (fun c => (Sc c, entry_at words (Key c - i))) (answers_any m alpha (fun _ => alpha) (entry_grams lowr d query) (docs_from lowr d i words)) =
  map (fun w => (gram_score lowr d m (entry_grams lowr d query) w, w)) (filter (passes lowr d query m alpha) words).
Proof.
  induction words as [|w words IH]; intros i; [reflexivity|]. unfold answers_any. rewrite docs_from_cons. cbn [filter].
  assert (forall l, (forall c, In c l -> i + 1 <= Key c) -> map (fun c : cand => (Sc c, entry_at (w :: words) (Key c - i))) l = map (fun c => (Sc c, entry_at words (Key c - (i + 1)))) l) as Hshift.
  { intros l Hl. apply map_ext_in. intros c Hc. specialize (Hl c Hc). f_equal. unfold entry_at. replace (Z.to_nat (Key c - i)) with (S (Z.to_nat (Key c - (i + 1)))) by lia. reflexivity. }
  assert (forall c, In c (map (cand_of m (entry_grams lowr d query)) (filter (eligible_any m alpha (fun _ => alpha) (entry_grams lowr d query)) (docs_from lowr d (i + 1) words))) -> i + 1 <= Key c) as Hkeys.
  { intros c Hc. apply in_map_iff in Hc. destruct Hc as ([x ts] & <- & Hx). apply filter_In in Hx. destruct Hx as [Hx _]. apply docs_from_in in Hx. destruct Hx as (j & w' & _ & -> & _). cbn [cand_of Key fst]. lia. }
  change (eligible_any m alpha (fun _ => alpha) (entry_grams lowr d query) (i, entry_grams lowr d w)) with (passes lowr d query m alpha w).
  destruct (passes lowr d query m alpha w); cbn [map].
  - rewrite (Hshift _ Hkeys). rewrite <- (IH (i + 1)). f_equal. cbn [cand_of Key Sc fst snd]. unfold entry_at. replace (Z.to_nat (i - i)) with O by lia. reflexivity.
  - rewrite (Hshift _ Hkeys). apply IH.
Qed.

(** Every query has a filter on entries so that a call that returns fewer answers than asked for
    returns exactly the entries that pass, with their scores: from whatever dictionary they are,
    whatever else it holds, whatever the limit, the index (driver, iteration order of the maps)
    and the schedule. *)
Theorem C96_entry_by_entry_partial : forall lowr d query m alpha, let q := entry_grams lowr d query in
  1 <= zlen q <= 65535 -> (m = Overlap -> zlen q <= 32767) -> alpha_ok alpha ->
  exists passes : bytes -> bool, forall rb srt g ord name words ix topK sched items,
  roaring_ok rb -> roaring_written rb -> gob_ok g -> order_ok ord -> sorter_ok srt ->
  dictionary_ok lowr d words -> index_built rb g ord name lowr d words ix -> 1 <= topK ->
  (exists w, In w words /\ MinY m alpha (zlen q) <= zlen (entry_grams lowr d w)) ->
  ServiceSuggest rb srt ix words (ToLower lowr) d query alpha m topK sched = Some (Ret items) -> zlen items < topK ->
  Permutation items (map (fun w => (gram_score lowr d m q w, w)) (filter passes words)).
Proof.
  intros lowr d query m alpha q Hq1 Hq2 Ha. exists (passes lowr d query m alpha). intros rb srt g ord name words ix topK sched items Hrb Hrw Hg Ho Hsrt Hdict Hb Hk Hlong Hr Hfew.
  destruct (few_best rb srt g ord name lowr d words ix query m alpha topK sched items Hrb Hrw Hg Ho Hsrt Hdict Hb Hq1 Hq2 Ha Hk Hlong Hr Hfew) as (l & -> & Hlt & Hbest & Hdoc).
  apply Permutation_sym. pose proof (best_all _ _ _ Hbest Hlt) as Hp. unfold q. rewrite <- (passing lowr d query m alpha words 0).
  eapply Permutation_trans; [apply Permutation_map; exact Hp|]. replace (map (fun c : cand => (Sc c, DictGet words (Key c))) l) with (map (fun c : cand => (Sc c, entry_at words (Key c - 0))) l); [apply Permutation_refl|].
  apply map_ext_in. intros c Hc. destruct (Hdoc c Hc) as ([x ts] & Hx & -> & _). apply (doc_entry lowr d words) in Hx. destruct Hx as [Hx _]. cbn [cand_of Key fst]. rewrite Z.sub_0_r, get_entry by exact Hx. reflexivity.
Qed.
Print Assumptions C96_entry_by_entry_partial.

(** The order of the answers is fixed too: two such calls on the same dictionary return the same
    list, whatever their limits, indexes and schedules. *)
Theorem C96_two_calls_partial : forall lowr d query m alpha words rb rb' srt srt' g g' ord ord' name name' ix ix' topK topK' sched sched' items items',
  let q := entry_grams lowr d query in
  1 <= zlen q <= 65535 -> (m = Overlap -> zlen q <= 32767) -> alpha_ok alpha ->
  roaring_ok rb -> roaring_written rb -> gob_ok g -> order_ok ord -> sorter_ok srt -> roaring_ok rb' -> roaring_written rb' -> gob_ok g' -> order_ok ord' -> sorter_ok srt' ->
  dictionary_ok lowr d words -> index_built rb g ord name lowr d words ix -> index_built rb' g' ord' name' lowr d words ix' -> 1 <= topK -> 1 <= topK' ->
  (exists w, In w words /\ MinY m alpha (zlen q) <= zlen (entry_grams lowr d w)) ->
  ServiceSuggest rb srt ix words (ToLower lowr) d query alpha m topK sched = Some (Ret items) -> zlen items < topK ->
  ServiceSuggest rb' srt' ix' words (ToLower lowr) d query alpha m topK' sched' = Some (Ret items') -> zlen items' < topK' ->
  items = items'.
Proof.
  intros lowr d query m alpha words rb rb' srt srt' g g' ord ord' name name' ix ix' topK topK' sched sched' items items' q Hq1 Hq2 Ha Hrb Hrw Hg Ho Hsrt Hrb' Hrw' Hg' Ho' Hsrt' Hdict Hb Hb' Hk Hk' Hlong Hr Hfew Hr' Hfew'.
  destruct (few_best rb srt g ord name lowr d words ix query m alpha topK sched items Hrb Hrw Hg Ho Hsrt Hdict Hb Hq1 Hq2 Ha Hk Hlong Hr Hfew) as (l & -> & Hlt & Hbest & Hdoc).
  destruct (few_best rb' srt' g' ord' name' lowr d words ix' query m alpha topK' sched' items' Hrb' Hrw' Hg' Ho' Hsrt' Hdict Hb' Hq1 Hq2 Ha Hk' Hlong Hr' Hfew') as (l' & -> & Hlt' & Hbest' & Hdoc').
  pose proof (best_all _ _ _ Hbest Hlt) as Hp. pose proof (best_all _ _ _ Hbest' Hlt') as Hp'. set (all := answers_any m alpha (fun _ => alpha) (entry_grams lowr d query) (docs_of lowr d words)) in *.
  assert (numeric all) as Hnum.
  { apply (Permutation_Forall (Permutation_sym Hp)). apply Forall_forall. intros c Hc. destruct (Hdoc c Hc) as ([x ts] & Hx & -> & Hov). apply (doc_entry lowr d words) in Hx. destruct Hx as [Hx ->]. cbn [cand_of Sc fst snd] in *.
    destruct Hdict as (_ & _ & _ & Hl). destruct (Hl (entry_at words x)) as [_ Hlen]; [unfold entry_at; apply nth_In; unfold zlen in Hx; lia|]. fold q in Hov |- *. set (h := entry_grams lowr d (entry_at words x)) in *.
    assert (overlap_of q h <= zlen q) as Hov2. { unfold overlap_of, zlen. clear. induction q as [|t q' IH]; [cbn; lia|]. cbn [filter]. destruct (existsb (beqb t) h); cbn [List.length]; lia. }
    assert (1 <= zlen h) as H1. { destruct h as [|t h']; [exfalso|unfold zlen; cbn [List.length]; lia]. enough (overlap_of q [] = 0) by lia. unfold overlap_of. clear. induction q as [|t q' IH]; [reflexivity|]. cbn [filter existsb]. exact IH. }
    destruct (score_wide m (overlap_of q h) (zlen q) (zlen h)) as [[Hf Hn] _]; [unfold size_ok; lia..|]. intros E. rewrite E in Hn. discriminate. }
  assert (Forall2 same l l') as HF.
  { apply (best_unique (zlen all) all all l l' Hnum (Permutation_refl _)).
    - destruct Hbest as (_ & H2 & rest & Hp1 & Hw). split; [rewrite (Permutation_length Hp); unfold zlen; rewrite (Permutation_length Hp); lia|]. split; [exact H2|eauto].
    - destruct Hbest' as (_ & H2 & rest & Hp1 & Hw). split; [rewrite (Permutation_length Hp'); unfold zlen; rewrite (Permutation_length Hp'); lia|]. split; [exact H2|eauto]. }
  assert (l = l') as ->; [|reflexivity]. clear - HF Hdoc Hdoc'. induction HF as [|c c' l l' [Hk _] _ IH]; [reflexivity|].
  f_equal; [|apply IH; intros x Hx; [apply Hdoc|apply Hdoc']; right; exact Hx]. destruct (Hdoc c (or_introl eq_refl)) as ([x ts] & Hx & -> & _). destruct (Hdoc' c' (or_introl eq_refl)) as ([x' ts'] & Hx' & -> & _). cbn [cand_of Key fst] in Hk. subst x'.
  apply (doc_entry lowr d words) in Hx, Hx'. destruct Hx as [_ ->], Hx' as [_ ->]. reflexivity.
Qed.
Print Assumptions C96_two_calls_partial.
(** Entries that are added to a dictionary take no answers away: a call on a larger dictionary
    that returns fewer answers than asked for returns all that such a call returns on the smaller
    one (in whatever order the entries are). *)
Theorem C96_growing_partial : forall lowr d query m alpha words words' rb rb' srt srt' g g' ord ord' name name' ix ix' topK topK' sched sched' items items',
  let q := entry_grams lowr d query in
  1 <= zlen q <= 65535 -> (m = Overlap -> zlen q <= 32767) -> alpha_ok alpha ->
  roaring_ok rb -> roaring_written rb -> gob_ok g -> order_ok ord -> sorter_ok srt -> roaring_ok rb' -> roaring_written rb' -> gob_ok g' -> order_ok ord' -> sorter_ok srt' ->
  dictionary_ok lowr d words -> dictionary_ok lowr d words' -> index_built rb g ord name lowr d words ix -> index_built rb' g' ord' name' lowr d words' ix' -> 1 <= topK -> 1 <= topK' ->
  (exists w, In w words /\ MinY m alpha (zlen q) <= zlen (entry_grams lowr d w)) -> incl words words' ->
  ServiceSuggest rb srt ix words (ToLower lowr) d query alpha m topK sched = Some (Ret items) -> zlen items < topK ->
  ServiceSuggest rb' srt' ix' words' (ToLower lowr) d query alpha m topK' sched' = Some (Ret items') -> zlen items' < topK' ->
  incl items items' /\ (forall s w, In (s, w) items' -> In w words -> In (s, w) items).
Proof.
  intros lowr d query m alpha words words' rb rb' srt srt' g g' ord ord' name name' ix ix' topK topK' sched sched' items items' q Hq1 Hq2 Ha Hrb Hrw Hg Ho Hsrt Hrb' Hrw' Hg' Ho' Hsrt' Hdict Hdict' Hb Hb' Hk Hk' Hlong Hincl Hr Hfew Hr' Hfew'.
  destruct (C96_entry_by_entry_partial lowr d query m alpha Hq1 Hq2 Ha) as (p & H).
  pose proof (H rb srt g ord name words ix topK sched items Hrb Hrw Hg Ho Hsrt Hdict Hb Hk Hlong Hr Hfew) as P1.
  assert (exists w, In w words' /\ MinY m alpha (zlen q) <= zlen (entry_grams lowr d w)) as Hlong' by (destruct Hlong as (w & Hw & Hm); exists w; auto).
  pose proof (H rb' srt' g' ord' name' words' ix' topK' sched' items' Hrb' Hrw' Hg' Ho' Hsrt' Hdict' Hb' Hk' Hlong' Hr' Hfew') as P2. split.
  - intros it Hit. apply (Permutation_in it (Permutation_sym P2)). apply (Permutation_in it P1) in Hit. apply in_map_iff in Hit. destruct Hit as (w & <- & Hw). apply filter_In in Hw. apply in_map_iff. exists w. split; [reflexivity|]. apply filter_In. split; [apply Hincl; apply Hw|apply Hw].
  - intros s w Hit Hw. apply (Permutation_in _ P2) in Hit. apply (Permutation_in _ (Permutation_sym P1)). apply in_map_iff in Hit. destruct Hit as (w' & E & Hw'). injection E as <- <-. apply in_map_iff. exists w'. split; [reflexivity|]. apply filter_In. apply filter_In in Hw'. split; [exact Hw|apply Hw'].
Qed.
Print Assumptions C96_growing_partial.

(** ** Autocomplete *)
(** Asking for more completions extends the list: the answers to a smaller limit are the first of
    those to a larger one. *)
Theorem C96_more_completions_partial : forall lowr d query words rb rb' srt srt' g g' ord ord' name name' ix ix' limit limit' sched sched' items items',
  let q := prefix_grams lowr d query in NoDup q -> 1 <= zlen q < 2 ^ 32 -> 0 <= limit <= limit' ->
  roaring_ok rb -> roaring_written rb -> gob_ok g -> order_ok ord -> sorter_ok srt -> roaring_ok rb' -> roaring_written rb' -> gob_ok g' -> order_ok ord' -> sorter_ok srt' ->
  dictionary_ok lowr d words -> index_built rb g ord name lowr d words ix -> index_built rb' g' ord' name' lowr d words ix' ->
  ServiceAutocomplete rb srt ix words (ToLower lowr) d query limit sched = Some (Ret items) ->
  ServiceAutocomplete rb' srt' ix' words (ToLower lowr) d query limit' sched' = Some (Ret items') ->
  items = firstn (Z.to_nat limit) items'.
Proof.
  intros lowr d query words rb rb' srt srt' g g' ord ord' name name' ix ix' limit limit' sched sched' items items' q Nq Hq Hl Hrb Hrw Hg Ho Hsrt Hrb' Hrw' Hg' Ho' Hsrt' Hdict Hb Hb' Hr Hr'.
  pose proof (C73_autocomplete_partial rb srt g ord name lowr d words ix query limit Hrb Hrw Hg Ho Hsrt Hdict Hb Nq Hq ltac:(lia) sched _ Hr) as E.
  pose proof (C73_autocomplete_partial rb' srt' g' ord' name' lowr d words ix' query limit' Hrb' Hrw' Hg' Ho' Hsrt' Hdict Hb' Nq Hq ltac:(lia) sched' _ Hr') as E'.
  injection E as ->. injection E' as ->. rewrite firstn_map, firstn_firstn. f_equal. f_equal. lia.
Qed.
Print Assumptions C96_more_completions_partial.
Lemma matches_app lowr d q words more : exists tail, matches lowr d q (words ++ more) = matches lowr d q words ++ tail /\ forall i, In i tail -> zlen words <= i.
Proof.
  unfold matches. rewrite app_length, seq_app, map_app, filter_app. eexists. split; [f_equal|].
  - apply filter_ext_in. intros i Hi. apply in_map_iff in Hi. destruct Hi as (n & <- & Hn). apply in_seq in Hn. unfold entry_at. rewrite app_nth1 by lia. reflexivity.
  - intros i Hi. apply filter_In in Hi. destruct Hi as [Hi _]. apply in_map_iff in Hi. destruct Hi as (n & <- & Hn). apply in_seq in Hn. unfold zlen. lia.
Qed.
(** Entries appended to the dictionary come after the completions there are. *)
Theorem C96_appending_partial : forall lowr d query words more rb rb' srt srt' g g' ord ord' name name' ix ix' limit sched sched' items items',
  let q := prefix_grams lowr d query in NoDup q -> 1 <= zlen q < 2 ^ 32 -> 0 <= limit ->
  roaring_ok rb -> roaring_written rb -> gob_ok g -> order_ok ord -> sorter_ok srt -> roaring_ok rb' -> roaring_written rb' -> gob_ok g' -> order_ok ord' -> sorter_ok srt' ->
  dictionary_ok lowr d words -> dictionary_ok lowr d (words ++ more) -> index_built rb g ord name lowr d words ix -> index_built rb' g' ord' name' lowr d (words ++ more) ix' ->
  ServiceAutocomplete rb srt ix words (ToLower lowr) d query limit sched = Some (Ret items) ->
  ServiceAutocomplete rb' srt' ix' (words ++ more) (ToLower lowr) d query limit sched' = Some (Ret items') ->
  exists new, items' = items ++ new /\ (new <> [] -> zlen items < limit) /\ forall it, In it new -> In (snd it) more.
Proof.
  intros lowr d query words more rb rb' srt srt' g g' ord ord' name name' ix ix' limit sched sched' items items' q Nq Hq Hl Hrb Hrw Hg Ho Hsrt Hrb' Hrw' Hg' Ho' Hsrt' Hdict Hdict' Hb Hb' Hr Hr'.
  pose proof (C73_autocomplete_partial rb srt g ord name lowr d words ix query limit Hrb Hrw Hg Ho Hsrt Hdict Hb Nq Hq Hl sched _ Hr) as E.
  pose proof (C73_autocomplete_partial rb' srt' g' ord' name' lowr d (words ++ more) ix' query limit Hrb' Hrw' Hg' Ho' Hsrt' Hdict' Hb' Nq Hq Hl sched' _ Hr') as E'.
  injection E as ->. injection E' as ->. fold q. destruct (matches_app lowr d q words more) as (tail & Em & Ht). rewrite Em, firstn_app, map_app.
  set (M := matches lowr d q words) in *. set (T := firstn (Z.to_nat limit - length M) tail).
  exists (map (fun i => (of_int 0, entry_at (words ++ more) i)) T). split; [|split].
  - f_equal. apply map_ext_in. intros i Hi. f_equal. assert (In i M) as HiM by (rewrite <- (firstn_skipn (Z.to_nat limit) M); apply in_or_app; left; exact Hi). unfold M, matches in HiM. apply filter_In in HiM. destruct HiM as [HiM _]. apply in_map_iff in HiM. destruct HiM as (n & <- & Hn). apply in_seq in Hn. unfold entry_at. rewrite app_nth1 by lia. reflexivity.
  - intros Hne. unfold zlen. rewrite map_length, firstn_length. destruct (Z.to_nat limit - length M)%nat as [|n] eqn:En; [exfalso; apply Hne; unfold T; reflexivity|]. lia.
  - intros it Hit. apply in_map_iff in Hit. destruct Hit as (i & <- & Hi). cbn [snd]. assert (In i tail) as Hit by (rewrite <- (firstn_skipn (Z.to_nat limit - length M)%nat tail); apply in_or_app; left; exact Hi).
    pose proof (Ht i Hit) as Hge. assert (In i (matches lowr d q (words ++ more))) as HiM by (rewrite Em; apply in_or_app; right; exact Hit). unfold matches in HiM. apply filter_In in HiM. destruct HiM as [HiM _]. apply in_map_iff in HiM. destruct HiM as (n & <- & Hn). apply in_seq in Hn. rewrite app_length in Hn. unfold zlen in Hge. unfold entry_at. rewrite app_nth2 by lia. apply nth_In. lia.
Qed.
Print Assumptions C96_appending_partial.
(** Typing on narrows the completions: what matches a longer text matches its beginning, if that
    (with the wrap in front) has as many characters as the n-grams. *)
Theorem C96_narrowing : forall lowr d words query rest,
  1 <= t_n d <= 8 -> well_formed (t_wrap0 d ++ query) -> t_n d <= zlen (chars (Trim (ToLower lowr (t_wrap0 d ++ query)))) ->
  incl (matches lowr d (prefix_grams lowr d (query ++ rest)) words) (matches lowr d (prefix_grams lowr d query) words).
Proof.
  intros lowr d words query rest Hn Hw Hl. set (d' := mkTok (t_n d) (t_has d) (t_pad d) (t_wrap0 d) []).
  destruct (C34_prefix_tokens_partial lowr d' query rest Hn Hw Hl) as (qs & es & Eq & Es & Hi & _).
  change (AutocompleteTokenize (ToLower lowr) d query = Ret qs) in Eq. change (AutocompleteTokenize (ToLower lowr) d (query ++ rest) = Ret es) in Es. rewrite auto_grams in Eq, Es by exact Hn. injection Eq as <-. injection Es as <-.
  intros i Hm. unfold matches in *. apply filter_In in Hm. destruct Hm as [H1 H2]. apply filter_In. split; [exact H1|]. rewrite forallb_forall in *. intros t Ht. apply H2, Hi, Ht.
Qed.
Print Assumptions C96_narrowing.
Theorem C96_narrowing_answers_partial : forall lowr d query rest words rb rb' srt srt' g g' ord ord' name name' ix ix' limit limit' sched sched' items items',
  well_formed (t_wrap0 d ++ query) -> t_n d <= zlen (chars (Trim (ToLower lowr (t_wrap0 d ++ query)))) ->
  NoDup (prefix_grams lowr d query) -> 1 <= zlen (prefix_grams lowr d query) < 2 ^ 32 -> NoDup (prefix_grams lowr d (query ++ rest)) -> 1 <= zlen (prefix_grams lowr d (query ++ rest)) < 2 ^ 32 -> 0 <= limit -> 0 <= limit' ->
  roaring_ok rb -> roaring_written rb -> gob_ok g -> order_ok ord -> sorter_ok srt -> roaring_ok rb' -> roaring_written rb' -> gob_ok g' -> order_ok ord' -> sorter_ok srt' ->
  dictionary_ok lowr d words -> index_built rb g ord name lowr d words ix -> index_built rb' g' ord' name' lowr d words ix' ->
  ServiceAutocomplete rb srt ix words (ToLower lowr) d query limit sched = Some (Ret items) -> zlen items < limit ->
  ServiceAutocomplete rb' srt' ix' words (ToLower lowr) d (query ++ rest) limit' sched' = Some (Ret items') ->
  incl items' items.
Proof.
  intros lowr d query rest words rb rb' srt srt' g g' ord ord' name name' ix ix' limit limit' sched sched' items items' Hw Hc Nq Hq Nq' Hq' Hl Hl' Hrb Hrw Hg Ho Hsrt Hrb' Hrw' Hg' Ho' Hsrt' Hdict Hb Hb' Hr Hlt Hr'.
  pose proof (C73_autocomplete_partial rb srt g ord name lowr d words ix query limit Hrb Hrw Hg Ho Hsrt Hdict Hb Nq Hq Hl sched _ Hr) as E.
  pose proof (C73_autocomplete_partial rb' srt' g' ord' name' lowr d words ix' (query ++ rest) limit' Hrb' Hrw' Hg' Ho' Hsrt' Hdict Hb' Nq' Hq' Hl' sched' _ Hr') as E'.
  injection E as ->. injection E' as ->. intros it Hit. apply in_map_iff in Hit. destruct Hit as (i & <- & Hi). apply in_map_iff. exists i. split; [reflexivity|].
  unfold zlen in Hlt. rewrite map_length, firstn_length in Hlt. rewrite firstn_all2 by lia. apply (C96_narrowing lowr d words query rest); [apply Hdict|exact Hw|exact Hc|].
  rewrite <- (firstn_skipn (Z.to_nat limit')). apply in_or_app. left. exact Hi.
Qed.
Print Assumptions C96_narrowing_answers_partial.

(** ** Letter case *)
(** Queries that only differ in letter case are answered alike, step by step; so are dictionaries
    whose entries only differ in letter case (up to the spelling of the entries). *)
Lemma same_case lowr a b s t : well_formed a -> well_formed s -> well_formed t -> ToLower lowr s = ToLower lowr t -> ToLower lowr (a ++ s ++ b) = ToLower lowr (a ++ t ++ b).
Proof. intros Ha Hs Ht E. rewrite !(ToLower_app _ a) by exact Ha. rewrite (ToLower_app _ s), (ToLower_app _ t), E by assumption. reflexivity. Qed.
Theorem C96_query_case : forall rb srt ix words lowr d query query' m alpha topK limit sched asched,
  well_formed (t_wrap0 d) -> well_formed query -> well_formed query' -> ToLower lowr query = ToLower lowr query' ->
  ServiceSuggest rb srt ix words (ToLower lowr) d query alpha m topK sched = ServiceSuggest rb srt ix words (ToLower lowr) d query' alpha m topK sched /\
  ServiceAutocomplete rb srt ix words (ToLower lowr) d query limit asched = ServiceAutocomplete rb srt ix words (ToLower lowr) d query' limit asched.
Proof.
  intros rb srt ix words lowr d query query' m alpha topK limit sched asched Hw Hq Hq' E. unfold ServiceSuggest, ServiceAutocomplete, SuggestTokenize, AutocompleteTokenize, WrapTokenize, FilterTokenize.
  rewrite (same_case lowr _ (t_wrap1 d) _ _ Hw Hq Hq' E), (same_case lowr _ [] _ _ Hw Hq Hq' E). split; reflexivity.
Qed.
Print Assumptions C96_query_case.
Theorem C96_entry_case : forall rb g ord dn hn h lowr d words words',
  well_formed (t_wrap0 d) -> Forall2 (fun w w' => well_formed w /\ well_formed w' /\ ToLower lowr w = ToLower lowr w') words words' ->
  IndexDictionary rb g ord dn hn h (ToLower lowr) d words = IndexDictionary rb g ord dn hn h (ToLower lowr) d words'.
Proof.
  intros rb g ord dn hn h lowr d words words' Hw HF. unfold IndexDictionary, DictIterate.
  assert (forall i st, DictIterate_from (index_step (ToLower lowr) d) i words st = DictIterate_from (index_step (ToLower lowr) d) i words' st) as E; [|rewrite E; reflexivity].
  induction HF as [|w w' ws ws' (H1 & H2 & E) _ IH]; intros i st; [reflexivity|]. cbn [DictIterate_from].
  assert (index_step (ToLower lowr) d st (wrap32 i) w = index_step (ToLower lowr) d st (wrap32 i) w') as ->.
  { unfold index_step, SuggestTokenize, WrapTokenize, FilterTokenize. rewrite (same_case lowr _ (t_wrap1 d) _ _ Hw H1 H2 E). reflexivity. }
  destruct (index_step (ToLower lowr) d st (wrap32 i) w') as [[e|] s']; [reflexivity|]. apply IH.
Qed.
Print Assumptions C96_entry_case.

(** *** The hypotheses are met *)
Local Open Scope list_scope.
Ltac wf := unfold well_formed; match goal with |- Forall _ ?t => let v := eval vm_compute in t in change t with v end; repeat (apply Forall_cons; [intros [H _]; cbn in H; unfold RuneError in H; lia|]); apply Forall_nil.
Definition demo96_sched (k : Z) (q : bytes) : list choice := let g := entry_grams demo71_low demo71_conf q in sauto71 300 g quarter k (start demo71_index g Cosine quarter k).
Definition demo96_asched (k : Z) (q : bytes) : list achoice := let g := prefix_grams demo71_low demo71_conf q in aauto71 100 g k (astart g k).
(* three of the four entries pass; two limits above that give the same three, best first *)
Example C96_suggest_nonvacuous : let q := entry_grams demo71_low demo71_conf (bs "aBc") in
  1 <= zlen q <= 65535 /\ alpha_ok quarter /\ dictionary_ok demo71_low demo71_conf demo71_words /\ index_built rb4 gob1 (fun _ m => rev m) "x" demo71_low demo71_conf demo71_words demo71_index /\
  (exists w, In w demo71_words /\ MinY Cosine quarter (zlen q) <= zlen (entry_grams demo71_low demo71_conf w)) /\
  exists items, zlen items = 3 /\ map snd items = [bs "Abc"; bs "ab"; bs "abd"] /\
  ServiceSuggest rb4 (fun l => l) demo71_index demo71_words (ToLower demo71_low) demo71_conf (bs "aBc") quarter Cosine 10 (demo96_sched 10 (bs "aBc")) = Some (Ret items) /\
  ServiceSuggest rb4 (fun l => l) demo71_index demo71_words (ToLower demo71_low) demo71_conf (bs "aBc") quarter Cosine 4 (demo96_sched 4 (bs "aBc")) = Some (Ret items).
Proof.
  cbn zeta. split; [split; vm_compute; discriminate|]. split; [exact alpha_quarter|]. split; [exact demo71_ok|]. split; [exact demo71_built|]. split; [exists (bs "Abc"); split; [right; left; reflexivity|vm_compute; discriminate]|].
  eexists. split; [|split; [|split; [vm_compute; reflexivity|]]]; vm_compute; reflexivity.
Qed.
Example C96_autocomplete_nonvacuous : let q := prefix_grams demo71_low demo71_conf (bs "A") in let q' := prefix_grams demo71_low demo71_conf (bs "A" ++ bs "bC") in
  NoDup q /\ 1 <= zlen q < 2 ^ 32 /\ NoDup q' /\ 1 <= zlen q' < 2 ^ 32 /\
  well_formed (t_wrap0 demo71_conf ++ bs "A") /\ t_n demo71_conf <= zlen (chars (Trim (ToLower demo71_low (t_wrap0 demo71_conf ++ bs "A")))) /\
  ServiceAutocomplete rb4 (fun l => l) demo71_index demo71_words (ToLower demo71_low) demo71_conf (bs "A") 2 (demo96_asched 2 (bs "A")) = Some (Ret [(of_int 0, bs "Abc"); (of_int 0, bs "ab")]) /\
  ServiceAutocomplete rb4 (fun l => l) demo71_index demo71_words (ToLower demo71_low) demo71_conf (bs "A") 5 (demo96_asched 5 (bs "A")) = Some (Ret [(of_int 0, bs "Abc"); (of_int 0, bs "ab"); (of_int 0, bs "abd")]) /\
  ServiceAutocomplete rb4 (fun l => l) demo71_index demo71_words (ToLower demo71_low) demo71_conf (bs "A" ++ bs "bC") 5 (demo96_asched 5 (bs "A" ++ bs "bC")) = Some (Ret [(of_int 0, bs "Abc")]).
Proof.
  cbn zeta. split; [match goal with |- NoDup ?t => let v := eval vm_compute in t in change t with v end; repeat apply NoDup_cons; try apply NoDup_nil; cbn; intuition discriminate|].
  split; [split; vm_compute; [discriminate|reflexivity]|].
  split; [match goal with |- NoDup ?t => let v := eval vm_compute in t in change t with v end; repeat apply NoDup_cons; try apply NoDup_nil; cbn; intuition discriminate|].
  split; [split; vm_compute; [discriminate|reflexivity]|]. split; [wf|]. split; [vm_compute; discriminate|]. split; [vm_compute; reflexivity|]. split; vm_compute; reflexivity.
Qed.
Example C96_case_nonvacuous : well_formed (t_wrap0 demo71_conf) /\ well_formed (bs "ABc") /\ well_formed (bs "aBC") /\ ToLower demo71_low (bs "ABc") = ToLower demo71_low (bs "aBC") /\ bs "ABc" <> bs "aBC".
Proof. split; [wf|]. split; [wf|]. split; [wf|]. split; [vm_compute; reflexivity|vm_compute; discriminate]. Qed.
