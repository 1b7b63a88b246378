(** C100: exactly which Suggest requests are answered (pkg/suggest, internal/suggest/api). *)
From Coq Require Import String ZifyBool Permutation Sorted Lia Reals Lra Psatz.
From Flocq Require Import Core.Raux Core.Defs.
From Verif Require Import Base BaseLemmas GoMap Store StoreSpec Postings PostingsSpec PostingsDrive P_PostingsLemmas Merger MergerSpec MergerAnySpec P_MergerLemmas Index IndexSpec IndexProofs P_IndexLemmas Text AnalysisSpec Analysis Decimal Scanner ScannerSpec
  Mph Float64 Metric MetricSpec MetricProofs FloatProofs MetricFloat MetricFloat2 MetricWide TopK Suggest SuggestSpec P_SuggestLemmas P_Suggest SuggestAnySpec Autocomplete AutocompleteSpec AutocompleteAnySpec AutocompleteAny P_Autocomplete Http HttpSpec P_Http NGramIndex NGramIndexSpec NGramIndexProofs P_NGramIndex NGramIndexAnySpec NGramIndexAny P_RepeatedDict CdbDict CdbDictSpec P_Cdb Paths PathsSpec
  JsonSpec Json P_Json Config ConfigSpec P_Config P_Scanner Indexer IndexerSpec P_Indexer Deploy DeploySpec P_Deploy P_DeployAny P_AnyQuery P_AnyQueryServer AnsweredSpec.
From Verif Require P_Index P_Analysis Handlers P_Handlers.
Local Open Scope Z_scope.
Local Notation length := List.length.



Lemma longest_ge lowr d words w : In w words -> zlen (entry_grams lowr d w) <= longest lowr d words.
Proof. unfold longest. induction words as [|x words IH]; intros Hin; [destruct Hin|]. cbn [fold_right]. destruct Hin as [->|Hin]; [lia|]. specialize (IH Hin). lia. Qed.
Lemma longest_in lowr d words : words <> [] -> exists w, In w words /\ zlen (entry_grams lowr d w) = longest lowr d words.
Proof.
  unfold longest. induction words as [|x words IH]; intros Hne; [congruence|]. cbn [fold_right]. destruct words as [|y words'].
  - exists x. split; [left; reflexivity|]. cbn [fold_right]. pose proof (zlen_nonneg (entry_grams lowr d x)). lia.
  - destruct (IH ltac:(discriminate)) as (w & Hw & E). destruct (Z.max_spec (zlen (entry_grams lowr d x)) (fold_right (fun w n => Z.max (zlen (entry_grams lowr d w)) n) 0 (y :: words'))) as [[_ ->]|[_ ->]]; [exists w; split; [right; exact Hw|exact E]|exists x; split; [left; reflexivity|reflexivity]].
Qed.
Lemma size_longest lowr d words : words <> [] -> ix_size (docs_of lowr d words) = longest lowr d words + 1.
Proof.
  intros Hne. unfold ix_size. destruct (fold_max_bound (docs_of lowr d words) 0) as [_ Hb]. destruct (longest_in lowr d words Hne) as (w & Hw & Ew). apply In_nth_error in Hw. destruct Hw as (j & Hj).
  assert (In (Z.of_nat j, entry_grams lowr d w) (docs_of lowr d words)) as Hdoc by (apply docs_from_in; exists j, w; split; [exact Hj|split; [lia|reflexivity]]).
  pose proof (Hb _ Hdoc) as H1. cbn [snd] in H1. destruct (fold_max_some (docs_of lowr d words) 0) as [E|([i ts] & Hx & E)].
  - pose proof (zlen_nonneg (entry_grams lowr d w)). lia.
  - rewrite E in *. cbn [snd] in *. apply (doc_entry lowr d words) in Hx. destruct Hx as [Hi ->]. pose proof (longest_ge lowr d words (entry_at words i) (entry_in words i Hi)). lia.
Qed.
Lemma indexable_nonempty lowr d words : indexable lowr d words -> words <> [].
Proof. intros [(_ & _ & (w & ws & -> & _) & _)|(_ & _ & _ & (w & ws & -> & _) & _)]; discriminate. Qed.
Lemma indexable_n lowr d words : indexable lowr d words -> 1 <= t_n d <= 8.
Proof. intros [H|H]; apply H. Qed.
Lemma built_size rb g ord name lowr d words ix : roaring_ok rb -> roaring_written rb -> gob_ok g -> order_ok ord ->
  indexable lowr d words -> index_built rb g ord name lowr d words ix -> zlen ix = longest lowr d words + 1 /\ zlen ix <= 2 ^ 26.
Proof.
  intros Hrb Hrw Hg Ho Hdict Hb. rewrite <- (size_longest lowr d words (indexable_nonempty _ _ _ Hdict)). destruct Hdict as [Hdict|Hdict].
  - pose proof (dict_index rb g ord name lowr d words Hrb Hrw Hg Ho Hdict ix Hb) as Hok. split; [apply Hok|eapply s_len; eassumption].
  - pose proof (dict_index_any rb g ord name lowr d words Hrb Hrw Hg Ho Hdict ix Hb) as Hok. split; [apply Hok|eapply any_len; eassumption].
Qed.

(** ** The smallest admissible size *)
Lemma min_tight m alpha A B : alpha_ok alpha -> size_ok A -> size_ok B -> MinY m alpha A <= B <= A -> (similarity m B A B >= val alpha * (1 - / 2 ^ 46))%R.
Proof.
  intros Ha HA HB [Hm HBA]. replace (/ 2 ^ 46)%R with delta by (unfold delta; lra). pose proof u_pos as Hu. assert (0 < u < / 100000)%R as Hu2 by (unfold u; lra). rewrite delta_u. pose proof Ha as [_ Hr]. set (a := val alpha) in *.
  pose proof (size_R A HA) as RA. pose proof (size_R B HB) as RB. assert (IZR B <= IZR A)%R as RBA by (apply IZR_le; exact HBA).
  destruct (metric_eq_dec m Exact) as [->|Hne].
  - cbn [similarity MinY] in *. replace ((A =? B) && (B =? A)) with true by lia. nra.
  - destruct (min_rel alpha A B Ha HA HB m Hne) as (v & Ev & (Hx & Hv & _) & _). rewrite Ev, Zceil_le_iff in Hm. fold a in Hx, Hv. set (x := IZR A) in *. set (y := IZR B) in *.
    destruct m; try congruence; cbn [similarity ideal_min] in *; fold x y.
    + assert (0 < x * y)%R as Hxy by nra. assert (0 < sqrt (x * y))%R as Hs by (apply sqrt_lt_R0; exact Hxy). apply Rle_ge. apply Rmult_le_reg_r with (sqrt (x * y)); [exact Hs|]. replace (y / sqrt (x * y) * sqrt (x * y))%R with y by (field; lra).
      apply Rsqr_incr_0_var; [|lra]. rewrite Rsqr_mult. rewrite (Rsqr_sqrt (x * y)) by lra. unfold Rsqr. fold y.
      assert (a * a * x * (1 - 8 * u) <= y)%R as Hy by (unfold x, y in *; lra). 
      assert ((1 - 128 * u) * (1 - 128 * u) <= 1 - 8 * u)%R as Hd by nra. assert (0 <= a * a * x)%R as H0 by (apply Rmult_le_pos; [nra|lra]).
      assert (a * a * x * ((1 - 128 * u) * (1 - 128 * u)) <= y)%R as Hz by (apply Rle_trans with (a * a * x * (1 - 8 * u))%R; [apply Rmult_le_compat_l; assumption|exact Hy]).
      replace (a * (1 - 128 * u) * (a * (1 - 128 * u)) * (x * y))%R with (a * a * x * ((1 - 128 * u) * (1 - 128 * u)) * y)%R by ring. apply Rmult_le_compat_r; lra.
    + assert (a / (2 - a) * x * (1 - 8 * u) <= y)%R as Hy by (unfold x, y in *; lra). apply Rle_ge. apply Rmult_le_reg_r with (x + y)%R; [lra|]. replace (2 * y / (x + y) * (x + y))%R with (2 * y)%R by (field; lra).
      assert (a * x * (1 - 8 * u) <= y * (2 - a))%R as Hz. { apply Rmult_le_compat_r with (r := (2 - a)%R) in Hy; [|lra]. replace (a / (2 - a) * x * (1 - 8 * u) * (2 - a))%R with (a * x * (1 - 8 * u))%R in Hy by (field; lra). exact Hy. }
      assert (0 <= a * x)%R by nra. assert (0 <= a * y)%R by nra. nra.
    + assert (a * x * (1 - 8 * u) <= y)%R as Hy by (unfold x, y in *; lra). replace (x + y - y)%R with x by ring. apply Rle_ge. apply Rmult_le_reg_r with x; [lra|]. replace (y / x * x)%R with y by (field; lra). assert (0 <= a * x)%R by nra. nra.
    + rewrite Rmin_right by lra. unfold Rdiv. rewrite Rinv_r by lra. nra.
Qed.

(** ** Calls of the service *)
(** A Suggest call with n-grams, over any index of any dictionary.  Let L be the number of
    n-grams of the longest entry and m the smallest number of n-grams the metric and the
    similarity admit for the query.  If m <= L, the call returns: however far its goroutines
    have come, they can go on to an answer, and there is a bound on their steps.  If m = L + 1, it
    never returns, on no schedule.  If m > L + 1, it panics at once. *)
Theorem C100_answered : forall rb srt g ord name lowr d words ix query m alpha topK,
  roaring_ok rb -> roaring_written rb -> gob_ok g -> order_ok ord -> sorter_ok srt ->
  indexable lowr d words -> index_built rb g ord name lowr d words ix ->
  let q := entry_grams lowr d query in
  1 <= zlen q <= 65535 -> (m = Overlap -> zlen q <= 32767) -> alpha_ok alpha -> 1 <= topK ->
  let call := ServiceSuggest rb srt ix words (ToLower lowr) d query alpha m topK in
  (MinY m alpha (zlen q) <= longest lowr d words ->
     forall sched, run rb srt ix q m alpha topK sched (start ix q m alpha topK) <> None ->
     zlen sched <= 20 * 2 ^ 26 + 7 /\ exists more items, call (sched ++ more) = Some (Ret items)) /\
  (MinY m alpha (zlen q) = longest lowr d words + 1 -> forall sched, call sched = None) /\
  (longest lowr d words + 1 < MinY m alpha (zlen q) -> call [] = Some Panic /\ forall sched r, call sched = Some r -> r = Panic).
Proof.
  intros rb srt g ord name lowr d words ix query m alpha topK Hrb Hrw Hg Ho Hsrt Hdict Hb q Hq1 Hq2 Ha Hk call.
  destruct (built_size rb g ord name lowr d words ix Hrb Hrw Hg Ho Hdict Hb) as [Hsz Hlen]. pose proof (indexable_n _ _ _ Hdict) as Hn.
  assert (query_any ix q m alpha topK) as Hq by (split; [exact Ha|]; split; [exact Hq1|]; split; [exact Hlen|]; split; assumption).
  split; [|split].
  - intros Hm. destruct (longest_in lowr d words (indexable_nonempty _ _ _ Hdict)) as (w & Hw & Ew). assert (exists w, In w words /\ MinY m alpha (zlen q) <= zlen (entry_grams lowr d w)) as Hlong by (exists w; split; [exact Hw|lia]).
    intros sched Hr. destruct Hdict as [Hdict|Hdict].
    + exact (C71_suggest_returns_partial rb srt g ord name lowr d words ix query m alpha topK Hrb Hrw Hg Ho Hsrt Hdict Hb Hq1 Hq2 Ha Hk Hlong sched Hr).
    + exact (C95_suggest_returns_partial rb srt g ord name lowr d words ix query m alpha topK Hrb Hrw Hg Ho Hsrt Hdict Hb Hq1 Hq2 Ha Hk Hlong sched Hr).
  - intros Hm sched. unfold call, ServiceSuggest. rewrite suggest_grams by exact Hn. fold q. destruct (C42_short_entries_hang_refuted rb srt ix q m alpha topK Hq ltac:(lia)) as [Hh _].
    destruct (run rb srt ix q m alpha topK sched (start ix q m alpha topK)) as [p|] eqn:E; [|reflexivity]. destruct (Hh sched p E) as (_ & s & ->). reflexivity.
  - intros Hm. pose proof (C42_short_entries_panic_refuted ix q m alpha topK Hq ltac:(lia)) as Hp. unfold call, ServiceSuggest. rewrite suggest_grams by exact Hn. fold q. rewrite Hp. split; [reflexivity|].
    intros [|c sched] r; cbn [run exec]; [intros E; injection E as <-; reflexivity|]. destruct c; discriminate.
Qed.
Print Assumptions C100_answered.

(** In particular every query with no more n-grams than the longest entry is answered, and with the
    overlap metric every query. *)
Theorem C100_short_queries : forall rb srt g ord name lowr d words ix query m alpha topK,
  roaring_ok rb -> roaring_written rb -> gob_ok g -> order_ok ord -> sorter_ok srt ->
  indexable lowr d words -> index_built rb g ord name lowr d words ix ->
  let q := entry_grams lowr d query in
  1 <= zlen q <= 65535 -> (m = Overlap -> zlen q <= 32767) -> alpha_ok alpha -> 1 <= topK ->
  zlen q <= longest lowr d words \/ m = Overlap ->
  forall sched, run rb srt ix q m alpha topK sched (start ix q m alpha topK) <> None ->
  exists more items, ServiceSuggest rb srt ix words (ToLower lowr) d query alpha m topK (sched ++ more) = Some (Ret items).
Proof.
  intros rb srt g ord name lowr d words ix query m alpha topK Hrb Hrw Hg Ho Hsrt Hdict Hb q Hq1 Hq2 Ha Hk Hs sched Hr.
  destruct (built_size rb g ord name lowr d words ix Hrb Hrw Hg Ho Hdict Hb) as [Hsz Hlen].
  assert (query_any ix q m alpha topK) as Hq by (split; [exact Ha|]; split; [exact Hq1|]; split; [exact Hlen|]; split; assumption). pose proof (q_min ix q m alpha topK Hq) as Hmin.
  destruct (C100_answered rb srt g ord name lowr d words ix query m alpha topK Hrb Hrw Hg Ho Hsrt Hdict Hb Hq1 Hq2 Ha Hk) as [H _]. apply H; [|exact Hr].
  destruct Hs as [Hs|Hm]; [unfold q in *; lia|]. rewrite Hm. cbn [MinY]. destruct Hdict as [(_ & _ & (w & ws & E & Hw) & _)|(_ & _ & _ & (w & ws & E & Hw) & _)]; (assert (In w words) as Hin by (rewrite E; left; reflexivity)); pose proof (longest_ge lowr d words w Hin) as Hg'; pose proof (nonempty_len _ Hw); lia.
Qed.
Print Assumptions C100_short_queries.

(** The three cases by similarities, up to the rounding of the thresholds (a relative 2^-46). If
    L n-grams could be similar enough to those of the query, the call returns... *)
Theorem C100_reachable_returns : forall rb srt g ord name lowr d words ix query m alpha topK c,
  roaring_ok rb -> roaring_written rb -> gob_ok g -> order_ok ord -> sorter_ok srt ->
  indexable lowr d words -> index_built rb g ord name lowr d words ix ->
  let q := entry_grams lowr d query in
  1 <= zlen q <= 65535 -> (m = Overlap -> zlen q <= 32767) -> alpha_ok alpha -> 1 <= topK ->
  let L := longest lowr d words in
  0 <= c <= Z.min (zlen q) L -> (similarity m c (zlen q) L >= val alpha * (1 + / 2 ^ 46))%R ->
  forall sched, run rb srt ix q m alpha topK sched (start ix q m alpha topK) <> None ->
  exists more items, ServiceSuggest rb srt ix words (ToLower lowr) d query alpha m topK (sched ++ more) = Some (Ret items).
Proof.
  intros rb srt g ord name lowr d words ix query m alpha topK c Hrb Hrw Hg Ho Hsrt Hdict Hb q Hq1 Hq2 Ha Hk L Hc Hs sched Hr. replace (/ 2 ^ 46)%R with delta in Hs by (unfold delta; lra).
  destruct (metric_eq_dec m Overlap) as [Em|Hne]; [eapply C100_short_queries; try eassumption; right; exact Em|].
  destruct (built_size rb g ord name lowr d words ix Hrb Hrw Hg Ho Hdict Hb) as [Hsz Hlen]. fold L in Hsz.
  assert (1 <= L) as HL1.
  { unfold L. destruct Hdict as [(_ & _ & (w & ws & E & Hw) & _)|(_ & _ & _ & (w & ws & E & Hw) & _)]; (assert (In w words) as Hin by (rewrite E; left; reflexivity)); pose proof (longest_ge lowr d words w Hin) as Hg'; pose proof (nonempty_len _ Hw); lia. }
  destruct (no_loss alpha (zlen q) L Ha ltac:(unfold size_ok; lia) ltac:(unfold size_ok; lia) m c ltac:(intros; contradiction) ltac:(unfold MetricSpec.sizes_ok; lia) Hs) as [[Hm _] _].
  destruct (C100_answered rb srt g ord name lowr d words ix query m alpha topK Hrb Hrw Hg Ho Hsrt Hdict Hb Hq1 Hq2 Ha Hk) as [H _]. exact (proj2 (H Hm sched Hr)).
Qed.
Print Assumptions C100_reachable_returns.
(** ... if they could not, not even when all are n-grams of the query, but L + 1 could, it never returns ... *)
Theorem C100_one_short_hangs : forall rb srt g ord name lowr d words ix query m alpha topK c,
  roaring_ok rb -> roaring_written rb -> gob_ok g -> order_ok ord -> sorter_ok srt ->
  indexable lowr d words -> index_built rb g ord name lowr d words ix ->
  let q := entry_grams lowr d query in
  1 <= zlen q <= 65535 -> (m = Overlap -> zlen q <= 32767) -> alpha_ok alpha -> 1 <= topK ->
  let L := longest lowr d words in
  L + 1 <= zlen q -> (similarity m L (zlen q) L < val alpha * (1 - / 2 ^ 46))%R ->
  0 <= c <= L + 1 -> (similarity m c (zlen q) (L + 1) >= val alpha * (1 + / 2 ^ 46))%R ->
  forall sched, ServiceSuggest rb srt ix words (ToLower lowr) d query alpha m topK sched = None.
Proof.
  intros rb srt g ord name lowr d words ix query m alpha topK c Hrb Hrw Hg Ho Hsrt Hdict Hb q Hq1 Hq2 Ha Hk L HL Hs Hc Hs'. 
  destruct (built_size rb g ord name lowr d words ix Hrb Hrw Hg Ho Hdict Hb) as [Hsz Hlen]. fold L in Hsz.
  assert (1 <= L) as HL1.
  { unfold L. destruct Hdict as [(_ & _ & (w & ws & E & Hw) & _)|(_ & _ & _ & (w & ws & E & Hw) & _)]; (assert (In w words) as Hin by (rewrite E; left; reflexivity)); pose proof (longest_ge lowr d words w Hin) as Hg'; pose proof (nonempty_len _ Hw); lia. }
  destruct (no_loss alpha (zlen q) (L + 1) Ha ltac:(unfold size_ok; lia) ltac:(unfold size_ok; lia) m c ltac:(intros E; specialize (Hq2 E); lia) ltac:(unfold MetricSpec.sizes_ok; lia) ltac:(replace delta with (/ 2 ^ 46)%R by (unfold delta; lra); exact Hs')) as [[Hm _] _].
  destruct (C100_answered rb srt g ord name lowr d words ix query m alpha topK Hrb Hrw Hg Ho Hsrt Hdict Hb Hq1 Hq2 Ha Hk) as (_ & H & _). apply H. fold q L.
  destruct (Z.le_gt_cases (MinY m alpha (zlen q)) L) as [Hle|Hgt]; [|lia]. pose proof (min_tight m alpha (zlen q) L Ha ltac:(unfold size_ok; lia) ltac:(unfold size_ok; lia) ltac:(lia)). lra.
Qed.
Print Assumptions C100_one_short_hangs.
(** ... and if not even L + 1 could, it panics. *)
Theorem C100_too_long_panics : forall rb srt g ord name lowr d words ix query m alpha topK,
  roaring_ok rb -> roaring_written rb -> gob_ok g -> order_ok ord -> sorter_ok srt ->
  indexable lowr d words -> index_built rb g ord name lowr d words ix ->
  let q := entry_grams lowr d query in
  1 <= zlen q <= 65535 -> (m = Overlap -> zlen q <= 32767) -> alpha_ok alpha -> 1 <= topK ->
  let L := longest lowr d words in
  L + 1 <= zlen q -> (similarity m (L + 1) (zlen q) (L + 1) < val alpha * (1 - / 2 ^ 46))%R ->
  ServiceSuggest rb srt ix words (ToLower lowr) d query alpha m topK [] = Some Panic.
Proof.
  intros rb srt g ord name lowr d words ix query m alpha topK Hrb Hrw Hg Ho Hsrt Hdict Hb q Hq1 Hq2 Ha Hk L HL Hs. pose proof (zlen_nonneg ix).
  destruct (built_size rb g ord name lowr d words ix Hrb Hrw Hg Ho Hdict Hb) as [Hsz Hlen]. fold L in Hsz.
  destruct (C100_answered rb srt g ord name lowr d words ix query m alpha topK Hrb Hrw Hg Ho Hsrt Hdict Hb Hq1 Hq2 Ha Hk) as (_ & _ & Hp). apply Hp. fold q L.
  destruct (Z.le_gt_cases (MinY m alpha (zlen q)) (L + 1)) as [Hle|Hgt]; [|lia].
  assert (1 <= L + 1) as H1 by (unfold L; pose proof (longest_in lowr d words (indexable_nonempty _ _ _ Hdict)) as (w & _ & <-); pose proof (zlen_nonneg (entry_grams lowr d w)); lia).
  pose proof (min_tight m alpha (zlen q) (L + 1) Ha ltac:(unfold size_ok; lia) ltac:(unfold size_ok; lia) ltac:(lia)). lra.
Qed.
Print Assumptions C100_too_long_panics.

(** ** Requests *)
(** The same for a /suggest request to a deployed server, whichever driver holds the dictionary: it
    is answered (if a goroutine is stuck, another can go on), it is never answered, or the
    connection is closed without an answer. *)
Lemma pending_disc L rb srt ix recs lowr d query m alpha topK sched : 1 <= t_n d <= 8 ->
  run rb srt ix (entry_grams lowr d query) m alpha topK sched (start ix (entry_grams lowr d query) m alpha topK) = None \/
  (exists s, run rb srt ix (entry_grams lowr d query) m alpha topK sched (start ix (entry_grams lowr d query) m alpha topK) = Some (Running s)) ->
  DiscSuggest L rb srt ix recs (ToLower lowr) d query alpha m topK sched = None.
Proof. intros Hn H. unfold DiscSuggest. rewrite suggest_grams by exact Hn. destruct H as [-> |(s & ->)]; reflexivity. Qed.

Theorem C100_request : forall L rb srt g ord lowr asort chunk chunk' fuel O pf bf ftext etext k k' configPath cs service service' name c query tk mt sm topK m alpha,
  sound L rb g ord -> sorter_ok srt -> P_Handlers.parses_valid pf ->
  deployed L rb g ord lowr asort chunk fuel O k configPath cs k' ->
  configure_service rb g ord (ToLower lowr) asort chunk' fuel k' configPath service = Ret service' ->
  last_named cs name c -> P_Handlers.suggest_params pf tk mt sm topK m alpha -> alpha_ok alpha ->
  let d := tokenizer_of asort c in
  let words := entries (text_at k (source_path c)) in
  let q := entry_grams lowr d query in
  dictionary_any lowr d words -> 1 <= zlen q <= 65535 -> (m = Overlap -> zlen q <= 32767) ->
  let request := suggest_request L rb srt (ToLower lowr) pf bf ftext etext service' name query tk mt sm in
  exists ix, index_held service' name = Some ix /\
  (MinY m alpha (zlen q) <= longest lowr d words ->
     forall sched, run rb srt ix q m alpha topK sched (start ix q m alpha topK) <> None ->
     zlen sched <= 20 * 2 ^ 26 + 7 /\ exists more resp, request (sched ++ more) = Some (Handlers.Sent resp)) /\
  (MinY m alpha (zlen q) = longest lowr d words + 1 -> forall sched, request sched = None) /\
  (longest lowr d words + 1 < MinY m alpha (zlen q) -> request [] = Some Handlers.Lost /\ forall sched out, request sched = Some out -> out = Handlers.Lost).
Proof.
  intros L rb srt g ord lowr asort chunk chunk' fuel O pf bf ftext etext k k' configPath cs service service' name c query tk mt sm topK m alpha Hs Hsrt Hpf Hd Hconf Hlast Hp Ha d words q Hdict Hq Hov request.
  assert (1 <= topK) as Hk by (destruct Hp as ([[_ ->]|[_ H]] & _); lia). pose proof (proj1 (P_Handlers.params_config pf tk mt sm topK m alpha query Hpf) Hp) as Hc.
  pose proof Hs as (HL & Hrb & Hrw & Hg & Ho). assert (indexable lowr d words) as Hind by (right; exact Hdict). pose proof (indexable_n _ _ _ Hind) as Hn.
  destruct (served_every L rb srt g ord lowr asort chunk chunk' fuel O k k' configPath cs service service' name c Hs Hsrt Hd Hconf Hlast Hdict) as (ix & Hix & Hb & _ & Hsu & _). fold d words in Hb, Hsu.
  destruct (held L rb g ord lowr asort chunk chunk' fuel O k k' configPath cs service service' name c Hs Hd Hconf Hlast) as (e & ix' & Hm' & _ & _ & Ei & Ec & _).
  assert (ix' = ix) as -> by (unfold index_held in Hix; rewrite Hm' in Hix; destruct e as [[x ws|x recs] d']; cbn [e_opened] in *; congruence).
  exists ix. split; [exact Hix|].
  destruct (C100_answered rb srt g ord "" lowr d words ix query m alpha topK Hrb Hrw Hg Ho Hsrt Hind Hb Hq Hov Ha Hk) as (H1 & _ & _). fold q in H1.
  destruct (built_size rb g ord "" lowr d words ix Hrb Hrw Hg Ho Hind Hb) as [Hsz Hlen].
  assert (query_any ix q m alpha topK) as Hqa by (split; [exact Ha|]; split; [exact Hq|]; split; [exact Hlen|]; split; assumption).
  split; [|split].
  - intros Hm sched Hr. destruct (H1 Hm sched Hr) as (Hz & more & items & E). split; [exact Hz|]. exists more. unfold request, suggest_request. rewrite Hc.
    rewrite (Hsu query m alpha topK (proj2 Hq) Hov Ha Hk).
    2: { intros _. destruct (longest_in lowr d words (indexable_nonempty _ _ _ Hind)) as (w & Hw & Ew). exists w. split; [exact Hw|]. rewrite Ew. exact Hm. }
    rewrite E. cbn [Handlers.when_done Handlers.respond]. destruct (MarshalItems bf ftext items) eqn:Em; unfold Handlers.http_error; eauto; unfold MarshalItems in Em; destruct (forallb _ items); discriminate.
  - intros Hm sched. unfold request, suggest_request. rewrite Hc. unfold served_suggest. cbn [c_query c_similarity c_metric c_topK].
    destruct (P_Suggest.C42_short_entries_hang_refuted rb srt ix q m alpha topK Hqa ltac:(lia)) as [Hh _].
    assert (run rb srt ix q m alpha topK sched (start ix q m alpha topK) = None \/ exists s, run rb srt ix q m alpha topK sched (start ix q m alpha topK) = Some (Running s)) as Hr.
    { destruct (run rb srt ix q m alpha topK sched (start ix q m alpha topK)) as [p|] eqn:E; [|left; reflexivity]. right. destruct (Hh sched p E) as (_ & s & ->). exists s. reflexivity. }
    rewrite Hm'. destruct e as [[x ws|x recs] d']; cbn [e_opened e_conf] in *; subst x d'.
    + unfold ServiceSuggest. rewrite suggest_grams by exact Hn. fold d q. destruct Hr as [-> |(s & ->)]; reflexivity.
    + fold d. rewrite (pending_disc L rb srt ix recs lowr d query m alpha topK sched Hn Hr). reflexivity.
  - intros Hm. pose proof (C42_short_entries_panic_refuted ix q m alpha topK Hqa ltac:(lia)) as Hcr. unfold request, suggest_request. rewrite Hc. unfold served_suggest. cbn [c_query c_similarity c_metric c_topK].
    rewrite Hm'. destruct e as [[x ws|x recs] d']; cbn [e_opened e_conf] in *; subst x d'; unfold ServiceSuggest, DiscSuggest; rewrite suggest_grams by exact Hn; fold d q; rewrite Hcr; (split; [reflexivity|]);
      intros [|ch sched] out; cbn [run exec]; try (intros E; injection E as <-; reflexivity); destruct ch; discriminate.
Qed.
Print Assumptions C100_request.

(** Entries of 5 and 3 n-grams, the exact metric: a query of 5 n-grams can be answered, one of 6
    never is, one of 7 panics. *)
Example C100_nonvacuous : longest demo71_low demo71_conf demo95_words = 5 /\
  dictionary_any demo71_low demo71_conf demo95_words /\ index_built rb4 gob1 (fun _ m => rev m) "x" demo71_low demo71_conf demo95_words demo95_index /\ alpha_ok quarter /\
  (let n s := MinY Exact quarter (zlen (entry_grams demo71_low demo71_conf (bs s))) in n "abcd"%string = 5 /\ n "abcde"%string = 6 /\ n "abcdef"%string = 7) /\
  (let n s := MinY Jaccard quarter (zlen (entry_grams demo71_low demo71_conf (bs s))) in n "abcdefghijklmnopqrs"%string = 5 /\ n "abcdefghijklmnopqrst"%string = 6 /\ n "abcdefghijklmnopqrstuvwx"%string = 7).
Proof. split; [vm_compute; reflexivity|]. split; [exact demo95_ok|]. split; [exact demo95_built|]. split; [exact alpha_quarter|]. split; vm_compute; (split; [|split]); reflexivity. Qed.
Lemma val_quarter : val quarter = (1 / 4)%R.
Proof.
  assert (quarter = S754_finite false 4503599627370496 (-54)) as -> by (vm_compute; reflexivity). rewrite val_finite. cbn [sgn].
  change (Flocq.Core.Raux.bpow Flocq.Core.Zaux.radix2 (-54)) with (/ IZR (Z.pow_pos 2 54))%R. change (Z.pow_pos 2 54) with 18014398509481984. lra.
Qed.
Example C100_similarities : let L := longest demo71_low demo71_conf demo95_words in let z s := zlen (entry_grams demo71_low demo71_conf (bs s)) in
  (similarity Jaccard 5 (z "abcdefghijklmnopqr"%string) L >= val quarter * (1 + / 2 ^ 46))%R /\
  L + 1 <= z "abcdefghijklmnopqrst"%string /\ (similarity Jaccard L (z "abcdefghijklmnopqrst"%string) L < val quarter * (1 - / 2 ^ 46))%R /\
  (similarity Jaccard 6 (z "abcdefghijklmnopqrst"%string) (L + 1) >= val quarter * (1 + / 2 ^ 46))%R /\
  L + 1 <= z "abcdefghijklmnopqrstuvwx"%string /\ (similarity Jaccard (L + 1) (z "abcdefghijklmnopqrstuvwx"%string) (L + 1) < val quarter * (1 - / 2 ^ 46))%R.
Proof.
  intros L z. assert (L = 5) as -> by (vm_compute; reflexivity). assert (z "abcdefghijklmnopqr"%string = 19) as -> by (vm_compute; reflexivity).
  assert (z "abcdefghijklmnopqrst"%string = 21) as -> by (vm_compute; reflexivity). assert (z "abcdefghijklmnopqrstuvwx"%string = 25) as -> by (vm_compute; reflexivity).
  change (5 + 1) with 6. rewrite val_quarter. cbn [similarity]. split; [lra|]. split; [lia|]. split; [lra|]. split; [lra|]. split; [lia|lra].
Qed.
Definition suggest100 (query : bytes) (sched : list choice) : option Handlers.outcome :=
  match service96 with
  | Ret s => suggest_request lib74 rb4 (fun l => l) (ToLower demo71_low) (fun _ => Some quarter) false (fun _ => bs "0") (fun _ => bs "error") s (bs "x") query (bs "2") (bs "Exact") (bs "0.25") sched
  | _ => None
  end.
Example C100_deployed_answers : suggest100 (bs "abcdef") [] = Some Handlers.Lost.
Proof. vm_compute. reflexivity. Qed.
