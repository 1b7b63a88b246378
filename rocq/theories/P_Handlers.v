(** C82: what the HTTP handlers answer. *)
From Coq Require Import String ZifyBool Permutation Sorted Reals Lra Lia.
From Verif Require Import Base BaseLemmas GoMap Store StoreSpec Postings PostingsSpec PostingsDrive P_PostingsLemmas Merger MergerSpec P_MergerLemmas
  Text TextProofs TextProofs2 Analysis AnalysisSpec AnalysisProofs AnalysisProofs2 P_AnalysisLemmas P_Analysis
  Index IndexSpec IndexProofs IndexProofs2 P_IndexLemmas P_Index
  Float64 Metric MetricSpec MetricProofs FloatProofs MetricFloat MetricFloat2 MetricScore MetricWide P_Metric TopK TopKSpec TopKProofs Suggest SuggestSpec SuggestProofs SuggestProofs2 P_SuggestLemmas P_Suggest
  Autocomplete AutocompleteSpec AutocompleteProofs P_Autocomplete Mph P_Mph NGramIndex NGramIndexSpec NGramIndexProofs NGramIndexProofs2 P_NGramIndex Http HttpSpec P_Http Json JsonSpec JsonProofs P_Json Handlers.
Local Open Scope Z_scope.
Local Notation length := List.length.

(** A value of the parameters a client may send with a search: the count, the metric, the
    similarity (absent ones have their defaults). *)
Definition count_param (text : bytes) (least k : Z) : Prop := text = [] /\ k = 5 \/ numeral text k /\ least <= k < 2 ^ 63.
Definition similarity_param (pf : bytes -> option f64) (text : bytes) (x : f64) : Prop := text = [] /\ x = f_half \/ text <> [] /\ pf text = Some x.
Definition suggest_params (pf : bytes -> option f64) (tk mt sm : bytes) (k : Z) (m : metric) (x : f64) : Prop :=
  count_param tk 1 k /\ In (mt, m) metrics /\ similarity_param pf sm x /\ (unit_number x \/ x = S754_nan).
Definition parses_valid (pf : bytes -> option f64) : Prop := forall s x, pf s = Some x -> valid_binary 53 1024 x = true.

Lemma half_unit : unit_number f_half.
Proof. unfold unit_number. assert (valid_binary 53 1024 f_half = true) as Hv by reflexivity. assert (fle f_half (S754_zero false) || flt (of_int 1) f_half = false) as H by (vm_compute; reflexivity). apply config_test in H; [|exact Hv]. destruct H as [H|H]; [discriminate|exact H]. Qed.
Lemma params_config pf tk mt sm k m x query : parses_valid pf -> suggest_params pf tk mt sm k m x <-> buildSearchConfig pf query tk mt sm = Ret (mkConfig query k m x).
Proof.
  intros Hpf. rewrite (C66_suggest_request pf query tk mt sm _ Hpf). cbn [c_topK c_metric c_similarity c_query]. unfold suggest_params, count_param, similarity_param.
  pose proof half_unit as Hh. split.
  - intros (H1 & H2 & H3 & H4). split; [exact H1|]. split; [exact H2|]. split; [|reflexivity]. destruct H3 as [[H3 ->]|[H3 H5]]; [left; auto|right; auto].
  - intros (H1 & H2 & H3 & _). split; [exact H1|]. split; [exact H2|]. destruct H3 as [[H3 ->]|(H3 & H5 & H6)]; [split; [left; auto|left; exact Hh]|split; [right; auto|exact H6]].
Qed.
Lemma build_total pf query tk mt sm : exists r, buildSearchConfig pf query tk mt sm = r /\ ((exists c, r = Ret c) \/ exists e, r = Fail e).
Proof.
  eexists. split; [reflexivity|]. unfold buildSearchConfig, FormTopKValue, FormIntValue, FormSimilarityValue, FormFloatValue, NewSearchConfig.
  assert (forall s, (exists v, ParseInt s = Ret v) \/ exists e, ParseInt s = Fail e) as Hp.
  { intros s. assert (forall t n, (exists v, parse_digits t n = Ret v) \/ exists e, parse_digits t n = Fail e) as Hd.
    { induction t as [|c t IH]; intros n; cbn [parse_digits]; [left; eauto|]. repeat (match goal with |- context [if ?b then _ else _] => destruct b end); eauto. }
    unfold ParseInt, ParseUint. destruct s as [|c s]; [right; eauto|]. cbn zeta.
    repeat (match goal with
            | |- context [parse_digits ?t ?n] => destruct (Hd t n) as [[? ->]|[? ->]]; cbn [bind]
            | |- context [match ?t with [] => _ | _ :: _ => _ end] => destruct t; cbn [bind]
            | |- context [if ?b then _ else _] => destruct b; cbn [bind]
            end; eauto). }
  destruct tk as [|b tk]; [|destruct (Hp (b :: tk)) as [[v ->]|[e ->]]; cbn [bind]; [|eauto]]; cbn [bind];
  repeat (match goal with
          | |- context [if ?b then _ else _] => destruct b; cbn [bind]
          | |- context [match mget ?e ?m ?k with _ => _ end] => destruct (mget e m k); cbn [bind]
          | |- context [match sm with [] => _ | _ :: _ => _ end] => destruct sm; cbn [bind]
          | |- context [match pf ?s with _ => _ end] => destruct (pf s); cbn [bind]
          end; eauto).
Qed.
Definition answered (o : option outcome) (code : Z) : Prop := exists r, o = Some (Sent r) /\ r_status r = code.
Definition fails (o : option outcome) (code : Z) (etext : err -> bytes) : Prop := exists e, o = Some (Sent (mkResp code (bs "text/plain; charset=utf-8") (etext e ++ [10]))).

(** A suggest request is refused with status 400, at once and whatever the service holds,
    exactly when one of its parameters is wrong. *)
Theorem C82_suggest_refused : forall pf bf ftext etext rb srt lower service dict query tk mt sm sched, parses_valid pf ->
  let o := suggest_handle pf bf ftext etext rb srt lower service dict query tk mt sm sched in
  (answered o 400 <-> ~ exists k m x, suggest_params pf tk mt sm k m x) /\
  (~ (exists k m x, suggest_params pf tk mt sm k m x) -> fails o 400 etext).
Proof.
  intros pf bf ftext etext rb srt lower service dict query tk mt sm sched Hpf o. subst o. unfold suggest_handle. destruct (build_total pf query tk mt sm) as (r & E & [(c & ->)|(e & ->)]); rewrite E.
  - assert (exists k m x, suggest_params pf tk mt sm k m x) as Hp.
    { exists (c_topK c), (c_metric c), (c_similarity c). apply (params_config pf tk mt sm _ _ _ query Hpf). pose proof (proj1 (C66_suggest_request pf query tk mt sm c Hpf) E) as (_ & _ & _ & Hq). rewrite E. destruct c as [q k m x]. cbn in *. subst q. reflexivity. }
    split; [|contradiction]. split; [|contradiction]. intros (r & Hr & Hs). exfalso. unfold when_done in Hr. destruct (SvcSuggest _ _ _ _ _ _ _) as [a|]; [|discriminate]. injection Hr as Hr. unfold respond in Hr.
    destruct a as [items|e| |]; [|unfold http_error in Hr; injection Hr as <-; discriminate|discriminate|discriminate]. destruct (MarshalItems bf ftext items); try discriminate; injection Hr as <-; discriminate.
  - assert (~ exists k m x, suggest_params pf tk mt sm k m x) as Hp by (intros (k & m & x & H); apply (params_config pf tk mt sm _ _ _ query Hpf) in H; congruence).
    split; [split; [intros _; exact Hp|]|]; intros _; unfold answered, fails, http_error; [eexists; split; [reflexivity|reflexivity]|exists e; reflexivity].
Qed.
Print Assumptions C82_suggest_refused.
Theorem C82_autocomplete_refused : forall bf ftext etext rb srt lower service dict query tk sched,
  let o := autocomplete_handle bf ftext etext rb srt lower service dict query tk sched in
  answered o 400 <-> ~ exists k, count_param tk 0 k.
Proof.
  intros bf ftext etext rb srt lower service dict query tk sched o. subst o. unfold autocomplete_handle. pose proof (fun k => C66_topk_param tk defaultTopK k ltac:(unfold defaultTopK; lia)) as H. unfold autocomplete_limit, count_param. unfold defaultTopK in *.
  destruct (FormTopKValue tk 5) as [k|e| |] eqn:E.
  - pose proof (proj1 (H k) eq_refl) as Hk. split; [|intros Hn; exfalso; apply Hn; exists k; exact Hk]. intros (r & Hr & Hs). exfalso. unfold when_done in Hr. destruct (SvcAutocomplete _ _ _ _ _ _ _ _) as [a|]; [|discriminate]. injection Hr as Hr. unfold respond in Hr.
    destruct a as [items|e| |]; [|unfold http_error in Hr; injection Hr as <-; discriminate|discriminate|discriminate]. destruct (MarshalItems bf ftext items); try discriminate; injection Hr as <-; discriminate.
  - split; [|intros _; unfold answered, http_error; eauto]. intros _ (k & Hk). apply H in Hk. discriminate.
  - exfalso. revert E. clear. destruct (build_total (fun _ => None) [] tk (bs "Cosine") []) as (r & E & H). unfold buildSearchConfig in E. unfold defaultTopK in E. intros E'. rewrite E' in E. cbn [bind] in E. subst r. destruct H as [[? H]|[? H]]; discriminate.
  - exfalso. revert E. clear. destruct (build_total (fun _ => None) [] tk (bs "Cosine") []) as (r & E & H). unfold buildSearchConfig in E. unfold defaultTopK in E. intros E'. rewrite E' in E. cbn [bind] in E. subst r. destruct H as [[? H]|[? H]]; discriminate.
Qed.
Print Assumptions C82_autocomplete_refused.
(** A valid request for a name the service does not hold: status 500. *)
Theorem C82_unknown_dictionary : forall pf bf ftext etext rb srt lower service dict query, (forall l, ~ In (dict, l) service) ->
  (forall tk mt sm k m x sched, parses_valid pf -> suggest_params pf tk mt sm k m x -> fails (suggest_handle pf bf ftext etext rb srt lower service dict query tk mt sm sched) 500 etext) /\
  (forall tk k sched, count_param tk 0 k -> fails (autocomplete_handle bf ftext etext rb srt lower service dict query tk sched) 500 etext).
Proof.
  intros pf bf ftext etext rb srt lower service dict query Hn. assert (mget beqb service dict = None) as Hm.
  { clear - Hn. induction service as [|[n l] s IH]; [reflexivity|]. cbn [mget]. destruct (beqb n dict) eqn:E.
    - exfalso. apply beqb_ok in E. subst n. apply (Hn l). left. reflexivity.
    - apply IH. intros l' H. apply (Hn l'). right. exact H. }
  split.
  - intros tk mt sm k m x sched Hpf Hp. apply (params_config pf tk mt sm _ _ _ query Hpf) in Hp. unfold suggest_handle. rewrite Hp. unfold SvcSuggest. rewrite Hm. eexists. reflexivity.
  - intros tk k sched Hk. apply (C66_topk_param tk defaultTopK k ltac:(unfold defaultTopK; lia)) in Hk. unfold autocomplete_handle, autocomplete_limit. rewrite Hk. unfold SvcAutocomplete. rewrite Hm. eexists. reflexivity.
Qed.
Print Assumptions C82_unknown_dictionary.
(** The list of dictionaries: each name once. *)
Theorem C82_dictionaries : forall bf etext ord service, Permutation (ord service) service -> (forall n, In n (map fst service) -> Forall is_byte n /\ well_formed n) ->
  exists body names, dict_handle bf etext service ord = Sent (mkResp 200 (bs "application/json") body) /\ read_array read_string body = Some names /\ Permutation names (map fst service).
Proof.
  intros bf etext ord service Hp Hw. destruct (C81_strings bf (GetDictionaries service ord)) as (body & E & H).
  - intros v Hv. apply Hw. unfold GetDictionaries in Hv. exact (Permutation_in _ (Permutation_map fst Hp) Hv).
  - exists body, (GetDictionaries service ord). unfold dict_handle, respond. rewrite E. split; [reflexivity|]. split; [exact H|]. apply Permutation_map, Hp.
Qed.
Print Assumptions C82_dictionaries.
(** The home page: the name of the program and its version. *)
Definition read_home (body : bytes) : option (bytes * bytes) :=
  match parse body with
  | Some (JObject l) => match field (bs "project") l, field (bs "version") l with Some (JString p), Some (JString v) => Some (utf8 p, utf8 v) | _, _ => None end
  | _ => None
  end.
Theorem C82_home : forall bf etext project, Forall is_byte project -> well_formed project ->
  exists body, home_handle bf etext project = Sent (mkResp 200 (bs "application/json") body) /\ read_home body = Some (project, bs "v1").
Proof.
  intros bf etext project Hb Hw. eexists. split; [reflexivity|]. unfold read_home.
  erewrite (reads_parse _ _ (object2_read bf (bs "project") _ (JString (code_points project)) (bs "version") _ (JString (code_points (bs "v1"))) _ _ _ _)).
  - change (field (bs "project") [(code_points (bs "project"), JString (code_points project)); (code_points (bs "version"), JString (code_points (bs "v1")))]) with (Some (JString (code_points project))).
    change (field (bs "version") [(code_points (bs "project"), JString (code_points project)); (code_points (bs "version"), JString (code_points (bs "v1")))]) with (Some (JString (code_points (bs "v1")))).
    cbn iota. rewrite (utf8_code_points _ Hb Hw). reflexivity.
  Unshelve. all: try (repeat constructor; unfold is_byte; lia).
  + apply string_reads, Hb.
  + apply string_reads. repeat constructor; unfold is_byte; lia.
Qed.
Print Assumptions C82_home.
(** The indexer's request for a reindex counts as accepted exactly when the job succeeded,
    whatever the texts of the errors. *)
Theorem C82_reindex_reported : forall etext job, exists r, reindex_handle etext job = Sent r /\ (reindex_accepted r = true <-> job = None) /\ (r_status r = 200 <-> job = None).
Proof.
  intros etext [e|]; unfold reindex_handle, http_error; eexists; (split; [reflexivity|]); cbn [r_status r_body reindex_accepted].
  - split; [|split; intros H; discriminate]. split; [|discriminate]. unfold reindex_accepted. cbn [r_body]. intros H. apply beqb_ok in H. apply (f_equal (fun l => nth 0 (rev l) 0)) in H. rewrite rev_app_distr in H. discriminate.
  - split; split; intros; reflexivity.
Qed.
Print Assumptions C82_reindex_reported.

(** ** Complete answers *)
(** the service holds, under the name, the entries [words] in an index built from them *)
Definition holds (rb : roaring) (g : gobcodec) (ord : Z -> index_map -> index_map) (lowr : Z -> Z) (service : list (bytes * loaded)) (dict : bytes) (d : tokconf) (words : list bytes) : Prop :=
  exists file ix, mget beqb service dict = Some (mkLoaded ix words d) /\ dictionary_ok lowr d words /\ index_built rb g ord file lowr d words ix /\
  forall w, In w words -> Forall is_byte w /\ well_formed w.
(** numbers are written as JSON numbers *)
Definition writes_numbers (ftext : f64 -> bytes) : Prop := forall x, finite_score x = true -> is_number (ftext x) = true.

Lemma fin_json x : fin x -> finite_score x = true.
Proof. intros [_ H]. destruct x; try discriminate; reflexivity. Qed.
Lemma common_bound g h : 0 <= common g h <= zlen g.
Proof. unfold common, zlen. split; [lia|]. induction g as [|t g IH]; [cbn; lia|]. cbn [filter]. destruct (existsb (beqb t) h); cbn [length]; lia. Qed.
Lemma gram_score_fin lowr d words m q alpha i : dictionary_ok lowr d words -> alpha_ok alpha -> 1 <= zlen q <= 65535 -> 0 <= i < zlen words ->
  (gram_similarity lowr d m q (entry_at words i) >= val alpha * (1 - / 2 ^ 46))%R -> fin (gram_score lowr d m q (entry_at words i)).
Proof.
  intros (_ & _ & _ & Hd) [_ Ha] Hq Hi Hs.
  assert (In (entry_at words i) words) as Hin by (unfold entry_at; apply nth_In; unfold zlen in Hi; lia). destruct (Hd _ Hin) as [_ Hl].
  unfold gram_score, gram_similarity in *. set (h := entry_grams lowr d (entry_at words i)) in *. pose proof (common_bound q h) as Hc.
  destruct (Z.le_gt_cases 1 (zlen h)) as [H1|H1]; [apply score_wide; unfold size_ok; lia|].
  exfalso. assert (h = []) as E by (destruct h; [reflexivity|unfold zlen in H1; cbn [length] in H1; lia]). rewrite E in Hs.
  assert (common q [] = 0) as E0. { unfold common. clear. induction q as [|t q IH]; [reflexivity|]. cbn [filter existsb]. exact IH. }
  rewrite E0 in Hs. change (zlen (@nil bytes)) with 0 in Hs.
  assert (similarity m 0 (zlen q) 0 = 0)%R as E1.
  { destruct m; cbn [similarity]; try (unfold Rdiv; change (IZR 0) with 0%R; ring). destruct (Z.eqb_spec (zlen q) 0); [lia|]. cbn [andb]. reflexivity. }
  rewrite E1 in Hs. assert (/ 2 ^ 46 <= / 2)%R by (apply Rinv_le_contravar; [lra|]; apply Rle_trans with (2 ^ 1)%R; [lra|apply Rle_pow; [lra|lia]]). nra.
Qed.

(** A suggest request with good parameters for a dictionary the service holds: under every
    schedule the handler, if it answers, answers 200 with a JSON body whose elements are the
    entries a top-k search should give (as in C71), with their scores. *)
Theorem C82_suggest_partial : forall pf bf ftext etext rb srt g ord lowr service dict d words query tk mt sm k m alpha,
  roaring_ok rb -> roaring_written rb -> gob_ok g -> order_ok ord -> sorter_ok srt -> parses_valid pf -> writes_numbers ftext ->
  holds rb g ord lowr service dict d words ->
  suggest_params pf tk mt sm k m alpha -> alpha_ok alpha ->
  let q := entry_grams lowr d query in
  NoDup q -> 1 <= zlen q <= 65535 -> (m = Overlap -> zlen q <= 32767) ->
  (exists w, In w words /\ MinY m alpha (zlen q) <= zlen (entry_grams lowr d w)) ->
  forall sched out, suggest_handle pf bf ftext etext rb srt (ToLower lowr) service dict query tk mt sm sched = Some out ->
  let score := fun i => gram_score lowr d m q (entry_at words i) in
  let sim := fun i => gram_similarity lowr d m q (entry_at words i) in
  exists ids body, out = Sent (mkResp 200 (bs "application/json") body) /\
    read_array (read_item (bs "Score") (bs "Value")) body = Some (map (fun i => (ftext (score i), entry_at words i)) ids) /\
    zlen ids <= k /\ NoDup ids /\ (forall i, In i ids -> 0 <= i < zlen words) /\ best_first score ids /\
    (forall i, In i ids -> (sim i >= val alpha * (1 - / 2 ^ 46))%R) /\
    (forall i, 0 <= i < zlen words -> 1 <= zlen (entry_grams lowr d (entry_at words i)) -> (m = Overlap -> zlen (entry_grams lowr d (entry_at words i)) <= 32767) ->
       (sim i >= val alpha * (1 + / 2 ^ 46))%R ->
       In i ids \/ (zlen ids = k /\ forall j, In j ids -> (sim i <= val (score j) * (1 + / 2 ^ 46) + / 2 ^ 50)%R)).
Proof.
  intros pf bf ftext etext rb srt g ord lowr service dict d words query tk mt sm k m alpha Hrb Hrw Hg Ho Hsrt Hpf Hft (file & ix & Hm & Hdict & Hix & Hw) Hp Ha q Nq Hq Hov Hlong sched out Hout score sim.
  pose proof (proj1 (params_config pf tk mt sm k m alpha query Hpf) Hp) as Hc. unfold suggest_handle in Hout. rewrite Hc in Hout. unfold SvcSuggest in Hout. rewrite Hm in Hout. cbn [l_index l_words l_conf c_query c_similarity c_metric c_topK] in Hout.
  destruct (ServiceSuggest rb srt ix words (ToLower lowr) d query alpha m k sched) as [r|] eqn:Er; [|discriminate]. cbn [when_done] in Hout. injection Hout as <-.
  assert (1 <= k) as Hk by (destruct Hp as ([[_ ->]|[_ Hk]] & _); lia).
  destruct (C71_suggest_partial rb srt g ord file lowr d words ix query m alpha k Hrb Hrw Hg Ho Hsrt Hdict Hix Nq Hq Hov Ha Hk Hlong sched r Er) as (ids & -> & H1 & H2 & H3 & H4 & H5 & H6).
  fold q in H4, H5, H6. set (items := map (fun i : Z => (gram_score lowr d m q (entry_at words i), entry_at words i)) ids).
  assert (forall it, In it items -> exists i, In i ids /\ it = (score i, entry_at words i)) as Hi by (intros it Hit; apply in_map_iff in Hit; destruct Hit as (i & <- & Hit); exists i; auto).
  assert (forall it, In it items -> finite_score (fst it) = true) as Hfin.
  { intros it Hit. destruct (Hi it Hit) as (i & Hin & ->). cbn [fst]. apply fin_json. apply (gram_score_fin lowr d words m q alpha i Hdict Ha Hq (H3 i Hin)). apply H5, Hin. }
  destruct (C81_response bf ftext items) as [Hex Hread].
  { intros it Hit. destruct (Hi it Hit) as (i & Hin & ->). cbn [snd]. apply Hw. unfold entry_at. apply nth_In. specialize (H3 i Hin). unfold zlen in H3. lia. }
  { intros it Hit. apply Hft. }
  destruct (proj2 Hex Hfin) as (body & Eb). exists ids, body. unfold respond. fold q. fold items. rewrite Eb. split; [reflexivity|]. split; [|auto 10].
  rewrite (Hread body Eb). unfold items. rewrite map_map. reflexivity.
Qed.
Print Assumptions C82_suggest_partial.
(** ... and it does answer: from every point of every schedule the handler can be run to its end. *)
Theorem C82_suggest_returns_partial : forall pf bf ftext etext rb srt g ord lowr service dict d words query tk mt sm k m alpha,
  roaring_ok rb -> roaring_written rb -> gob_ok g -> order_ok ord -> sorter_ok srt -> parses_valid pf ->
  holds rb g ord lowr service dict d words ->
  suggest_params pf tk mt sm k m alpha -> alpha_ok alpha ->
  let q := entry_grams lowr d query in
  1 <= zlen q <= 65535 -> (m = Overlap -> zlen q <= 32767) ->
  (exists w, In w words /\ MinY m alpha (zlen q) <= zlen (entry_grams lowr d w)) ->
  exists sched r, suggest_handle pf bf ftext etext rb srt (ToLower lowr) service dict query tk mt sm sched = Some (Sent r).
Proof.
  intros pf bf ftext etext rb srt g ord lowr service dict d words query tk mt sm k m alpha Hrb Hrw Hg Ho Hsrt Hpf (file & ix & Hm & Hdict & Hix & Hw) Hp Ha q Hq Hov Hlong.
  pose proof (proj1 (params_config pf tk mt sm k m alpha query Hpf) Hp) as Hc. assert (1 <= k) as Hk by (destruct Hp as ([[_ ->]|[_ Hk]] & _); lia).
  destruct (C71_suggest_returns_partial rb srt g ord file lowr d words ix query m alpha k Hrb Hrw Hg Ho Hsrt Hdict Hix Hq Hov Ha Hk Hlong []) as (_ & more & items & E); [discriminate|].
  exists ([] ++ more). unfold suggest_handle. rewrite Hc. unfold SvcSuggest. rewrite Hm. cbn [l_index l_words l_conf c_query c_similarity c_metric c_topK]. rewrite E. cbn [when_done respond]. destruct (MarshalItems bf ftext items) eqn:Em; unfold http_error; eauto; unfold MarshalItems in Em; destruct (forallb _ items); discriminate.
Qed.
Print Assumptions C82_suggest_returns_partial.
(** An autocomplete request: exactly the first entries with all the n-grams of the prefix. *)
Theorem C82_autocomplete_partial : forall bf ftext etext rb srt g ord lowr service dict d words query tk k,
  roaring_ok rb -> roaring_written rb -> gob_ok g -> order_ok ord -> sorter_ok srt -> writes_numbers ftext ->
  holds rb g ord lowr service dict d words -> count_param tk 0 k ->
  let q := prefix_grams lowr d query in
  NoDup q -> 1 <= zlen q < 2 ^ 32 ->
  forall sched out, autocomplete_handle bf ftext etext rb srt (ToLower lowr) service dict query tk sched = Some out ->
  exists body, out = Sent (mkResp 200 (bs "application/json") body) /\
    read_array (read_item (bs "Score") (bs "Value")) body = Some (map (fun i => (ftext (of_int 0), entry_at words i)) (firstn (Z.to_nat k) (matches lowr d q words))).
Proof.
  intros bf ftext etext rb srt g ord lowr service dict d words query tk k Hrb Hrw Hg Ho Hsrt Hft (file & ix & Hm & Hdict & Hix & Hw) Hp q Nq Hq sched out Hout.
  assert (0 <= k) as Hk by (destruct Hp as [[_ ->]|[_ Hk]]; lia).
  apply (C66_topk_param tk defaultTopK k ltac:(unfold defaultTopK; lia)) in Hp. unfold autocomplete_handle, autocomplete_limit in Hout. rewrite Hp in Hout. unfold SvcAutocomplete in Hout. rewrite Hm in Hout. cbn [l_index l_words l_conf] in Hout.
  destruct (ServiceAutocomplete rb srt ix words (ToLower lowr) d query k sched) as [r|] eqn:Er; [|discriminate]. cbn [when_done] in Hout. injection Hout as <-.
  rewrite (C73_autocomplete_partial rb srt g ord file lowr d words ix query k Hrb Hrw Hg Ho Hsrt Hdict Hix Nq Hq Hk sched r Er). fold q. set (ids := firstn (Z.to_nat k) (matches lowr d q words)). set (items := map (fun i : Z => (of_int 0, entry_at words i)) ids).
  assert (forall i, In i ids -> In (entry_at words i) words) as Hids.
  { intros i Hi. assert (In i (matches lowr d q words)) as Hi2 by (rewrite <- (firstn_skipn (Z.to_nat k)); apply in_or_app; left; exact Hi). unfold matches in Hi2. apply filter_In in Hi2. destruct Hi2 as [Hi2 _]. apply in_map_iff in Hi2. destruct Hi2 as (n & <- & Hn). apply in_seq in Hn. unfold entry_at. apply nth_In. lia. }
  destruct (C81_response bf ftext items) as [Hex Hread].
  { intros it Hit. apply in_map_iff in Hit. destruct Hit as (i & <- & Hi). cbn [snd]. apply Hw, Hids, Hi. }
  { intros it _. apply Hft. }
  assert (forall it, In it items -> finite_score (fst it) = true) as Hfin by (intros it Hit; apply in_map_iff in Hit; destruct Hit as (i & <- & Hi); reflexivity).
  destruct (proj2 Hex Hfin) as (body & Eb). exists body. unfold respond. rewrite Eb. split; [reflexivity|]. rewrite (Hread body Eb). unfold items. rewrite map_map. reflexivity.
Qed.
Print Assumptions C82_autocomplete_partial.

(** a served dictionary and two requests *)
Definition demo82_service : list (bytes * loaded) := [(bs "other", mkLoaded [] [] demo71_conf); (bs "words", mkLoaded demo71_index demo71_words demo71_conf)].
Definition demo82_pf (s : bytes) : option f64 := if beqb s (bs "0.25") then Some quarter else None.
Example C82_holds : holds rb4 gob1 (fun _ m => rev m) demo71_low demo82_service (bs "words") demo71_conf demo71_words.
Proof.
  exists "x"%string, demo71_index. split; [reflexivity|]. split; [exact demo71_ok|]. split; [exact demo71_built|].
  intros w [<- |[<- |[<- |[<- |[]]]]]; (split; [repeat constructor; unfold is_byte; cbn; lia|]); unfold well_formed; match goal with |- Forall _ ?t => let v := eval vm_compute in t in change t with v end; repeat (apply Forall_cons; [intros [H _]; cbn in H; unfold RuneError in H; lia|]); apply Forall_nil.
Qed.
Example C82_params_nonvacuous : suggest_params demo82_pf (bs "2") (bs "Cosine") (bs "0.25") 2 Cosine quarter /\ parses_valid demo82_pf /\ writes_numbers demo_ftext /\ ~ exists k m x, suggest_params demo82_pf (bs "2") (bs "cosine") (bs "0.25") k m x.
Proof.
  split; [|split; [|split]].
  - split; [right; split; [|split; [lia|reflexivity]]|].
    + apply (proj1 (C66_parse_int (bs "2") 2)). vm_compute. reflexivity.
    + split; [cbn; auto|]. split; [right; split; [discriminate|reflexivity]|]. left. pose proof alpha_quarter as [H1 H2]. split; [exact H1|]. split; [|apply H2]. destruct H2 as [H2 _]. eapply Rlt_le_trans; [|exact H2]. apply Rinv_0_lt_compat. lra.
  - intros s x. unfold demo82_pf. destruct (beqb s (bs "0.25")); [|discriminate]. intros [= <-]. reflexivity.
  - intros x _. unfold demo_ftext. destruct (feq x f_half); reflexivity.
  - intros (k & m & x & _ & H & _). cbn in H. intuition discriminate.
Qed.
Example C82_nonvacuous : 
  suggest_handle demo82_pf false (fun x => if feq x f_one then bs "1" else bs "0.5") (fun _ => bs "error") rb4 (fun l => l) (ToLower demo71_low) demo82_service (bs "words") (bs "aBc") (bs "2") (bs "Cosine") (bs "0.25") (demo71_sched (bs "aBc"))
  = Some (Sent (mkResp 200 (bs "application/json") (bs "[{""Score"":1,""Value"":""Abc""},{""Score"":0.5,""Value"":""ab""}]"))) /\
  autocomplete_handle false (fun x => bs "0") (fun _ => bs "error") rb4 (fun l => l) (ToLower demo71_low) demo82_service (bs "words") (bs "A") (bs "2") (demo73_sched (bs "A"))
  = Some (Sent (mkResp 200 (bs "application/json") (bs "[{""Score"":0,""Value"":""Abc""},{""Score"":0,""Value"":""ab""}]"))) /\
  suggest_handle demo82_pf false (fun x => bs "1") (fun _ => bs "error") rb4 (fun l => l) (ToLower demo71_low) demo82_service (bs "words") (bs "aBc") (bs "0") (bs "Cosine") (bs "0.25") []
  = Some (Sent (mkResp 400 (bs "text/plain; charset=utf-8") (bs "error" ++ [10]))).
Proof. split; [|split]; vm_compute; reflexivity. Qed.
