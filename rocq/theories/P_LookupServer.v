(** C107 over HTTP: looking an entry up at the deployed server (internal/http/cmd,
    internal/suggest/api, pkg/suggest). *)
From Coq Require Import String ZifyBool Permutation Sorted Lia Reals.
From Verif Require Import Base BaseLemmas GoMap Store StoreSpec Postings PostingsSpec PostingsDrive P_PostingsLemmas Merger MergerSpec MergerAnySpec P_MergerLemmas Index IndexSpec IndexProofs P_IndexLemmas Text AnalysisSpec Analysis Decimal Scanner ScannerSpec
  Mph Float64 Metric MetricSpec FloatProofs MetricFloat MetricFloat2 MetricWide TopK Suggest SuggestSpec P_SuggestLemmas P_Suggest SuggestAnySpec Autocomplete AutocompleteSpec AutocompleteAnySpec AutocompleteAny P_Autocomplete Http HttpSpec P_Http NGramIndex NGramIndexSpec NGramIndexProofs P_NGramIndex NGramIndexAnySpec NGramIndexAny P_RepeatedDict CdbDict CdbDictSpec P_Cdb Paths PathsSpec
  JsonSpec Json P_Json Config ConfigSpec P_Config P_Scanner Indexer IndexerSpec P_Indexer Deploy DeploySpec P_Deploy P_DeployAny P_AnyQuery P_FullAnswer P_AnyQueryServer P_LookupAny.
From Verif Require P_Index P_Analysis Handlers P_Handlers.
Local Open Scope Z_scope.
Local Notation length := List.length.

(** A request for an entry of the served dictionary, under any spelling with the same n-grams, is
    answered with status 200 and a JSON array whose first item has a score not below 1, and the
    entry is in it with score 1, unless the array is full of items none of which has a smaller
    score, those with score 1 being this entry or ones before it.  The hypotheses are met by the
    server of [C99_deployed_nonvacuous] and every entry of its dictionary. *)
Theorem C107_lookup_request : forall L rb srt g ord lowr asort chunk chunk' fuel O pf bf ftext etext k k' configPath cs service service' name c query tk mt sm topK m alpha e,
  sound L rb g ord -> sorter_ok srt -> P_Handlers.parses_valid pf -> P_Handlers.writes_numbers ftext ->
  deployed L rb g ord lowr asort chunk fuel O k configPath cs k' ->
  configure_service rb g ord (ToLower lowr) asort chunk' fuel k' configPath service = Ret service' ->
  last_named cs name c -> P_Handlers.suggest_params pf tk mt sm topK m alpha -> alpha_ok alpha ->
  let d := tokenizer_of asort c in
  let words := entries (text_at k (source_path c)) in
  let q := entry_grams lowr d query in
  dictionary_any lowr d words -> 0 <= e < zlen words -> q = entry_grams lowr d (entry_at words e) -> 1 <= zlen q <= 65535 -> (m = Overlap -> zlen q <= 32767) ->
  forall sched out, suggest_request L rb srt (ToLower lowr) pf bf ftext etext service' name query tk mt sm sched = Some out ->
  exists ans body, out = Handlers.Sent (Handlers.mkResp 200 (bs "application/json") body) /\
    read_array (read_item (bs "Score") (bs "Value")) body = Some (map (fun a => (ftext (snd a), entry_at words (fst a))) ans) /\
    zlen ans <= topK /\ (forall a, In a ans -> 0 <= fst a < zlen words) /\
    (exists first others, ans = first :: others /\ flt (snd first) f_one = false) /\
    (In (e, f_one) ans \/ (zlen ans = topK /\ forall a, In a ans -> flt (snd a) f_one = false /\ (feq (snd a) f_one = true -> fst a <= e))).
Proof.
  intros L rb srt g ord lowr asort chunk chunk' fuel O pf bf ftext etext k k' configPath cs service service' name c query tk mt sm topK m alpha e Hs Hsrt Hpf Hft Hd Hconf Hlast Hp Ha d words q Hdict He Eq Hq Hov sched out Hout.
  destruct (served_every L rb srt g ord lowr asort chunk chunk' fuel O k k' configPath cs service service' name c Hs Hsrt Hd Hconf Hlast Hdict) as (ix & _ & Hb & Hw & Hsu & _). pose proof Hs as (HL & Hrb & Hrw & Hg & Ho).
  assert (1 <= topK) as Hk by (destruct Hp as ([[_ ->]|[_ H]] & _); lia). pose proof (proj1 (P_Handlers.params_config pf tk mt sm topK m alpha query Hpf) Hp) as Hc.
  assert (q <> [] -> exists w, In w words /\ MinY m alpha (zlen q) <= zlen (entry_grams lowr d w)) as Hlong.
  { intros _. exists (entry_at words e). split; [apply entry_in; exact He|]. rewrite <- Eq. apply (identical_passes m alpha (zlen q) Ha); [unfold size_ok; lia|exact Hov]. }
  unfold suggest_request in Hout. rewrite Hc, (Hsu query m alpha topK (proj2 Hq) Hov Ha Hk Hlong) in Hout. fold d words in Hout, Hb.
  destruct (ServiceSuggest rb srt ix words (ToLower lowr) d query alpha m topK sched) as [r|] eqn:Er; [|discriminate]. cbn [Handlers.when_done] in Hout. injection Hout as <-.
  destruct (C107_lookup rb srt g ord "" lowr d words ix query m alpha topK e Hrb Hrw Hg Ho Hsrt Hdict Hb He Eq Hq Hov Ha Hk sched r Er) as (ans & -> & H1 & H2 & H3 & H4).
  exists ans. destruct (responds bf ftext etext (map (fun a => (snd a, entry_at words (fst a))) ans) Hft) as (body & Eb & Hread).
  - intros it Hit. apply in_map_iff in Hit. destruct Hit as (a & <- & Hi). cbn [snd fst]. apply Hw, entry_in. apply (H2 a Hi).
  - intros it Hit. apply in_map_iff in Hit. destruct Hit as (a & <- & Hi). cbn [fst]. apply P_Handlers.fin_json. apply (H2 a Hi).
  - exists body. split; [exact Eb|]. split; [rewrite Hread, map_map; reflexivity|]. split; [exact H1|]. split; [intros a Hi; apply (H2 a Hi)|]. split; [exact H3|exact H4].
Qed.
Print Assumptions C107_lookup_request.
