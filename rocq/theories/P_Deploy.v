(** C93 From the configuration file to the answers of the server. *)
From Coq Require Import String ZifyBool Permutation Sorted Lia Reals.
From Verif Require Import Base BaseLemmas GoMap Store StoreSpec Postings PostingsSpec PostingsDrive P_PostingsLemmas Merger MergerSpec P_MergerLemmas Index IndexSpec IndexProofs P_IndexLemmas Text AnalysisSpec Analysis Decimal Scanner ScannerSpec
  Mph Float64 Metric MetricSpec FloatProofs MetricFloat TopK Suggest SuggestSpec P_Suggest Autocomplete AutocompleteSpec Http HttpSpec P_Http NGramIndex NGramIndexSpec NGramIndexProofs P_NGramIndex NGramIndexAnySpec CdbDict CdbDictSpec P_Cdb Paths PathsSpec
  JsonSpec Json Config ConfigSpec P_Config P_Scanner Indexer IndexerSpec P_Indexer Deploy DeploySpec.
From Verif Require P_Index P_Analysis Handlers P_Handlers.
Local Open Scope Z_scope.
Local Notation length := List.length.

Section Serve.
Context (L : cdblib) (rb : roaring) (g : gobcodec) (ord : Z -> index_map -> index_map) (lowr : Z -> Z) (asort : list alphabet -> list alphabet) (chunk : nat -> nat) (fuel : nat) (O : outside).
Context (HL : cdb_ok L) (Hrb : roaring_ok rb) (Hrw : roaring_written rb) (Hg : gob_ok g) (Ho : order_ok ord).
Notation lower := (ToLower lowr).
Notation open := (open_index rb g ord lower asort chunk fuel).
(* what the server holds for a description *)
Definition entry_good (c : IndexDescription) (words : list bytes) (e : entry) : Prop :=
  e_conf e = tokenizer_of asort c /\
  match e_opened e with
  | InMemory ix ws => ws = words /\ index_built rb g ord "" lowr (tokenizer_of asort c) words ix
  | OnDisc ix recs => index_built rb g ord "" lowr (tokenizer_of asort c) words ix /\ forall key, is_u32 key -> CdbGet L recs key = Ret (DictGet words key)
  end.
Lemma open_ram k c : i_driver c = bs "RAM" -> k (source_path c) <> None -> source_ok rb g ord lowr asort fuel (text_at k (source_path c)) c ->
  exists e, open k c = Ret e /\ entry_good c (entries (text_at k (source_path c))) e.
Proof.
  intros Hd Hk (Hl & Hf & Hdict & _ & Hz & _). unfold open_index. rewrite Hd. change (beqb (bs "RAM") (bs "RAM")) with true. cbv zeta. fold (source_path c). destruct (k (source_path c)) as [x|] eqn:Ek; [|contradiction].
  rewrite (C68_all_lines_partial chunk (text_at k (source_path c)) fuel Hf Hl). fold (entries (text_at k (source_path c))). set (file := text_at k (source_path c)) in *.
  destruct (indexable_builds rb g ord "" lowr (tokenizer_of asort c) (entries file) Hrb Hrw Hg Ho Hdict) as (ops & Eo & _ & Hram & _).
  assert (forall b, ram_open (ram_run NewRAMDirectory ops) (documentListFile "") = Some b -> zlen b < 2 ^ 32) as Hz' by (intros b Hb; apply (Hz ops b Eo); left; exact Hb).
  destruct (Hram Hz') as (ix & Ex). rewrite Ex. eexists. split; [reflexivity|]. split; [reflexivity|]. cbn [e_opened]. split; [reflexivity|]. exists ops. split; [exact Eo|]. left. split; [exact Ex|exact Hz'].
Qed.
Lemma open_on_disc k c words : i_driver c = bs "DISC" -> serves L rb g ord lowr k (job_of asort c) words -> exists e, open k c = Ret e /\ entry_good c words e.
Proof.
  intros Hd (recs & ix & Eo & Hb & Hget). unfold open_index. rewrite Hd. change (beqb (bs "DISC") (bs "RAM")) with false. cbv iota. rewrite Eo. eexists. split; [reflexivity|]. split; [reflexivity|]. cbn [e_opened]. split; assumption.
Qed.
Lemma add_all k cs : (forall c, In c cs -> exists e, open k c = Ret e) -> forall s0, exists s, add_all_indexes rb g ord lower asort chunk fuel k cs s0 = Ret s.
Proof.
  induction cs as [|c cs IH]; intros H s0; [exists s0; reflexivity|]. cbn [add_all_indexes]. destruct (H c (or_introl eq_refl)) as (e & ->). cbn [bind]. apply IH. intros c' Hc'. apply H. right. exact Hc'.
Qed.
Lemma add_all_get k cs : forall s0 s, add_all_indexes rb g ord lower asort chunk fuel k cs s0 = Ret s ->
  (NoDup (map fst s0) -> NoDup (map fst s)) /\ (forall name, In name (map fst s) <-> In name (map fst s0) \/ In name (map i_name cs)) /\
  (forall name, ~ In name (map i_name cs) -> mget beqb s name = mget beqb s0 name) /\
  (forall name c, last_named cs name c -> exists e, open k c = Ret e /\ mget beqb s name = Some e).
Proof.
  induction cs as [|c cs IH]; intros s0 s E; cbn [add_all_indexes] in E.
  - injection E as <-. split; [auto|]. split; [intros; cbn; tauto|]. split; [auto|]. intros name c (a & b & H & _). destruct a; discriminate.
  - destruct (open k c) as [e|x| |] eqn:Eo; cbn [bind] in E; try discriminate. destruct (IH _ _ E) as (H1 & H2 & H3 & H4). split; [|split; [|split]].
    + intros Hn. apply H1. apply (mset_nodup _ beqb_ok). exact Hn.
    + intros name. rewrite H2, (mset_keys_in _ beqb_ok). cbn [map In]. intuition congruence.
    + intros name Hn. cbn [map In] in Hn. rewrite H3 by tauto. rewrite (mget_mset _ beqb_ok). destruct (beqb (i_name c) name) eqn:Eb; [|reflexivity]. apply beqb_ok in Eb. tauto.
    + intros name c' (a & b & Hs & Hn & Hb). destruct a as [|x a].
      * injection Hs as <- <-. exists e. split; [exact Eo|]. rewrite H3, (mget_mset _ beqb_ok).
        -- rewrite <- Hn. rewrite (eqb_refl _ beqb_ok). reflexivity.
        -- intros Hi. apply in_map_iff in Hi. destruct Hi as (x & Hx & Hi). exact (Hb x Hi Hx).
      * injection Hs as <- ->. apply H4. exists a, b. auto.
Qed.
Lemma says_read k configPath cs : config_says k configPath cs -> read_configs k configPath = Ret cs.
Proof.
  intros (text & j & Hk & Hb & Hp & Hpl & Hc). unfold read_configs, read_text. rewrite Hk. pose proof (C91_index_configs configPath text j Hb Hp Hpl) as H. rewrite Hc in H. exact H.
Qed.
End Serve.

(** ** C93 *)
(** The command was run on the disk [k], and has ended with success or told the server; the
    server then reads the configuration on the disk [k'] that the command left. *)
Definition deployed L rb g ord lowr asort chunk fuel O (k : disk) (configPath : bytes) (cs : list IndexDescription) (k' : disk) : Prop :=
  config_says k configPath cs /\ coherent asort configPath cs /\ (forall c, In c cs -> k (source_path c) <> None /\ source_ok rb g ord lowr asort fuel (text_at k (source_path c)) c) /\
  exists pidPath host notes r, indexer_command L rb g ord (ToLower lowr) asort chunk fuel O [] pidPath host configPath k = (k', notes, r) /\ (r = Ret tt \/ notes <> []).
Definition sound L rb g ord : Prop := cdb_ok L /\ roaring_ok rb /\ roaring_written rb /\ gob_ok g /\ order_ok ord.

Lemma selected_all ds : selected [] ds = ds.
Proof. unfold selected. induction ds as [|d ds IH]; [reflexivity|]. cbn [filter]. rewrite IH. reflexivity. Qed.
Lemma job_in asort cs c : In c cs -> i_driver c = bs "DISC" -> In (job_of asort c) (jobs asort cs).
Proof. intros Hc Hd. unfold jobs. apply on_disc_in. split; [apply in_map; exact Hc|]. unfold job_of. cbn [d_disc]. rewrite Hd. reflexivity. Qed.
Lemma in_job asort cs d : In d (jobs asort cs) -> exists c, In c cs /\ d = job_of asort c /\ i_driver c = bs "DISC".
Proof.
  intros H. unfold jobs in H. apply on_disc_in in H. destruct H as [Hi Hd]. apply in_map_iff in Hi. destruct Hi as (c & <- & Hc). exists c. split; [exact Hc|]. split; [reflexivity|]. unfold job_of in Hd. cbn [d_disc] in Hd. apply beqb_ok in Hd. exact Hd.
Qed.
Lemma deployed_open L rb g ord lowr asort chunk chunk' fuel O k configPath cs k' : sound L rb g ord -> deployed L rb g ord lowr asort chunk fuel O k configPath cs k' ->
  read_configs k' configPath = Ret cs /\ forall c, In c cs -> exists e, open_index rb g ord (ToLower lowr) asort chunk' fuel k' c = Ret e /\ entry_good L rb g ord lowr asort c (entries (text_at k (source_path c))) e.
Proof.
  intros (HL & Hrb & Hrw & Hg & Ho) (Hsays & (Hdrv & Hap & Hsep) & Hsrc & pidPath & host & notes & r & E & Hr).
  pose proof (says_read k configPath cs Hsays) as Hread. unfold indexer_command in E. rewrite Hread in E. cbn [bind] in E.
  assert (forall path, (forall d, In d (jobs asort cs) -> ~ In path (files_of d)) -> k' path = k path) as Hkeep.
  { intros path Hp. apply (C88_untouched _ _ _ _ _ _ _ _ _ _ _ _ _ _ _ _ E). intros ds d Hds Hd. injection Hds as <-. rewrite selected_all in Hd. exact (Hp d Hd). }
  split.
  - rewrite <- Hread. unfold read_configs, read_text. rewrite Hkeep; [reflexivity|]. intros d Hd. apply (Hsep d Hd).
  - intros c Hc. destruct (Hsrc c Hc) as [Hex Hok]. assert (k' (source_path c) = k (source_path c)) as Ek by (apply Hkeep; intros d Hd; apply (Hsep d Hd); exact Hc).
    destruct (Hdrv c Hc) as [Hd|Hd].
    + apply (open_on_disc L rb g ord lowr asort chunk' fuel k' c _ Hd).
      refine (C88_success_partial L rb g ord lowr chunk fuel O [] pidPath host (map (job_of asort) cs) k k' notes r (fun d => entries (text_at k (source_of d))) HL Hrb Hrw Hg Ho _ _ E Hr (job_of asort c) _); rewrite selected_all.
      * exact Hap.
      * intros d Hd'. destruct (in_job asort cs d Hd') as (c' & Hc' & -> & Hdr). destruct (Hsrc c' Hc') as [_ (_ & Hf & Hdict & Hfile & Hz & _)]. split; [apply Hfile, Hdr|]. split; [exact Hdict|]. split; [exact Hf|]. intros ops b Eo Hb. apply (Hz ops b Eo). right. exact Hb.
      * apply job_in; assumption.
    + assert (text_at k' (source_path c) = text_at k (source_path c)) as Et by (unfold text_at; rewrite Ek; reflexivity). rewrite <- Et. apply (open_ram L rb g ord lowr asort chunk' fuel Hrb Hrw Hg Ho k' c Hd).
      * rewrite Ek. exact Hex.
      * rewrite Et. exact Hok.
Qed.
(** The server starts, or reindexes, and holds the names of the configuration besides those it
    held before, each once. *)
Theorem C93_configured_partial : forall L rb g ord lowr asort chunk chunk' fuel O k configPath cs k' service,
  sound L rb g ord -> deployed L rb g ord lowr asort chunk fuel O k configPath cs k' -> NoDup (map fst service) ->
  exists service', configure_service rb g ord (ToLower lowr) asort chunk' fuel k' configPath service = Ret service' /\ NoDup (map fst service') /\
  forall name, In name (map fst service') <-> In name (map fst service) \/ In name (map i_name cs).
Proof.
  intros L rb g ord lowr asort chunk chunk' fuel O k configPath cs k' service Hs Hd Hn. destruct (deployed_open L rb g ord lowr asort chunk chunk' fuel O k configPath cs k' Hs Hd) as [Hr Hopen].
  destruct (add_all rb g ord lowr asort chunk' fuel k' cs) with (s0 := service) as (service' & E); [intros c Hc; destruct (Hopen c Hc) as (e & He & _); exists e; exact He|].
  exists service'. unfold configure_service. rewrite Hr. cbn [bind]. split; [exact E|]. destruct (add_all_get rb g ord lowr asort chunk' fuel k' cs _ _ E) as (H1 & H2 & _). split; [apply H1, Hn|exact H2].
Qed.
Print Assumptions C93_configured_partial.

Section Answers.
Context (L : cdblib) (rb : roaring) (g : gobcodec) (ord : Z -> index_map -> index_map) (lowr : Z -> Z) (asort : list alphabet -> list alphabet) (chunk chunk' : nat -> nat) (fuel : nat) (O : outside).
Context (k k' : disk) (configPath : bytes) (cs : list IndexDescription) (service service' : list (bytes * entry)) (name : bytes) (c : IndexDescription).
Context (Hs : sound L rb g ord) (Hd : deployed L rb g ord lowr asort chunk fuel O k configPath cs k')
  (Hconf : configure_service rb g ord (ToLower lowr) asort chunk' fuel k' configPath service = Ret service') (Hlast : last_named cs name c).
Notation words := (entries (text_at k (source_path c))).
Notation conf := (tokenizer_of asort c).
(* the service as C82 sees it *)
Lemma held : exists e ix, mget beqb service' name = Some e /\ entry_good L rb g ord lowr asort c words e /\ index_built rb g ord "" lowr conf words ix /\
  (match e_opened e with InMemory x _ | OnDisc x _ => x end) = ix /\ e_conf e = conf /\ indexable lowr conf words /\ (forall w, In w words -> Forall is_byte w /\ well_formed w).
Proof.
  destruct (deployed_open L rb g ord lowr asort chunk chunk' fuel O k configPath cs k' Hs Hd) as [Hr Hopen]. unfold configure_service in Hconf. rewrite Hr in Hconf. cbn [bind] in Hconf.
  destruct (add_all_get rb g ord lowr asort chunk' fuel k' cs _ _ Hconf) as (_ & _ & _ & H4). destruct (H4 name c Hlast) as (e & He & Hm).
  assert (In c cs) as Hc by (destruct Hlast as (a & b & -> & _); apply in_app_iff; right; left; reflexivity).
  destruct (Hopen c Hc) as (e' & He' & Hgood). rewrite He in He'. injection He' as <-. exists e. pose proof Hgood as [Hcf Hop]. destruct Hd as (_ & _ & Hsrc & _). destruct (Hsrc c Hc) as [_ (_ & _ & Hdict & _ & _ & Hw)].
  exists (match e_opened e with InMemory x _ | OnDisc x _ => x end). split; [exact Hm|]. split; [exact Hgood|]. split; [destruct (e_opened e); tauto|]. auto.
Qed.
End Answers.

(** An autocomplete request to the deployed server: under every schedule the answer, if there is
    one, has status 200 and a JSON body with exactly the first entries of the source that have
    all the n-grams of the query, in the order of the source. *)
Theorem C93_autocomplete_partial : forall L rb srt g ord lowr asort chunk chunk' fuel O bf ftext etext k k' configPath cs service service' name c query tk limit,
  sound L rb g ord -> sorter_ok srt -> P_Handlers.writes_numbers ftext ->
  deployed L rb g ord lowr asort chunk fuel O k configPath cs k' ->
  configure_service rb g ord (ToLower lowr) asort chunk' fuel k' configPath service = Ret service' ->
  last_named cs name c -> P_Handlers.count_param tk 0 limit ->
  let words := entries (text_at k (source_path c)) in
  let q := prefix_grams lowr (tokenizer_of asort c) query in
  dictionary_ok lowr (tokenizer_of asort c) words -> NoDup q -> 1 <= zlen q < 2 ^ 32 ->
  forall sched out, autocomplete_request L rb srt (ToLower lowr) bf ftext etext service' name query tk sched = Some out ->
  exists body, out = Handlers.Sent (Handlers.mkResp 200 (bs "application/json") body) /\
    read_array (read_item (bs "Score") (bs "Value")) body = Some (map (fun i => (ftext (of_int 0), entry_at words i)) (firstn (Z.to_nat limit) (matches lowr (tokenizer_of asort c) q words))).
Proof.
  intros L rb srt g ord lowr asort chunk chunk' fuel O bf ftext etext k k' configPath cs service service' name c query tk limit Hs Hsrt Hft Hd Hconf Hlast Hp words q Hdict Nq Hq sched out Hout.
  destruct (held L rb g ord lowr asort chunk chunk' fuel O k k' configPath cs service service' name c Hs Hd Hconf Hlast) as (e & ix & Hm & [_ Hgood] & Hb & Ei & Ec & _ & Hw). pose proof Hs as (HL & Hrb & Hrw & Hg & Ho).
  assert (0 <= limit) as Hlim by (destruct Hp as [[_ ->]|[_ H]]; lia).
  apply (P_Handlers.C82_autocomplete_partial bf ftext etext rb srt g ord lowr [(name, Handlers.mkLoaded ix words (tokenizer_of asort c))] name (tokenizer_of asort c) words query tk limit Hrb Hrw Hg Ho Hsrt Hft) with (sched := sched); try assumption.
  - exists ""%string, ix. split; [cbn [mget]; rewrite (eqb_refl _ beqb_ok); reflexivity|]. auto.
  - rewrite <- Hout. apply (C66_topk_param tk defaultTopK limit ltac:(unfold defaultTopK; lia)) in Hp. unfold Handlers.autocomplete_handle, autocomplete_request, autocomplete_limit. rewrite Hp. f_equal. unfold Handlers.SvcAutocomplete, served_autocomplete. cbn [mget]. rewrite (eqb_refl _ beqb_ok), Hm. cbn [Handlers.l_index Handlers.l_words Handlers.l_conf].
    destruct e as [[x ws|x recs] d]; cbn [e_opened e_conf] in *; subst x d.
    + destruct Hgood as [-> _]. reflexivity.
    + symmetry. exact (C74_disc_autocomplete_partial L rb srt g ord "" lowr (tokenizer_of asort c) words recs ix query limit Hrb Hrw Hg Ho Hsrt (or_introl Hdict) Hb (proj2 Hgood) Nq Hq Hlim sched).
Qed.
Print Assumptions C93_autocomplete_partial.
(** A suggest request: the entries of the source a top-k search should give (as in C71), with
    their scores. *)
Theorem C93_suggest_partial : forall L rb srt g ord lowr asort chunk chunk' fuel O pf bf ftext etext k k' configPath cs service service' name c query tk mt sm topK m alpha,
  sound L rb g ord -> sorter_ok srt -> P_Handlers.parses_valid pf -> P_Handlers.writes_numbers ftext ->
  deployed L rb g ord lowr asort chunk fuel O k configPath cs k' ->
  configure_service rb g ord (ToLower lowr) asort chunk' fuel k' configPath service = Ret service' ->
  last_named cs name c -> P_Handlers.suggest_params pf tk mt sm topK m alpha -> alpha_ok alpha ->
  let d := tokenizer_of asort c in
  let words := entries (text_at k (source_path c)) in
  let q := entry_grams lowr d query in
  dictionary_ok lowr d words -> NoDup q -> 1 <= zlen q <= 65535 -> (m = Overlap -> zlen q <= 32767) ->
  (exists w, In w words /\ MinY m alpha (zlen q) <= zlen (entry_grams lowr d w)) ->
  forall sched out, suggest_request L rb srt (ToLower lowr) pf bf ftext etext service' name query tk mt sm sched = Some out ->
  let score := fun i => gram_score lowr d m q (entry_at words i) in
  let sim := fun i => gram_similarity lowr d m q (entry_at words i) in
  exists ids body, out = Handlers.Sent (Handlers.mkResp 200 (bs "application/json") body) /\
    read_array (read_item (bs "Score") (bs "Value")) body = Some (map (fun i => (ftext (score i), entry_at words i)) ids) /\
    zlen ids <= topK /\ NoDup ids /\ (forall i, In i ids -> 0 <= i < zlen words) /\ best_first score ids /\
    (forall i, In i ids -> (sim i >= val alpha * (1 - / 2 ^ 46))%R) /\
    (forall i, 0 <= i < zlen words -> 1 <= zlen (entry_grams lowr d (entry_at words i)) -> (m = Overlap -> zlen (entry_grams lowr d (entry_at words i)) <= 32767) ->
       (sim i >= val alpha * (1 + / 2 ^ 46))%R ->
       In i ids \/ (zlen ids = topK /\ forall j, In j ids -> (sim i <= val (score j) * (1 + / 2 ^ 46) + / 2 ^ 50)%R)).
Proof.
  intros L rb srt g ord lowr asort chunk chunk' fuel O pf bf ftext etext k k' configPath cs service service' name c query tk mt sm topK m alpha Hs Hsrt Hpf Hft Hd Hconf Hlast Hp Ha d words q Hdict Nq Hq Hov Hlong sched out Hout.
  destruct (held L rb g ord lowr asort chunk chunk' fuel O k k' configPath cs service service' name c Hs Hd Hconf Hlast) as (e & ix & Hm & [_ Hgood] & Hb & Ei & Ec & _ & Hw). pose proof Hs as (HL & Hrb & Hrw & Hg & Ho).
  assert (1 <= topK) as Hk by (destruct Hp as ([[_ ->]|[_ H]] & _); lia).
  apply (P_Handlers.C82_suggest_partial pf bf ftext etext rb srt g ord lowr [(name, Handlers.mkLoaded ix words d)] name d words query tk mt sm topK m alpha Hrb Hrw Hg Ho Hsrt Hpf Hft) with (sched := sched); try assumption.
  - exists ""%string, ix. split; [cbn [mget]; rewrite (eqb_refl _ beqb_ok); reflexivity|]. auto.
  - rewrite <- Hout. pose proof (proj1 (P_Handlers.params_config pf tk mt sm topK m alpha query Hpf) Hp) as Hc. unfold Handlers.suggest_handle, suggest_request. rewrite Hc. f_equal. unfold Handlers.SvcSuggest, served_suggest. cbn [mget]. rewrite (eqb_refl _ beqb_ok), Hm. cbn [Handlers.l_index Handlers.l_words Handlers.l_conf c_query c_similarity c_metric c_topK].
    destruct e as [[x ws|x recs] d0]; cbn [e_opened e_conf] in *; subst x d0.
    + destruct Hgood as [-> _]. reflexivity.
    + symmetry. exact (C74_disc_suggest_partial L rb srt g ord "" lowr d words recs ix query m alpha topK Hrb Hrw Hg Ho Hsrt (or_introl Hdict) Hb (proj2 Hgood) Nq Hq Hov Ha Hk Hlong sched).
Qed.
Print Assumptions C93_suggest_partial.

(** The command does succeed: the files can be written, the PID file is the server's, the server
    answers "OK". *)
Theorem C93_succeeds_partial : forall L rb g ord lowr asort chunk fuel O pidPath host pid k configPath cs k' notes r,
  sound L rb g ord -> config_says k configPath cs -> coherent asort configPath cs ->
  (forall c, In c cs -> k (source_path c) <> None /\ source_ok rb g ord lowr asort fuel (text_at k (source_path c)) c) ->
  (forall d, In d (jobs asort cs) -> writable O d) ->
  (pidPath <> [] -> k pidPath = Some (pid_file pid) /\ 0 < pid < 2 ^ 31 /\ o_kill O pid = None /\ forall d, In d (jobs asort cs) -> ~ In pidPath (files_of d)) ->
  (host <> [] -> o_post O host = Ret (bs "OK")) ->
  indexer_command L rb g ord (ToLower lowr) asort chunk fuel O [] pidPath host configPath k = (k', notes, r) ->
  r = Ret tt /\ deployed L rb g ord lowr asort chunk fuel O k configPath cs k'.
Proof.
  intros L rb g ord lowr asort chunk fuel O pidPath host pid k configPath cs k' notes r (HL & Hrb & Hrw & Hg & Ho) Hsays Hco Hsrc Hw Hpid Hhost E.
  assert (r = Ret tt) as Hr.
  { pose proof E as E'. unfold indexer_command in E'. rewrite (says_read k configPath cs Hsays) in E'. cbn [bind] in E'.
    refine (proj1 (C88_succeeds_partial L rb g ord lowr chunk fuel O [] pidPath host (map (job_of asort) cs) k k' notes r pid (fun d => entries (text_at k (source_of d))) HL Hrb Hrw Hg Ho _ _ _ Hhost E')); rewrite selected_all.
    - apply Hco.
    - intros d Hd. split; [apply Hw, Hd|]. destruct (in_job asort cs d Hd) as (c' & Hc' & -> & Hdr). destruct (Hsrc c' Hc') as [_ (_ & Hf & Hdict & Hfile & Hz & _)]. split; [apply Hfile, Hdr|]. split; [exact Hdict|]. split; [exact Hf|]. intros ops b Eo Hb. apply (Hz ops b Eo). right. exact Hb.
    - exact Hpid. }
  split; [exact Hr|]. split; [exact Hsays|]. split; [exact Hco|]. split; [exact Hsrc|]. exists pidPath, host, notes, r. split; [exact E|]. left. exact Hr.
Qed.
Print Assumptions C93_succeeds_partial.

(** ** A deployment *)
Definition text93 (driver : string) : bytes := bs "[ {""name"": ""x"", ""nGramSize"": 2, ""alphabet"": [""english"", ""$""], ""source"": ""a.txt"", ""pad"": ""$"", ""wrap"": [""$"", ""$""], ""output"": ""out"", ""driver"": """ ++ bs driver ++ bs """}," ++ [10%Z]
  ++ bs "{""driver"": ""RAM"", ""name"": ""y"", ""nGramSize"": 2, ""alphabet"": [""english"", ""$""], ""source"": ""/d/a.txt"", ""pad"": ""$"", ""wrap"": [""$"", ""$""]} ]".
Definition c93 (driver : string) : IndexDescription := mkIndexDescription (bs driver) (bs "x") 2 (bs "a.txt") (bs "out") [bs "english"; bs "$"] (bs "$") (bs "$", bs "$") (bs "/d").
Definition c93_ram : IndexDescription := mkIndexDescription (bs "RAM") (bs "y") 2 (bs "/d/a.txt") [] [bs "english"; bs "$"] (bs "$") (bs "$", bs "$") (bs "/d").
Definition disk93 (driver : string) : disk := put (disk88 demo74_file) (bs "/d/config.json") (CText (text93 driver)).
Definition run93 (driver : string) := indexer_command lib74 rb4 gob1 (fun _ m => rev m) (ToLower demo71_low) (fun l => l) (fun _ => 3%nat) 100 out88 [] (bs "/pid") (bs "http://h") (bs "/d/config.json") (disk93 driver).
Definition service93 (driver : string) (k : disk) : res (list (bytes * entry)) := configure_service rb4 gob1 (fun _ m => rev m) (ToLower demo71_low) (fun l => l) (fun _ => 5%nat) 100 k (bs "/d/config.json") [].
Lemma says93 driver : driver = "DISC"%string \/ driver = "disc"%string -> config_says (disk93 driver) (bs "/d/config.json") [c93 driver; c93_ram].
Proof.
  intros Hd. assert (exists j, parse (text93 driver) = Some j /\ configured (bs "/d") j = Some [c93 driver; c93_ram] /\ plain_config j) as (j & E & Hc & Hp).
  { destruct Hd as [-> | ->]; (match goal with |- context [parse ?t] => destruct (parse t) as [j|] eqn:E; [|vm_compute in E; discriminate] end); exists j; vm_compute in E; injection E as <-; (split; [reflexivity|]; split; [vm_compute; reflexivity|]);
    cbn [plain_config]; repeat (apply Forall_cons; [try exact I|]); try apply Forall_nil;
    apply distinct_nodup; match goal with |- NoDup ?t => let v := eval vm_compute in t in change t with v end; repeat apply NoDup_cons; try apply NoDup_nil; cbn; intuition discriminate. }
  exists (text93 driver), j. split; [reflexivity|]. split; [|split; [exact E|split; [exact Hp|exact Hc]]].
  rewrite Forall_forall. intros x Hx. assert (forallb (fun c => (0 <=? c) && (c <? 256)) (text93 driver) = true)%Z as H by (destruct Hd as [-> | ->]; vm_compute; reflexivity). rewrite forallb_forall in H. specialize (H x Hx). unfold is_byte. lia.
Qed.
Lemma source93 c : c = c93 "DISC" \/ c = c93_ram -> disk93 "DISC" (source_path c) <> None /\ source_ok rb4 gob1 (fun _ m => rev m) demo71_low (fun l => l) 100 (text_at (disk93 "DISC") (source_path c)) c.
Proof.
  intros Hc. assert (text_at (disk93 "DISC") (source_path c) = demo74_file /\ disk93 "DISC" (source_path c) <> None /\ tokenizer_of (fun l => l) c = demo71_conf) as (-> & Hn & Ht) by (destruct Hc as [-> | ->]; (split; [vm_compute; reflexivity|]; split; [vm_compute; discriminate|reflexivity])).
  split; [exact Hn|]. pose proof demo74_ok as Hf. pose proof Hf as (Hw & Hl & _). unfold source_ok. fold (entries demo74_file) in Hw. rewrite <- Hw, Ht. split; [exact Hl|]. split; [vm_compute; lia|]. split; [left; exact demo71_ok|]. split; [intros _; exact Hf|]. split.
  - intros ops b E Hb.
    assert (match IndexDictionary rb4 gob1 (fun _ m => rev m) ".dl" ".hd" 0 (ToLower demo71_low) demo71_conf demo71_words with Ret ops => match fs_open (fs_run NewFSDirectory ops) ".dl", ram_open (ram_run NewRAMDirectory ops) ".dl" with Some b, Some b' => (zlen b <? 2 ^ 32) && (zlen b' <? 2 ^ 32) | _, _ => false end | _ => false end = true) as H by (vm_compute; reflexivity).
    rewrite E in H. destruct (fs_open (fs_run NewFSDirectory ops) ".dl") as [b1|]; [|discriminate]. destruct (ram_open (ram_run NewRAMDirectory ops) ".dl") as [b2|]; [|discriminate]. apply andb_true_iff in H. destruct Hb as [Hb|Hb]; injection Hb as <-; lia.
  - destruct P_Handlers.C82_holds as (_ & _ & _ & _ & _ & H). exact H.
Qed.
Lemma coherent93 : coherent (fun l => l) (bs "/d/config.json") [c93 "DISC"; c93_ram].
Proof.
  split; [intros c [<- |[<- |[]]]; [left|right]; reflexivity|]. assert (jobs (fun l => l) [c93 "DISC"; c93_ram] = [job_of (fun l => l) (c93 "DISC")]) as -> by reflexivity. split; [split|].
  - repeat constructor.
  - intros d d' [<- |[]] [<- |[]] H. vm_compute in H. intuition discriminate.
  - intros d [<- |[]]. split; [intros H; vm_compute in H; intuition discriminate|]. intros c [<- |[<- |[]]] H; vm_compute in H; intuition discriminate.
Qed.
Definition disk93_after : disk := fst (fst (run93 "DISC")).
Example C93_nonvacuous : sound lib74 rb4 gob1 (fun _ m => rev m) /\
  deployed lib74 rb4 gob1 (fun _ m => rev m) demo71_low (fun l => l) (fun _ => 3%nat) 100 out88 (disk93 "DISC") (bs "/d/config.json") [c93 "DISC"; c93_ram] disk93_after /\
  last_named [c93 "DISC"; c93_ram] (bs "x") (c93 "DISC") /\ last_named [c93 "DISC"; c93_ram] (bs "y") c93_ram /\
  forall c, c = c93 "DISC" \/ c = c93_ram -> dictionary_ok demo71_low (tokenizer_of (fun l => l) c) (entries (text_at (disk93 "DISC") (source_path c))).
Proof.
  split; [split; [exact lib74_ok|]; split; [exact rb4_ok|]; split; [exact rb4_written|]; split; [exact gob1_ok|exact order_rev]|]. split; [|split; [|split]].
  - destruct (run93 "DISC") as [[k' notes] r] eqn:E. assert (disk93_after = k') as -> by (unfold disk93_after; rewrite E; reflexivity).
    refine (proj2 (C93_succeeds_partial lib74 rb4 gob1 _ demo71_low _ _ 100 out88 (bs "/pid") (bs "http://h") 4711 (disk93 "DISC") (bs "/d/config.json") _ k' notes r _ (says93 "DISC" (or_introl eq_refl)) coherent93 _ _ _ _ E)).
    + split; [exact lib74_ok|]; split; [exact rb4_ok|]; split; [exact rb4_written|]; split; [exact gob1_ok|exact order_rev].
    + intros c Hc. apply source93. destruct Hc as [<- |[<- |[]]]; auto.
    + intros d Hd. assert (jobs (fun l => l) [c93 "DISC"; c93_ram] = [job_of (fun l => l) (c93 "DISC")]) as Ej by reflexivity. rewrite Ej in Hd. destruct Hd as [<- |[]]. split; [intros; reflexivity|reflexivity].
    + intros _. split; [reflexivity|]. split; [lia|]. split; [reflexivity|]. intros d Hd. assert (jobs (fun l => l) [c93 "DISC"; c93_ram] = [job_of (fun l => l) (c93 "DISC")]) as Ej by reflexivity. rewrite Ej in Hd. destruct Hd as [<- |[]]. intros H. vm_compute in H. intuition discriminate.
    + intros _. reflexivity.
  - exists [], [c93_ram]. split; [reflexivity|]. split; [reflexivity|]. intros c [<- |[]]. discriminate.
  - exists [c93 "DISC"], []. split; [reflexivity|]. split; [reflexivity|]. intros c [].
  - pose proof demo74_ok as (Hw & _). fold (entries demo74_file) in Hw. intros c Hc. assert (text_at (disk93 "DISC") (source_path c) = demo74_file /\ tokenizer_of (fun l => l) c = demo71_conf) as (-> & ->) by (destruct Hc as [-> | ->]; (split; [vm_compute; reflexivity|reflexivity])).
    rewrite <- Hw. exact demo71_ok.
Qed.
(** The deployed server answers the same under both names. *)
Definition asked93 (name : string) : option Handlers.outcome :=
  match service93 "DISC" disk93_after with
  | Ret s => autocomplete_request lib74 rb4 (fun l => l) (ToLower demo71_low) false (fun x => bs "0") (fun _ => bs "error") s (bs name) (bs "A") (bs "2") (demo73_sched (bs "A"))
  | _ => None
  end.
Example C93_answers : let body := bs "[{""Score"":0,""Value"":""Abc""},{""Score"":0,""Value"":""ab""}]" in
  asked93 "x" = Some (Handlers.Sent (Handlers.mkResp 200 (bs "application/json") body)) /\ asked93 "y" = asked93 "x".
Proof. split; vm_compute; reflexivity. Qed.
(** Requests with bad parameters are refused with status 400, and no others. *)
Theorem C93_refused : forall L rb srt lower pf bf ftext etext service dict query tk mt sm sched sched', P_Handlers.parses_valid pf ->
  (P_Handlers.answered (suggest_request L rb srt lower pf bf ftext etext service dict query tk mt sm sched) 400 <-> ~ exists k m x, P_Handlers.suggest_params pf tk mt sm k m x) /\
  (P_Handlers.answered (autocomplete_request L rb srt lower bf ftext etext service dict query tk sched') 400 <-> ~ exists k, P_Handlers.count_param tk 0 k).
Proof.
  intros L rb srt lower pf bf ftext etext service dict query tk mt sm sched sched' Hpf. split.
  - unfold suggest_request. destruct (P_Handlers.build_total pf query tk mt sm) as (r & E & [(c & ->)|(e & ->)]); rewrite E.
    + assert (exists k m x, P_Handlers.suggest_params pf tk mt sm k m x) as Hp.
      { exists (c_topK c), (c_metric c), (c_similarity c). apply (P_Handlers.params_config pf tk mt sm _ _ _ query Hpf). pose proof (proj1 (C66_suggest_request pf query tk mt sm c Hpf) E) as (_ & _ & _ & Hq). rewrite E. destruct c as [q k m x]. cbn in *. subst q. reflexivity. }
      split; [|contradiction]. intros (r & Hr & Hs). exfalso. unfold Handlers.when_done in Hr. destruct (served_suggest _ _ _ _ _ _ _ _) as [a|]; [|discriminate]. injection Hr as Hr. unfold Handlers.respond in Hr.
      destruct a as [items|e| |]; [|unfold Handlers.http_error in Hr; injection Hr as <-; discriminate|discriminate|discriminate]. destruct (MarshalItems bf ftext items); try discriminate; injection Hr as <-; discriminate.
    + assert (~ exists k m x, P_Handlers.suggest_params pf tk mt sm k m x) as Hp by (intros (k & m & x & H); apply (P_Handlers.params_config pf tk mt sm _ _ _ query Hpf) in H; congruence).
      split; [intros _; exact Hp|]. intros _; unfold P_Handlers.answered, Handlers.http_error. eexists; split; reflexivity.
  - unfold autocomplete_request. pose proof (fun k => C66_topk_param tk defaultTopK k ltac:(unfold defaultTopK; lia)) as H. unfold autocomplete_limit, P_Handlers.count_param. unfold defaultTopK in *.
    destruct (FormTopKValue tk 5) as [k|e| |] eqn:E.
    + pose proof (proj1 (H k) eq_refl) as Hk. split; [|intros Hn; exfalso; apply Hn; exists k; exact Hk]. intros (r & Hr & Hs). exfalso. unfold Handlers.when_done in Hr. destruct (served_autocomplete _ _ _ _ _ _ _ _ _) as [a|]; [|discriminate]. injection Hr as Hr. unfold Handlers.respond in Hr.
      destruct a as [items|e| |]; [|unfold Handlers.http_error in Hr; injection Hr as <-; discriminate|discriminate|discriminate]. destruct (MarshalItems bf ftext items); try discriminate; injection Hr as <-; discriminate.
    + split; [|intros _; unfold P_Handlers.answered, Handlers.http_error; eauto]. intros _ (k & Hk). apply H in Hk. discriminate.
    + exfalso. revert E. clear. destruct (P_Handlers.build_total (fun _ => None) [] tk (bs "Cosine") []) as (r & E & H). unfold buildSearchConfig in E. unfold defaultTopK in E. intros E'. rewrite E' in E. cbn [bind] in E. subst r. destruct H as [[? H]|[? H]]; discriminate.
    + exfalso. revert E. clear. destruct (P_Handlers.build_total (fun _ => None) [] tk (bs "Cosine") []) as (r & E & H). unfold buildSearchConfig in E. unfold defaultTopK in E. intros E'. rewrite E' in E. cbn [bind] in E. subst r. destruct H as [[? H]|[? H]]; discriminate.
Qed.
Print Assumptions C93_refused.
(** A request for a name that no description has is answered with status 500 if its parameters
    are right: it is never answered with an empty list. *)
Theorem C93_unknown_name : forall L rb srt g ord lowr asort chunk fuel pf bf ftext etext k configPath cs service name query tk mt sm sched sched',
  P_Handlers.parses_valid pf -> config_says k configPath cs -> configure_service rb g ord (ToLower lowr) asort chunk fuel k configPath [] = Ret service -> ~ In name (map i_name cs) ->
  ((exists n m x, P_Handlers.suggest_params pf tk mt sm n m x) -> P_Handlers.fails (suggest_request L rb srt (ToLower lowr) pf bf ftext etext service name query tk mt sm sched) 500 etext) /\
  ((exists n, P_Handlers.count_param tk 0 n) -> P_Handlers.fails (autocomplete_request L rb srt (ToLower lowr) bf ftext etext service name query tk sched') 500 etext).
Proof.
  intros L rb srt g ord lowr asort chunk fuel pf bf ftext etext k configPath cs service name query tk mt sm sched sched' Hpf Hsay Hs Hn.
  unfold configure_service in Hs. rewrite (says_read _ _ _ Hsay) in Hs. cbn [bind] in Hs. destruct (add_all_get _ _ _ _ _ _ _ _ _ _ _ Hs) as (_ & _ & Hm & _). specialize (Hm name Hn). change (mget beqb [] name) with (@None entry) in Hm. split.
  - intros (n & m & x & Hp). apply (P_Handlers.params_config pf tk mt sm _ _ _ query Hpf) in Hp. unfold suggest_request. rewrite Hp. unfold served_suggest. rewrite Hm. eexists. reflexivity.
  - intros (n & Hp). pose proof (proj2 (C66_topk_param tk defaultTopK n ltac:(unfold defaultTopK; lia)) Hp) as Hf. unfold autocomplete_request, autocomplete_limit. unfold defaultTopK in *. rewrite Hf. unfold served_autocomplete. rewrite Hm. eexists. reflexivity.
Qed.
Print Assumptions C93_unknown_name.
Example C93_unknown_name_nonvacuous : config_says disk93_after (bs "/d/config.json") [c93 "DISC"; c93_ram] /\ ~ In (bs "z") (map i_name [c93 "DISC"; c93_ram]) /\
  (exists s, service93 "DISC" disk93_after = Ret s) /\ P_Handlers.count_param (bs "2") 0 2 /\ asked93 "z" = Some (Handlers.Sent (Handlers.mkResp 500 (bs "text/plain; charset=utf-8") (bs "error" ++ [10]))).
Proof.
  split; [|split; [cbn; intuition discriminate|split; [|split; [right; split; [exists (bs "2"); split; [discriminate|]; split; [repeat constructor; cbn; lia|left; split; [left; reflexivity|reflexivity]]|lia]|vm_compute; reflexivity]]]].
  - assert (disk93_after (bs "/d/config.json") = disk93 "DISC" (bs "/d/config.json")) as E by (vm_compute; reflexivity).
    destruct (says93 "DISC" (or_introl eq_refl)) as (text & j & H1 & H2). exists text, j. rewrite E. split; [exact H1|exact H2].
  - assert (match service93 "DISC" disk93_after with Ret _ => true | _ => false end = true) as E by (vm_compute; reflexivity). destruct (service93 "DISC" disk93_after) as [x| | |]; try discriminate E. exists x. reflexivity.
Qed.
(** Without a configuration file the indexer changes nothing and notifies no one, and no server
    starts. *)
Theorem C93_no_configuration : forall L rb g ord lower asort chunk fuel O dict pidPath host configPath k, k configPath = None ->
  (exists e, indexer_command L rb g ord lower asort chunk fuel O dict pidPath host configPath k = (k, [], Fail e)) /\
  forall service, exists e, configure_service rb g ord lower asort chunk fuel k configPath service = Fail e.
Proof.
  intros L rb g ord lower asort chunk fuel O dict pidPath host configPath k Hk.
  assert (exists e, read_configs k configPath = Fail e) as (e & He) by (unfold read_configs, read_text; rewrite Hk; eexists; reflexivity). split.
  - unfold indexer_command. rewrite He. eexists. reflexivity.
  - intros service. unfold configure_service. rewrite He. eexists. reflexivity.
Qed.
Print Assumptions C93_no_configuration.
(** The tokenizer both programs use is the one described: n-grams of the size given, the two
    texts put before and behind, and every character that is in none of the alphabets named
    replaced by the padding. *)
Theorem C93_as_described : forall asort c, (forall l, Permutation l (asort l)) -> let d := tokenizer_of asort c in
  t_n d = i_ngram c /\ t_wrap0 d = fst (i_wrap c) /\ t_wrap1 d = snd (i_wrap c) /\ t_pad d = i_pad c /\
  forall r, t_has d r = true <-> exists s, In s (i_alphabet c) /\
    (s = bs "english" /\ 97 <= r <= 122 \/ s = bs "numbers" /\ 48 <= r <= 57 \/ s = bs "russian" /\ (1072 <= r <= 1103 \/ r = 1105) \/
     s <> bs "english" /\ s <> bs "numbers" /\ s <> bs "russian" /\ In r (map fst (runes s))).
Proof. intros asort c Hs. repeat (split; [reflexivity|]). intros r. apply (P_Analysis.C65_described asort (i_alphabet c) r Hs). Qed.
Print Assumptions C93_as_described.
(** A driver the documentation does not know, here one in small letters, is none of the indexer's
    business but one of the server's: the indexer leaves the description alone, succeeds and
    signals the server, which then does not find the files. *)
Theorem C93_driver_refuted : config_says (disk93 "disc") (bs "/d/config.json") [c93 "disc"; c93_ram] /\
  snd (run93 "disc") = Ret tt /\ snd (fst (run93 "disc")) = [Signalled 4711; Posted (bs "http://h")] /\ (forall p, fst (fst (run93 "disc")) p = disk93 "disc" p) /\
  exists e, service93 "disc" (fst (fst (run93 "disc"))) = Fail e.
Proof.
  split; [apply says93; auto|]. assert (run93 "disc" = (disk93 "disc", [Signalled 4711; Posted (bs "http://h")], Ret tt)) as E.
  { unfold run93, indexer_command. rewrite (says_read _ _ _ (says93 "disc" (or_intror eq_refl))). cbn [bind]. reflexivity. }
  rewrite E. cbn [fst snd]. split; [reflexivity|]. split; [reflexivity|]. split; [reflexivity|]. eexists. unfold service93, configure_service. rewrite (says_read _ _ _ (says93 "disc" (or_intror eq_refl))). cbn [bind]. vm_compute. reflexivity.
Qed.
Print Assumptions C93_driver_refuted.
(** A description without an n-gram size is accepted; opening it ends the process. *)
Theorem C93_size_refuted : exists c k, i_ngram c = 0 /\ config_says k (bs "/d/config.json") [c] /\ service93 "" k = Panic.
Proof.
  set (text := bs "[{""driver"": ""RAM"", ""name"": ""y"", ""source"": ""a.txt""}]").
  set (k := put (disk88 demo74_file) (bs "/d/config.json") (CText text)).
  exists (mkIndexDescription (bs "RAM") (bs "y") 0 (bs "a.txt") [] [] [] ([], []) (bs "/d")), k. split; [reflexivity|]. split; [|vm_compute; reflexivity].
  destruct (parse text) as [j|] eqn:E; [|vm_compute in E; discriminate]. exists text, j. split; [reflexivity|]. split; [|split; [exact E|]].
  - rewrite Forall_forall. intros x Hx. assert (forallb (fun c => (0 <=? c) && (c <? 256)) text = true)%Z as H by (vm_compute; reflexivity). rewrite forallb_forall in H. specialize (H x Hx). unfold is_byte. lia.
  - vm_compute in E. injection E as <-. split; [|vm_compute; reflexivity]. cbn [plain_config]. apply Forall_cons; [|apply Forall_nil]. apply distinct_nodup. match goal with |- NoDup ?t => let v := eval vm_compute in t in change t with v end. repeat apply NoDup_cons; try apply NoDup_nil; cbn; intuition discriminate.
Qed.
Print Assumptions C93_size_refuted.
