(** C97: killing the indexer command. *)
From Coq Require Import String ZifyBool Permutation Sorted Lia Reals.
From Verif Require Import Base BaseLemmas GoMap Store StoreSpec Postings PostingsSpec PostingsDrive P_PostingsLemmas Merger MergerSpec P_MergerLemmas Index IndexSpec IndexProofs IndexProofs2 P_IndexLemmas Text AnalysisSpec Analysis Decimal Scanner ScannerSpec
  Mph Float64 Metric MetricSpec FloatProofs MetricFloat MetricWide TopK Suggest SuggestSpec P_Suggest Autocomplete AutocompleteSpec Http HttpSpec P_Http NGramIndex NGramIndexSpec NGramIndexProofs P_NGramIndex NGramIndexAnySpec NGramIndexAny P_RepeatedDict CdbDict CdbDictSpec P_Cdb Paths PathsSpec
  JsonSpec Json P_Json Config ConfigSpec P_Config P_Scanner Indexer IndexerSpec P_Indexer Deploy DeploySpec P_Deploy P_DeployAny IndexerKill KillProofs1 KillProofs2.
From Verif Require P_Index P_Analysis Handlers P_Handlers.
Local Open Scope Z_scope.
Local Notation length := List.length.

(** ** Vocabulary *)
(** An attempt to run the command, killed at some point or not, whatever its options and
    whatever the outside does. *)
Inductive attempt (configPath : bytes) (k k1 : disk) : Prop :=
| attempt_killed L rb g ord lower asort chunk fuel O dict : killed_command L rb g ord lower asort chunk fuel O dict configPath k k1 -> attempt configPath k k1
| attempt_ended L rb g ord lower asort chunk fuel O dict pidPath host notes r : indexer_command L rb g ord lower asort chunk fuel O dict pidPath host configPath k = (k1, notes, r) -> attempt configPath k k1.
Inductive attempts (configPath : bytes) : disk -> disk -> Prop :=
| no_attempt k : attempts configPath k k
| one_more k k1 k2 : attempt configPath k k1 -> attempts configPath k1 k2 -> attempts configPath k k2.

Lemma selected_in dict ds d : In d (on_disc (selected dict ds)) -> In d (on_disc ds).
Proof. intros H. apply on_disc_in in H. destruct H as [H Hd]. apply on_disc_in. split; [|exact Hd]. unfold selected in H. apply filter_In in H. apply H. Qed.
Lemma same_files asort asort' cs d : In d (on_disc (map (job_of asort) cs)) -> exists d', In d' (on_disc (map (job_of asort') cs)) /\ files_of d' = files_of d.
Proof.
  intros H. apply on_disc_in in H. destruct H as [H Hd]. apply in_map_iff in H. destruct H as (c & <- & Hc). exists (job_of asort' c). split; [|reflexivity]. apply on_disc_in. split; [apply in_map, Hc|exact Hd].
Qed.
Lemma attempt_frame asort configPath k k1 cs : attempt configPath k k1 -> read_configs k configPath = Ret cs -> forall p, (forall d, In d (jobs asort cs) -> ~ In p (files_of d)) -> k1 p = k p.
Proof.
  intros Ha Hr p Hp. assert (forall asort' dict d, In d (on_disc (selected dict (map (job_of asort') cs))) -> ~ In p (files_of d)) as Hp'.
  { intros asort' dict d Hd. apply selected_in in Hd. destruct (same_files asort' asort cs d Hd) as (d' & Hd' & <-). exact (Hp d' Hd'). }
  destruct Ha as [L rb g ord lower asort' chunk fuel O dict H|L rb g ord lower asort' chunk fuel O dict pidPath host notes r E].
  - unfold killed_command in H. rewrite Hr in H. cbn [bind killed_indexer] in H. apply (killed_jobs_frame _ _ _ _ _ _ _ _ _ _ _ _ H). intros d Hd. exact (Hp' _ _ _ Hd).
  - unfold indexer_command in E. rewrite Hr in E. cbn [bind] in E. apply (C88_untouched _ _ _ _ _ _ _ _ _ _ _ _ _ _ _ _ E). intros ds d Hds Hd. injection Hds as <-. exact (Hp' _ _ _ Hd).
Qed.

(** ** C97 *)
(** However often the command was killed or failed before, only the files of the dictionaries on
    disc are changed: the configuration says the same and the sources are as they were. *)
Theorem C97_untouched : forall asort configPath cs k k1,
  config_says k configPath cs -> coherent asort configPath cs -> attempts configPath k k1 ->
  config_says k1 configPath cs /\ (forall c, In c cs -> k1 (source_path c) = k (source_path c)) /\ forall p, (forall d, In d (jobs asort cs) -> ~ In p (files_of d)) -> k1 p = k p.
Proof.
  intros asort configPath cs k k1 Hs Hco Ha. assert (config_says k1 configPath cs /\ forall p, (forall d, In d (jobs asort cs) -> ~ In p (files_of d)) -> k1 p = k p) as [H1 H2].
  { revert Hs. induction Ha as [k|k k1 k2 Ha Hr IH]; intros Hs; [auto|]. pose proof (attempt_frame asort configPath k k1 cs Ha (says_read k configPath cs Hs)) as Hf.
    destruct IH as [H1 H2].
    - destruct Hs as (text & j & Hk & Hrest). exists text, j. split; [|exact Hrest]. rewrite Hf; [exact Hk|]. intros d Hd. apply (proj2 (proj2 Hco) d Hd).
    - split; [exact H1|]. intros p Hp. rewrite H2 by exact Hp. apply Hf, Hp. }
  split; [exact H1|]. split; [|exact H2]. intros c Hc. apply H2. intros d Hd. apply (proj2 (proj2 Hco) d Hd), Hc.
Qed.
Print Assumptions C97_untouched.
(** Running the command again to the end repairs everything: it leaves, file by file, the same disk as a
    run that no attempt had gone before, and gives the same notices. *)
Theorem C97_rerun : forall L rb g ord lower asort chunk fuel O pidPath host configPath cs k k1 k2 notes,
  config_says k configPath cs -> coherent asort configPath cs -> attempts configPath k k1 ->
  indexer_command L rb g ord lower asort chunk fuel O [] pidPath host configPath k = (k2, notes, Ret tt) ->
  exists k3, indexer_command L rb g ord lower asort chunk fuel O [] pidPath host configPath k1 = (k3, notes, Ret tt) /\ forall p, k3 p = k2 p.
Proof.
  intros L rb g ord lower asort chunk fuel O pidPath host configPath cs k k1 k2 notes Hs Hco Ha E. destruct (C97_untouched asort configPath cs k k1 Hs Hco Ha) as (Hs1 & _ & Hk).
  unfold indexer_command in *. rewrite (says_read _ _ _ Hs) in E. rewrite (says_read _ _ _ Hs1). cbn [bind] in *.
  apply (again_indexer L rb g ord lower chunk fuel O pidPath host (map (job_of asort) cs) k k1 k2 notes E Hk). exact (proj2 (proj1 (proj2 Hco))).
Qed.
Print Assumptions C97_rerun.
(** So the server can be deployed (C93) after any history of attempts, over the same sources. *)
Theorem C97_deploys_partial : forall L rb g ord lowr asort chunk fuel O pidPath host pid k k1 configPath cs k' notes r,
  sound L rb g ord -> config_says k configPath cs -> coherent asort configPath cs ->
  (forall c, In c cs -> k (source_path c) <> None /\ source_ok rb g ord lowr asort fuel (text_at k (source_path c)) c) ->
  (forall d, In d (jobs asort cs) -> writable O d) ->
  (pidPath <> [] -> k pidPath = Some (pid_file pid) /\ 0 < pid < 2 ^ 31 /\ o_kill O pid = None /\ forall d, In d (jobs asort cs) -> ~ In pidPath (files_of d)) ->
  (host <> [] -> o_post O host = Ret (bs "OK")) ->
  attempts configPath k k1 ->
  indexer_command L rb g ord (ToLower lowr) asort chunk fuel O [] pidPath host configPath k1 = (k', notes, r) ->
  r = Ret tt /\ deployed L rb g ord lowr asort chunk fuel O k1 configPath cs k' /\ forall c, In c cs -> entries (text_at k1 (source_path c)) = entries (text_at k (source_path c)).
Proof.
  intros L rb g ord lowr asort chunk fuel O pidPath host pid k k1 configPath cs k' notes r Hso Hs Hco Hsrc Hw Hpid Hhost Ha E. destruct (C97_untouched asort configPath cs k k1 Hs Hco Ha) as (Hs1 & Hsrc1 & Hk).
  assert (forall c, In c cs -> text_at k1 (source_path c) = text_at k (source_path c)) as Ht by (intros c Hc; unfold text_at; rewrite Hsrc1 by exact Hc; reflexivity).
  destruct (C93_succeeds_partial L rb g ord lowr asort chunk fuel O pidPath host pid k1 configPath cs k' notes r Hso Hs1 Hco) as [Hr Hd]; try assumption.
  - intros c Hc. rewrite Hsrc1, Ht by exact Hc. exact (Hsrc c Hc).
  - intros Hne. destruct (Hpid Hne) as (H1 & H2 & H3 & H4). rewrite Hk by exact H4. auto.
  - split; [exact Hr|]. split; [exact Hd|]. intros c Hc. rewrite Ht by exact Hc. reflexivity.
Qed.
Print Assumptions C97_deploys_partial.

(** ** The first deployment *)
Section Cut.
Context (L : cdblib) (rb : roaring) (srt : list iter -> list iter) (lower : bytes -> bytes) (d : tokconf) (recs : list record) (ix1 ix : list (option inverted)) (Hc : cut_of ix1 ix).
Lemma cut_disc_suggest query alpha m topK sched r : 1 <= topK -> DiscSuggest L rb srt ix1 recs lower d query alpha m topK sched = Some r ->
  (exists e, r = Fail e) \/ DiscSuggest L rb srt ix recs lower d query alpha m topK sched = Some r \/ (exists sched', DiscSuggest L rb srt ix recs lower d query alpha m topK sched' = Some Panic).
Proof.
  intros Hk. assert (exists q0, NewTopKQueue topK = Ret q0) as (q0 & Hq) by (unfold NewTopKQueue; destruct (topK <? 0) eqn:E; [lia|eauto]).
  unfold DiscSuggest. destruct (SuggestTokenize lower d query) as [tokens|e| |]; intros E; [|right; left; exact E..]. rewrite (cut_start ix1 ix) in E by exact Hc.
  destruct (run rb srt ix1 tokens m alpha topK sched (start ix tokens m alpha topK)) as [[s|r0|]|] eqn:Er; try discriminate E; injection E as <-.
  - destruct (cut_same rb srt ix1 ix tokens m alpha topK Hc q0 Hq sched _ r0 Er) as [(e & ->)|H]; [left; exists e; reflexivity|right; left; rewrite H; reflexivity].
  - right; right. destruct (cut_run rb srt ix1 ix tokens m alpha topK Hc q0 Hq sched _ _ _ (prel_refl _) Er) as (sched' & p' & R & Hp). inversion Hp; subst p'. exists sched'. rewrite R. reflexivity.
Qed.
Lemma cut_disc_autocomplete query limit sched r : DiscAutocomplete L rb srt ix1 recs lower d query limit sched = Some r ->
  (exists e, r = Fail e) \/ DiscAutocomplete L rb srt ix recs lower d query limit sched = Some r \/ (exists sched', DiscAutocomplete L rb srt ix recs lower d query limit sched' = Some Panic).
Proof.
  unfold DiscAutocomplete. destruct (AutocompleteTokenize lower d query) as [tokens|e| |]; intros E; [|right; left; exact E..].
  destruct (arun rb srt ix1 tokens limit sched (astart tokens limit)) as [[s|r0|]|] eqn:Er; try discriminate E; injection E as <-.
  - destruct (acut_same rb srt ix1 ix tokens limit Hc sched _ r0 Er) as [(e & ->)|H]; [left; exists e; reflexivity|right; left; rewrite H; reflexivity].
  - right; right. destruct (acut_run rb srt ix1 ix tokens limit Hc sched _ _ _ (aprel_refl _) Er) as (sched' & p' & R & Hp). inversion Hp; subst p'. exists sched'. rewrite R. reflexivity.
Qed.
End Cut.
Lemma no_panic_suggest rb srt g ord lowr d words ix query m alpha topK : roaring_ok rb -> roaring_written rb -> gob_ok g -> order_ok ord -> sorter_ok srt -> indexable lowr d words -> index_built rb g ord "" lowr d words ix ->
  let q := entry_grams lowr d query in
  NoDup q -> 1 <= zlen q <= 65535 -> (m = Overlap -> zlen q <= 32767) -> alpha_ok alpha -> 1 <= topK -> (exists w, In w words /\ MinY m alpha (zlen q) <= zlen (entry_grams lowr d w)) ->
  forall sched, ServiceSuggest rb srt ix words (ToLower lowr) d query alpha m topK sched <> Some Panic.
Proof.
  intros Hrb Hrw Hg Ho Hsrt [Hd|Hd] Hb q Nq H1 H2 H3 H4 H5 sched E.
  - destruct (C71_suggest_partial rb srt g ord "" lowr d words ix query m alpha topK Hrb Hrw Hg Ho Hsrt Hd Hb Nq H1 H2 H3 H4 H5 sched _ E) as (ids & H & _). discriminate H.
  - destruct (C95_suggest_partial rb srt g ord "" lowr d words ix query m alpha topK Hrb Hrw Hg Ho Hsrt Hd Hb Nq H1 H2 H3 H4 H5 sched _ E) as (ids & H & _). discriminate H.
Qed.
Lemma no_panic_autocomplete rb srt g ord lowr d words ix query limit : roaring_ok rb -> roaring_written rb -> gob_ok g -> order_ok ord -> sorter_ok srt -> indexable lowr d words -> index_built rb g ord "" lowr d words ix ->
  let q := prefix_grams lowr d query in
  NoDup q -> 1 <= zlen q < 2 ^ 32 -> 0 <= limit ->
  forall sched, ServiceAutocomplete rb srt ix words (ToLower lowr) d query limit sched <> Some Panic.
Proof.
  intros Hrb Hrw Hg Ho Hsrt [Hd|Hd] Hb q Nq H1 H2 sched E.
  - pose proof (C73_autocomplete_partial rb srt g ord "" lowr d words ix query limit Hrb Hrw Hg Ho Hsrt Hd Hb Nq H1 H2 sched _ E) as H. discriminate H.
  - destruct (C95_autocomplete_partial rb srt g ord "" lowr d words ix query limit Hrb Hrw Hg Ho Hsrt Hd Hb Nq H1 H2 sched _ E) as (X & H & _). discriminate H.
Qed.

(** The command runs for the first time, and is killed anywhere; then a server is started. *)
Definition killed_first L rb g ord lowr asort chunk fuel O (dict : bytes) (k : disk) (configPath : bytes) (cs : list IndexDescription) (k1 : disk) : Prop :=
  config_says k configPath cs /\ coherent asort configPath cs /\ (forall c, In c cs -> k (source_path c) <> None /\ source_ok rb g ord lowr asort fuel (text_at k (source_path c)) c) /\
  (forall d, In d (jobs asort cs) -> writable O d /\ forall p, In p (files_of d) -> k p = None) /\
  killed_command L rb g ord (ToLower lowr) asort chunk fuel O dict configPath k k1.

(** If the server starts at all, everything it answers is an error or what a search of the
    complete index gives. *)
Theorem C97_first_answers_partial : forall L rb srt g ord lowr asort chunk chunk' fuel O dict k k1 configPath cs service service' name c,
  sound L rb g ord -> gob_prefix_fails g -> sorter_ok srt ->
  killed_first L rb g ord lowr asort chunk fuel O dict k configPath cs k1 ->
  configure_service rb g ord (ToLower lowr) asort chunk' fuel k1 configPath service = Ret service' -> last_named cs name c ->
  let d := tokenizer_of asort c in
  let words := entries (text_at k (source_path c)) in
  exists ix, index_built rb g ord "" lowr d words ix /\ indexable lowr d words /\ (forall w, In w words -> Forall is_byte w /\ well_formed w) /\
  (forall query m alpha topK, let q := entry_grams lowr d query in NoDup q -> 1 <= zlen q <= 65535 -> (m = Overlap -> zlen q <= 32767) -> alpha_ok alpha -> 1 <= topK ->
     (exists w, In w words /\ MinY m alpha (zlen q) <= zlen (entry_grams lowr d w)) ->
     forall sched r, served_suggest L rb srt (ToLower lowr) service' name (mkConfig query topK m alpha) sched = Some r ->
     (exists e, r = Fail e) \/ ServiceSuggest rb srt ix words (ToLower lowr) d query alpha m topK sched = Some r) /\
  (forall query limit, let q := prefix_grams lowr d query in NoDup q -> 1 <= zlen q < 2 ^ 32 -> 0 <= limit ->
     forall sched r, served_autocomplete L rb srt (ToLower lowr) service' name query limit sched = Some r ->
     (exists e, r = Fail e) \/ ServiceAutocomplete rb srt ix words (ToLower lowr) d query limit sched = Some r).
Proof.
  intros L rb srt g ord lowr asort chunk chunk' fuel O dict k k1 configPath cs service service' name c (HL & Hrb & Hrw & Hg & Ho) Hgp Hsrt (Hs & Hco & Hsrc & Hfirst & Hkill) Hconf Hlast d words.
  destruct (C97_untouched asort configPath cs k k1 Hs Hco) as (Hs1 & Hsrc1 & _). { apply (one_more configPath k k1 k1); [eapply attempt_killed; exact Hkill|constructor]. }
  unfold configure_service in Hconf. rewrite (says_read _ _ _ Hs1) in Hconf. cbn [bind] in Hconf.
  destruct (add_all_get rb g ord lowr asort chunk' fuel k1 cs _ _ Hconf) as (_ & _ & _ & H4). destruct (H4 name c Hlast) as (e & He & Hm).
  assert (In c cs) as Hc by (destruct Hlast as (a & b & -> & _); apply in_app_iff; right; left; reflexivity).
  assert (text_at k1 (source_path c) = text_at k (source_path c)) as Ht by (unfold text_at; rewrite Hsrc1 by exact Hc; reflexivity).
  destruct (Hsrc c Hc) as [Hex Hok]. pose proof Hok as (_ & Hf & Hdict & Hfile & Hz & Hw). fold d words in Hdict.
  unfold served_suggest, served_autocomplete. rewrite Hm. destruct (proj1 Hco c Hc) as [Hdr|Hdr].
  - unfold open_index in He. rewrite Hdr in He. change (beqb (bs "DISC") (bs "RAM")) with false in He. cbv iota in He. fold d in He.
    assert (partly L rb g ord lowr k1 (job_of asort c) words) as Hp.
    { unfold killed_command in Hkill. rewrite (says_read _ _ _ Hs) in Hkill. cbn [bind killed_indexer] in Hkill. pose proof (job_in asort cs c Hc Hdr) as Hj.
      destruct (beqb dict [] || beqb dict (p_name (d_place (job_of asort c)))) eqn:Hsel.
      -
        apply (jobs_partly L rb g ord lowr chunk fuel O HL Hrb Hrw Hg Hgp Ho dict k (map (job_of asort) cs) k1 Hkill (job_of asort c) words).
        + destruct (proj1 (proj2 Hco)) as [HF Hsep]. split; [|intros x y Hx Hy; apply Hsep; eapply selected_in; eassumption].
          assert (on_disc (selected dict (map (job_of asort) cs)) = selected dict (jobs asort cs)) as ->. { unfold on_disc, selected, jobs, on_disc. clear. induction (map (job_of asort) cs) as [|x l IH]; [reflexivity|]. cbn [filter]. destruct (beqb dict [] || beqb dict (p_name (d_place x))) eqn:E1, (d_disc x) eqn:E2; cbn [filter]; rewrite ?E1, ?E2, ?IH; reflexivity. }
          revert HF. clear. unfold selected. induction 1 as [|x l HF HP IH]; cbn [filter]; [constructor|]. destruct (_ || _); [|exact IH]. constructor; [|exact IH]. rewrite Forall_forall in *. intros y Hy. apply filter_In in Hy. apply HF, Hy.
        + apply on_disc_in. apply on_disc_in in Hj. split; [|apply Hj]. unfold selected. apply filter_In. split; [apply Hj|exact Hsel].
        + split; [apply Hfile, Hdr|]. split; [exact Hdict|]. split; [exact Hf|]. intros ops b Eo Hb. apply (Hz ops b Eo). right. exact Hb.
        + apply Hfirst, Hj.
        + apply Hfirst, Hj.
      - left. apply no_header. rewrite (killed_jobs_frame _ _ _ _ _ _ _ _ _ _ _ _ Hkill); [apply (Hfirst _ Hj); cbn; tauto|].
        intros d' Hd' Hin. assert (d' <> job_of asort c) as Hne. { intros ->. apply on_disc_in in Hd'. destruct Hd' as [Hd' _]. unfold selected in Hd'. apply filter_In in Hd'. destruct Hd' as [_ Hd']. cbn beta in Hd'. congruence. }
        pose proof (selected_in _ _ _ Hd') as Hd2. destruct (proj1 (proj2 Hco)) as [HF _]. destruct (ForallOrdPairs_In HF d' (job_of asort c) Hd2 Hj) as [|[Hno|Hno]]; [contradiction| |]; apply (Hno (header_path (d_place (job_of asort c)))); try exact Hin; cbn; tauto. }
    destruct Hp as [(e0 & Eo)|(recs & ix1 & ix & Eo & Hcut & Hb & Hget)]; rewrite Eo in He; [discriminate He|]. injection He as <-. exists ix. split; [exact Hb|]. split; [exact Hdict|]. split; [exact Hw|]. cbn [c_query c_similarity c_metric c_topK]. split.
    + intros query m alpha topK Nq H1 H2 H3 Hk H5 sched r E.
      pose proof (C74_disc_suggest_partial L rb srt g ord "" lowr d words recs ix query m alpha topK Hrb Hrw Hg Ho Hsrt Hdict Hb Hget Nq H1 H2 H3 Hk H5) as Hsame.
      destruct (cut_disc_suggest L rb srt (ToLower lowr) d recs ix1 ix Hcut query alpha m topK sched r Hk E) as [H|[H|(sched' & H)]]; [left; exact H|right; rewrite <- Hsame; exact H|].
      exfalso. rewrite Hsame in H. exact (no_panic_suggest rb srt g ord lowr d words ix query m alpha topK Hrb Hrw Hg Ho Hsrt Hdict Hb Nq H1 H2 H3 Hk H5 sched' H).
    + intros query limit Nq H1 H2 sched r E. pose proof (C74_disc_autocomplete_partial L rb srt g ord "" lowr d words recs ix query limit Hrb Hrw Hg Ho Hsrt Hdict Hb Hget Nq H1 H2) as Hsame.
      destruct (cut_disc_autocomplete L rb srt (ToLower lowr) d recs ix1 ix Hcut query limit sched r E) as [H|[H|(sched' & H)]]; [left; exact H|right; rewrite <- Hsame; exact H|].
      exfalso. rewrite Hsame in H. exact (no_panic_autocomplete rb srt g ord lowr d words ix query limit Hrb Hrw Hg Ho Hsrt Hdict Hb Nq H1 H2 sched' H).
  - destruct (open_ram L rb g ord lowr asort chunk' fuel Hrb Hrw Hg Ho k1 c Hdr) as (e' & He' & [Hcf Hgood]); [rewrite Hsrc1 by exact Hc; exact Hex|rewrite Ht; exact Hok|].
    rewrite He in He'. injection He' as <-. rewrite Ht in Hgood. fold words d in Hgood, Hcf. destruct e as [[ix ws|ix recs] dd]; cbn [e_opened e_conf] in *; subst dd.
    2:{ exfalso. unfold open_index in He. rewrite Hdr in He. change (beqb (bs "RAM") (bs "RAM")) with true in He. cbv iota in He. destruct (k1 (GetSourcePath (place_of c))); [|discriminate He]. destruct (RAMBuild _ _ _ _ _ _ _); discriminate He. }
    destruct Hgood as [-> Hb]. exists ix. split; [exact Hb|]. split; [exact Hdict|]. split; [exact Hw|]. cbn [c_query c_similarity c_metric c_topK]. split; intros; right; assumption.
Qed.
Print Assumptions C97_first_answers_partial.
(** As a request to the server: the answer is an error with status 500, or is as C93 says. *)
Theorem C97_first_autocomplete_partial : forall L rb srt g ord lowr asort chunk chunk' fuel O bf ftext etext dict k k1 configPath cs service service' name c query tk limit,
  sound L rb g ord -> gob_prefix_fails g -> sorter_ok srt -> P_Handlers.writes_numbers ftext ->
  killed_first L rb g ord lowr asort chunk fuel O dict k configPath cs k1 ->
  configure_service rb g ord (ToLower lowr) asort chunk' fuel k1 configPath service = Ret service' ->
  last_named cs name c -> P_Handlers.count_param tk 0 limit ->
  let words := entries (text_at k (source_path c)) in
  let q := prefix_grams lowr (tokenizer_of asort c) query in
  dictionary_ok lowr (tokenizer_of asort c) words -> NoDup q -> 1 <= zlen q < 2 ^ 32 ->
  forall sched out, autocomplete_request L rb srt (ToLower lowr) bf ftext etext service' name query tk sched = Some out ->
  (exists e, out = Handlers.http_error etext e 500) \/
  exists body, out = Handlers.Sent (Handlers.mkResp 200 (bs "application/json") body) /\
    read_array (read_item (bs "Score") (bs "Value")) body = Some (map (fun i => (ftext (of_int 0), entry_at words i)) (firstn (Z.to_nat limit) (matches lowr (tokenizer_of asort c) q words))).
Proof.
  intros L rb srt g ord lowr asort chunk chunk' fuel O bf ftext etext dict k k1 configPath cs service service' name c query tk limit Hs Hgp Hsrt Hft Hkf Hconf Hlast Hp words q Hdict Nq Hq sched out Hout.
  destruct (C97_first_answers_partial L rb srt g ord lowr asort chunk chunk' fuel O dict k k1 configPath cs service service' name c Hs Hgp Hsrt Hkf Hconf Hlast) as (ix & Hb & _ & Hw & _ & Ha). fold words in Hb, Hw, Ha. pose proof Hs as (HL & Hrb & Hrw & Hg & Ho).
  assert (0 <= limit) as Hlim by (destruct Hp as [[_ ->]|[_ H]]; lia). apply (C66_topk_param tk defaultTopK limit ltac:(unfold defaultTopK; lia)) in Hp.
  unfold autocomplete_request, autocomplete_limit in Hout. rewrite Hp in Hout.
  destruct (served_autocomplete L rb srt (ToLower lowr) service' name query limit sched) as [r|] eqn:Er; [|discriminate]. cbn [Handlers.when_done] in Hout. injection Hout as <-.
  destruct (Ha query limit Nq Hq Hlim sched r Er) as [(e & ->)|H]; [left; exists e; reflexivity|right].
  rewrite (C73_autocomplete_partial rb srt g ord "" lowr _ words ix query limit Hrb Hrw Hg Ho Hsrt Hdict Hb Nq Hq Hlim sched r H).
  destruct (responds bf ftext etext (map (fun i => (of_int 0, entry_at words i)) (firstn (Z.to_nat limit) (matches lowr (tokenizer_of asort c) q words))) Hft) as (body & Eb & Hread).
  - intros it Hit. apply in_map_iff in Hit. destruct Hit as (i & <- & Hi). cbn [snd]. apply Hw, entry_in. assert (In i (matches lowr (tokenizer_of asort c) q words)) as HiX by (rewrite <- (firstn_skipn (Z.to_nat limit)); apply in_or_app; left; exact Hi).
    unfold matches in HiX. apply filter_In in HiX. destruct HiX as [HiX _]. apply in_map_iff in HiX. destruct HiX as (n & <- & Hn). apply in_seq in Hn. unfold zlen. lia.
  - intros it Hit. apply in_map_iff in Hit. destruct Hit as (i & <- & _). reflexivity.
  - exists body. split; [exact Eb|]. rewrite Hread, map_map. reflexivity.
Qed.
Print Assumptions C97_first_autocomplete_partial.
Theorem C97_first_suggest_partial : forall L rb srt g ord lowr asort chunk chunk' fuel O pf bf ftext etext dict k k1 configPath cs service service' name c query tk mt sm topK m alpha,
  sound L rb g ord -> gob_prefix_fails g -> sorter_ok srt -> P_Handlers.parses_valid pf -> P_Handlers.writes_numbers ftext ->
  killed_first L rb g ord lowr asort chunk fuel O dict k configPath cs k1 ->
  configure_service rb g ord (ToLower lowr) asort chunk' fuel k1 configPath service = Ret service' ->
  last_named cs name c -> P_Handlers.suggest_params pf tk mt sm topK m alpha -> alpha_ok alpha ->
  let d := tokenizer_of asort c in
  let words := entries (text_at k (source_path c)) in
  let q := entry_grams lowr d query in
  dictionary_ok lowr d words -> NoDup q -> 1 <= zlen q <= 65535 -> (m = Overlap -> zlen q <= 32767) ->
  (exists w, In w words /\ MinY m alpha (zlen q) <= zlen (entry_grams lowr d w)) ->
  forall sched out, suggest_request L rb srt (ToLower lowr) pf bf ftext etext service' name query tk mt sm sched = Some out ->
  let score := fun i => gram_score lowr d m q (entry_at words i) in
  let sim := fun i => gram_similarity lowr d m q (entry_at words i) in
  (exists e, out = Handlers.http_error etext e 500) \/
  exists ids body, out = Handlers.Sent (Handlers.mkResp 200 (bs "application/json") body) /\
    read_array (read_item (bs "Score") (bs "Value")) body = Some (map (fun i => (ftext (score i), entry_at words i)) ids) /\
    zlen ids <= topK /\ NoDup ids /\ (forall i, In i ids -> 0 <= i < zlen words) /\ best_first score ids /\
    (forall i, In i ids -> (sim i >= val alpha * (1 - / 2 ^ 46))%R) /\
    (forall i, 0 <= i < zlen words -> 1 <= zlen (entry_grams lowr d (entry_at words i)) -> (m = Overlap -> zlen (entry_grams lowr d (entry_at words i)) <= 32767) ->
       (sim i >= val alpha * (1 + / 2 ^ 46))%R ->
       In i ids \/ (zlen ids = topK /\ forall j, In j ids -> (sim i <= val (score j) * (1 + / 2 ^ 46) + / 2 ^ 50)%R)).
Proof.
  intros L rb srt g ord lowr asort chunk chunk' fuel O pf bf ftext etext dict k k1 configPath cs service service' name c query tk mt sm topK m alpha Hs Hgp Hsrt Hpf Hft Hkf Hconf Hlast Hp Ha d words q Hdict Nq Hq Hov Hlong sched out Hout score sim.
  destruct (C97_first_answers_partial L rb srt g ord lowr asort chunk chunk' fuel O dict k k1 configPath cs service service' name c Hs Hgp Hsrt Hkf Hconf Hlast) as (ix & Hb & _ & Hw & Hsug & _). fold words in Hb, Hw, Hsug. fold d in Hb, Hsug. pose proof Hs as (HL & Hrb & Hrw & Hg & Ho).
  assert (1 <= topK) as Hk by (destruct Hp as ([[_ ->]|[_ H]] & _); lia). pose proof (proj1 (P_Handlers.params_config pf tk mt sm topK m alpha query Hpf) Hp) as Hc.
  unfold suggest_request in Hout. rewrite Hc in Hout. destruct (served_suggest L rb srt (ToLower lowr) service' name (mkConfig query topK m alpha) sched) as [r|] eqn:Er; [|discriminate]. cbn [Handlers.when_done] in Hout.
  destruct (Hsug query m alpha topK Nq Hq Hov Ha Hk Hlong sched r Er) as [(e & ->)|H]; [left; exists e; injection Hout as <-; reflexivity|right].
  apply (P_Handlers.C82_suggest_partial pf bf ftext etext rb srt g ord lowr [(name, Handlers.mkLoaded ix words d)] name d words query tk mt sm topK m alpha Hrb Hrw Hg Ho Hsrt Hpf Hft) with (sched := sched); try assumption.
  - exists ""%string, ix. split; [cbn [mget]; rewrite (eqb_refl _ beqb_ok); reflexivity|]. auto.
  - rewrite <- Hout. unfold Handlers.suggest_handle. rewrite Hc. unfold Handlers.SvcSuggest. cbn [mget]. rewrite (eqb_refl _ beqb_ok). cbn [Handlers.l_index Handlers.l_words Handlers.l_conf c_query c_similarity c_metric c_topK]. rewrite H. reflexivity.
Qed.
Print Assumptions C97_first_suggest_partial.

(** ** Updates *)
(* the disk after the first [n] operations of the commit and a flush of [f] bytes of the document list *)
Definition ops97 (ord : Z -> index_map -> index_map) (k : disk) (d : description) : option (list record * list dop) :=
  match BuildCDBDictionary lib74 (fun _ => 3%nat) 100 (text_at (put k (GetDictionaryFile (d_place d)) CBroken) (GetSourcePath (d_place d))) with
  | Ret recs => match (st <- CdbIterate lib74 (index_step (ToLower demo71_low) (d_conf d)) recs (Ret []) ;; st) with
    | Ret w => match Commit rb4 gob1 ord dl hd 0 w with Ret ops => if forallb nf ops then Some (recs, ops) else None | _ => None end
    | _ => None end
  | _ => None end.
Definition cut97 (ord : Z -> index_map -> index_map) (k : disk) (d : description) (n f : nat) : disk :=
  match ops97 ord k d with
  | Some (recs, ops) => after_ops (put k (GetDictionaryFile (d_place d)) (CDict recs)) (d_place d) (firstn n ops ++ [OFlush 0 f])
  | None => k
  end.
Lemma cut97_killed ord k d n f : d_disc d = true -> k (source_of d) <> None -> writable out88 d -> killed_job lib74 rb4 gob1 ord (ToLower demo71_low) (fun _ => 3%nat) 100 out88 k d (cut97 ord k d n f).
Proof.
  intros Hd Hs [Hw Hdir]. unfold cut97, ops97. destruct (BuildCDBDictionary _ _ _ _) as [recs|e| |] eqn:Eb; [|constructor..]. destruct (bind _ _) as [w|e| |] eqn:Ew; [|constructor..]. destruct (Commit _ _ _ _ _ _ _) as [ops|e| |] eqn:Ec; [|constructor..].
  destruct (forallb nf ops) eqn:En; [|constructor].
  apply (killed_index lib74 rb4 gob1 ord (ToLower demo71_low) (fun _ => 3%nat) 100 out88 k d recs w ops (firstn n ops ++ [OFlush 0 f]) (skipn n ops)); try assumption; try (apply Hw; cbn; tauto).
  assert (forall l, forallb nf l = true -> filter nf l = l) as Hall. { induction l as [|x l IH]; [reflexivity|]. cbn [forallb filter]. intros H. destruct (nf x); [cbn [andb] in H; rewrite IH by exact H; reflexivity|discriminate H]. }
  split; [|intros j m _; lia]. change (fun o => negb (is_flush o)) with nf. rewrite <- app_assoc. cbn [app]. rewrite filter_app. cbn [filter]. change (nf (OFlush 0 f)) with false. cbv iota. rewrite <- filter_app, firstn_skipn. apply Hall, En.
Qed.
Lemma writable97 : writable out88 (d88 "x" "a.txt").
Proof. split; [intros; reflexivity|reflexivity]. Qed.
Lemma serves97 : serves lib74 rb4 gob1 (fun _ m => rev m) demo71_low disk88_1 (d88 "x" "a.txt") demo71_words.
Proof.
  unfold disk88_1. destruct (run88 "/pid" "" [d88 "x" "a.txt"] (disk88 demo74_file)) as [[k1 n1] r1] eqn:E1. cbn [fst]. unfold run88 in E1.
  refine (C88_success_partial lib74 rb4 gob1 _ demo71_low _ 100 out88 [] (bs "/pid") (bs "") [d88 "x" "a.txt"] (disk88 demo74_file) k1 n1 r1 (fun _ => demo71_words) lib74_ok rb4_ok rb4_written gob1_ok order_rev _ _ E1 _ (d88 "x" "a.txt") _).
  - split; [constructor; constructor|]. intros d d' [<-|[]] [<-|[]] H. vm_compute in H. intuition discriminate.
  - intros d [<-|[]]. exact (good88 "x" "a.txt").
  - left. assert (status88 (snd (run88 "/pid" "" [d88 "x" "a.txt"] (disk88 demo74_file))) = true) as Hs by (vm_compute; reflexivity). unfold run88 in Hs. rewrite E1 in Hs. destruct r1 as [[]|e| |]; [reflexivity|discriminate Hs..].
  - left. reflexivity.
Qed.
(** A killed update can leave the new dictionary with the old index; it opens without an error,
    and answers "A" with words that do not begin so. *)
Theorem C97_update_refuted : exists d file k1, serves lib74 rb4 gob1 (fun _ m => rev m) demo71_low disk88_1 d demo71_words /\
  killed_job lib74 rb4 gob1 (fun _ m => rev m) (ToLower demo71_low) (fun _ => 3%nat) 100 out88 (put disk88_1 (source_of d) (CText file)) d k1 /\
  asked88 disk88_1 d = Some (Ret [(of_int 0, bs "Abc"); (of_int 0, bs "ab")]) /\ asked88 k1 d = Some (Ret [(of_int 0, bs "xy"); (of_int 0, bs "zz")]).
Proof.
  exists (d88 "x" "a.txt"), (bs "uv" ++ [10] ++ bs "xy" ++ [10] ++ bs "zz" ++ [10]), (cut97 (fun _ m => rev m) (put disk88_1 (source_of (d88 "x" "a.txt")) (CText (bs "uv" ++ [10] ++ bs "xy" ++ [10] ++ bs "zz" ++ [10]))) (d88 "x" "a.txt") 0 0).
  split; [exact serves97|]. split; [apply cut97_killed; [reflexivity|vm_compute; discriminate|exact writable97]|]. split; vm_compute; reflexivity.
Qed.
Print Assumptions C97_update_refuted.
(** Even when the source has not changed: the order of the document list is that of a Go map, so the new
    document list under the old header gives wrong answers ("Abc" is lost). *)
Theorem C97_reindex_refuted : exists d k1, serves lib74 rb4 gob1 (fun _ m => rev m) demo71_low disk88_1 d demo71_words /\ text_at disk88_1 (source_of d) = demo74_file /\
  order_ok (fun _ m => m) /\ killed_job lib74 rb4 gob1 (fun _ m => m) (ToLower demo71_low) (fun _ => 3%nat) 100 out88 disk88_1 d k1 /\
  asked88 disk88_1 d = Some (Ret [(of_int 0, bs "Abc"); (of_int 0, bs "ab")]) /\ asked88 k1 d = Some (Ret [(of_int 0, bs "ab"); (of_int 0, bs "abd")]).
Proof.
  exists (d88 "x" "a.txt"), (cut97 (fun _ m => m) disk88_1 (d88 "x" "a.txt") 12 1000).
  split; [exact serves97|]. split; [vm_compute; reflexivity|]. split; [intros m gen; apply Permutation_refl|]. split; [apply cut97_killed; [reflexivity|vm_compute; discriminate|exact writable97]|]. split; vm_compute; reflexivity.
Qed.
Print Assumptions C97_reindex_refuted.

(** ** The hypotheses can be met *)
(* killed when the header is written and 5 bytes of the document list are on the disk *)
Definition disk97 : disk := cut97 (fun _ m => rev m) (disk93 "DISC") (job_of (fun l => l) (c93 "DISC")) 15 5.
Lemma killed97 : killed_command lib74 rb4 gob1 (fun _ m => rev m) (ToLower demo71_low) (fun l => l) (fun _ => 3%nat) 100 out88 [] (bs "/d/config.json") (disk93 "DISC") disk97.
Proof.
  unfold killed_command. rewrite (says_read _ _ _ (says93 "DISC" (or_introl eq_refl))). cbn [bind killed_indexer map]. apply kill_in; [reflexivity|]. apply cut97_killed; [reflexivity|vm_compute; discriminate|]. split; [intros; reflexivity|reflexivity].
Qed.
Example C97_nonvacuous : sound lib74 rb4 gob1 (fun _ m => rev m) /\ gob_prefix_fails gob1 /\
  killed_first lib74 rb4 gob1 (fun _ m => rev m) demo71_low (fun l => l) (fun _ => 3%nat) 100 out88 [] (disk93 "DISC") (bs "/d/config.json") [c93 "DISC"; c93_ram] disk97 /\
  attempts (bs "/d/config.json") (disk93 "DISC") disk97 /\
  exists k2 notes, run93 "DISC" = (k2, notes, Ret tt).
Proof.
  split; [apply C93_nonvacuous|]. split; [exact gob1_prefix|]. split; [|split].
  - split; [exact (says93 "DISC" (or_introl eq_refl))|]. split; [exact coherent93|]. split; [intros c Hc; apply source93; destruct Hc as [<- |[<- |[]]]; auto|]. split; [|exact killed97].
    intros d Hd. assert (jobs (fun l => l) [c93 "DISC"; c93_ram] = [job_of (fun l => l) (c93 "DISC")]) as Ej by reflexivity. rewrite Ej in Hd. destruct Hd as [<- |[]]. split; [split; [intros; reflexivity|reflexivity]|].
    intros p Hp. cbn in Hp. destruct Hp as [<- |[<- |[<- |[]]]]; vm_compute; reflexivity.
  - eapply one_more; [eapply attempt_killed; exact killed97|constructor].
  - destruct (run93 "DISC") as [[k2 notes] r] eqn:E. exists k2, notes. assert (status88 (snd (run93 "DISC")) = true) as H by (vm_compute; reflexivity). rewrite E in H. destruct r as [[]|e| |]; [reflexivity|discriminate H..].
Qed.
(* the server starts; "A" is answered with an error, "b" as from the complete index *)
Definition asked97 (query : string) (sched : list achoice) : option (res (list (f64 * bytes))) :=
  match service93 "DISC" disk97 with Ret s => served_autocomplete lib74 rb4 (fun l => l) (ToLower demo71_low) s (bs "x") (bs query) 2 sched | _ => None end.
Example C97_cut_answers : asked97 "b" (demo73_sched (bs "b")) = Some (Ret [(of_int 0, bs "b")]) /\
  asked97 "A" (repeat AProd 5 ++ repeat (AWork 0) 4 ++ repeat (AWork 1) 4 ++ [AWork 2; AProd]) = Some (Fail (ErrWrapped (ErrWrapped ErrOutOfRange))).
Proof. split; vm_compute; reflexivity. Qed.
