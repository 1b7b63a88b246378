(** C74: the disc driver - source file, cdb dictionary, index on disc, answers - against the
    driver in memory. *)
From Coq Require Import String ZifyBool Permutation Sorted Reals Lra Lia.
From Verif Require Import Base BaseLemmas GoMap Store StoreSpec StoreProofs Postings PostingsSpec PostingsDrive P_PostingsLemmas Merger MergerSpec P_MergerLemmas
  Text TextProofs TextProofs2 Analysis AnalysisSpec AnalysisProofs AnalysisProofs2 P_AnalysisLemmas P_Analysis
  Index IndexSpec IndexProofs IndexProofs2 P_IndexLemmas P_Index
  Float64 Metric MetricSpec MetricProofs FloatProofs MetricFloat MetricFloat2 MetricScore P_Metric TopK TopKSpec TopKProofs Suggest SuggestSpec SuggestProofs SuggestProofs2 P_SuggestLemmas P_Suggest
  Autocomplete AutocompleteSpec AutocompleteProofs P_Autocomplete Mph P_Mph NGramIndex NGramIndexSpec NGramIndexProofs NGramIndexProofs2 P_NGramIndex
  NGramIndexAnySpec Scanner ScannerSpec ScannerProofs ScannerProofs2 P_Scanner CdbDict CdbDictSpec.
From Verif Require NGramIndexAny AutocompleteAny P_Repeated P_RepeatedDict.
Local Open Scope Z_scope.

(** ** The records of a list of words *)
Definition recs_from (i : Z) (words : list bytes) : list record := map (fun p => (le32 (i + Z.of_nat (fst p)), snd p)) (combine (seq 0 (List.length words)) words).
Lemma recs_from_cons i w words : recs_from i (w :: words) = (le32 i, w) :: recs_from (i + 1) words.
Proof.
  unfold recs_from. cbn [List.length seq combine map fst snd]. f_equal; [f_equal; f_equal; lia|]. rewrite <- seq_shift. generalize (seq 0 (List.length words)). intros l. revert l. clear. induction words as [|w words IH]; intros l; [rewrite !combine_nil; reflexivity|].
  destruct l as [|x l]; [reflexivity|]. cbn [map combine fst snd]. f_equal; [f_equal; f_equal; lia|]. apply IH.
Qed.
Lemma uint32_le32 v : is_u32 v -> Uint32 (le32 v) = Ret v.
Proof. intros Hv. unfold Uint32, le32. f_equal. rewrite !Z.shiftr_div_pow2 by lia. unfold wrap8, is_u32 in *. pose proof (Z.div_mod v (2 ^ 8)). pose proof (Z.div_mod (v / 2 ^ 8) (2 ^ 8)). pose proof (Z.div_mod (v / 2 ^ 16) (2 ^ 8)).
  rewrite !Z.div_div in * by lia. change (2 ^ 8 * 2 ^ 8) with (2 ^ 16) in *. change (2 ^ 16 * 2 ^ 8) with (2 ^ 24) in *. assert ((v / 2 ^ 24) mod 2 ^ 8 = v / 2 ^ 24) by (apply Z.mod_small; split; [apply Z.div_pos; lia|apply Z.div_lt_upper_bound; lia]). lia.
Qed.
Lemma le32_inj a b : is_u32 a -> is_u32 b -> le32 a = le32 b -> a = b.
Proof. intros Ha Hb E. pose proof (uint32_le32 a Ha) as H. rewrite E, (uint32_le32 b Hb) in H. injection H as ->. reflexivity. Qed.
Lemma recs_keys words : forall i, map fst (recs_from i words) = map (fun j => le32 (i + Z.of_nat j)) (seq 0 (List.length words)).
Proof.
  induction words as [|w words IH]; intros i; [reflexivity|]. rewrite recs_from_cons. cbn [map fst List.length seq]. f_equal; [f_equal; lia|]. rewrite IH, <- seq_shift, map_map. apply map_ext. intros j. f_equal. lia.
Qed.
Lemma recs_nodup words : zlen words <= 2 ^ 32 -> NoDup (map fst (recs_from 0 words)).
Proof.
  intros Hz. rewrite recs_keys. assert (forall l, (forall j, In j l -> (j < List.length words)%nat) -> NoDup l -> NoDup (map (fun j => le32 (0 + Z.of_nat j)) l)) as H.
  { induction l as [|x l IH]; intros Hb Hn; [constructor|]. inversion_clear Hn. cbn [map]. constructor; [|apply IH; [intros; apply Hb; right; assumption|assumption]].
    intros Hin. apply in_map_iff in Hin. destruct Hin as (y & E & Hy). pose proof (Hb x (or_introl eq_refl)). pose proof (Hb y (or_intror Hy)). unfold zlen in Hz. apply le32_inj in E; unfold is_u32; try lia. assert (x = y) as <- by lia. contradiction. }
  apply H; [intros j Hj; apply in_seq in Hj; lia|apply seq_NoDup].
Qed.
Lemma recs_in words : forall i j w, nth_error words j = Some w -> In (le32 (i + Z.of_nat j), w) (recs_from i words).
Proof.
  induction words as [|x words IH]; intros i j w H; [destruct j; discriminate|]. rewrite recs_from_cons. destruct j as [|j]; [injection H as ->; left; f_equal; f_equal; lia|]. right. cbn [nth_error] in H. specialize (IH (i + 1) j w H). replace (i + Z.of_nat (S j)) with (i + 1 + Z.of_nat j) by lia. exact IH.
Qed.

Section Lib.
Context (L : cdblib).
Hypothesis HL : cdb_ok L.
Lemma size_fold recs : forall a, fold_right (fun (r : record) n => 8 + zlen (fst r) + zlen (snd r) + 16 + n) a recs = a + fold_right (fun (r : record) n => 8 + zlen (fst r) + zlen (snd r) + 16 + n) 0 recs.
Proof. induction recs as [|x recs IH]; intros a; cbn [fold_right]; [lia|rewrite (IH a); lia]. Qed.
Lemma size_app recs r : cdb_size (recs ++ [r]) = cdb_size recs + 24 + zlen (fst r) + zlen (snd r).
Proof. unfold cdb_size. rewrite fold_right_app. cbn [fold_right]. rewrite size_fold. unfold bytes. ring. Qed.
Lemma built words : forall i recs, 0 <= i -> i + zlen words <= 2 ^ 32 -> cdb_size recs + fold_right (fun w n => 28 + zlen w + n) 0 words < 2 ^ 32 ->
  lines_iterate (put_step L) i words recs = Ret (recs ++ recs_from i words).
Proof.
  induction words as [|w words IH]; intros i recs Hi Hz Hs; [cbn; rewrite app_nil_r; reflexivity|]. rewrite zlen_cons in Hz. pose proof (zlen_nonneg words). cbn [fold_right] in Hs. cbn [lines_iterate]. unfold put_step at 1.
  assert (0 <= fold_right (fun w n => 28 + zlen w + n) 0 words) by (clear; induction words as [|x l IH]; cbn [fold_right]; [lia|pose proof (zlen_nonneg x); lia]).
  destruct HL as (Hp & _). rewrite Hp by (rewrite size_app; cbn [fst snd]; unfold le32 at 1; rewrite !zlen_cons, zlen_nil; lia). cbn [bind]. destruct (Z.eq_dec (zlen words) 0) as [E|E].
  - destruct words as [|y l]; [|rewrite zlen_cons in E; pose proof (zlen_nonneg l); lia]. cbn [lines_iterate]. rewrite recs_from_cons. reflexivity.
  - rewrite wrap32_small by (unfold is_u32; lia). rewrite IH; [rewrite recs_from_cons, <- app_assoc; reflexivity|lia|lia|rewrite size_app; cbn [fst snd]; unfold le32 at 1; rewrite !zlen_cons, zlen_nil; lia].
Qed.
Lemma iterated {S} (f : S -> Z -> bytes -> option err * S) words : (forall w, In w words -> w <> []) -> forall i s, 0 <= i -> i + zlen words <= 2 ^ 32 ->
  CdbIterate L f (recs_from i words) s = match DictIterate_from f i words s with (Some e, _) => Fail e | (None, s') => Ret s' end.
Proof.
  destruct HL as (_ & _ & _ & Hr). induction words as [|w words IH]; intros Hne i s Hi Hz; [reflexivity|]. rewrite zlen_cons in Hz. pose proof (zlen_nonneg words). rewrite recs_from_cons. cbn [CdbIterate DictIterate_from].
  rewrite (Hr (le32 i)) by (unfold le32; discriminate). cbn [bind]. rewrite (Hr w) by (apply Hne; left; reflexivity). cbn [bind]. rewrite uint32_le32 by (unfold is_u32; lia). cbn [bind]. rewrite wrap32_small by (unfold is_u32; lia).
  destruct (f s i w) as [[e|] s']; [reflexivity|]. apply IH; [intros; apply Hne; right; assumption|lia|lia].
Qed.
Lemma got words key : (forall w, In w words -> w <> []) -> zlen words <= 2 ^ 32 -> is_u32 key -> CdbGet L (recs_from 0 words) key = Ret (DictGet words key).
Proof.
  intros Hne Hz Hk. destruct HL as (_ & Hg & Ha & _). unfold CdbGet, DictGet, is_u32 in *. match goal with |- context [if ?b then NilValue else _] => destruct b eqn:E end.
  - rewrite Ha; [reflexivity|]. rewrite recs_keys. intros Hin. apply in_map_iff in Hin. destruct Hin as (j & Ej & Hj). apply in_seq in Hj. unfold zlen, bytes in *. apply le32_inj in Ej; unfold is_u32; lia.
  - assert (nth_error words (Z.to_nat key) = Some (nth (Z.to_nat key) words NilValue)) as En by (apply nth_error_nth'; unfold zlen, bytes in *; lia).
    pose proof (recs_in words 0 _ _ En) as Hin. replace (0 + Z.of_nat (Z.to_nat key)) with key in Hin by lia. rewrite (Hg _ _ _ (recs_nodup words Hz) Hin); [reflexivity|]. apply Hne. eapply nth_error_In. exact En.
Qed.
End Lib.
Lemma file_lines file words chunk fuel : file_ok file words -> (2 * List.length file + 1 < fuel)%nat -> scan_all ScanLines chunk fuel (NewScanner file) = (words, Ret tt).
Proof.
  intros (-> & Hl & _) Hf. rewrite scan_lines by exact Hf. unfold lines_result. clear Hf. induction (raw_lines file) as [|l ls IH]; [reflexivity|].
  assert (line_fits l = true) as E by (unfold line_fits; specialize (Hl l (or_introl eq_refl)); lia). cbn [while forallb]. rewrite E. cbn [andb map]. assert (forall l', In l' ls -> zlen l' < 65536) as Hl' by (intros; apply Hl; right; assumption). specialize (IH Hl').
  injection IH as E1 E2. rewrite E1, E2. reflexivity.
Qed.

(** ** C74 *)
(** A source file with lines of 1 to 65535 bytes: the indexer stores it as a dictionary that
    answers like the one in memory, and writes the index of that one. *)
Theorem C74_indexer_partial : forall L rb g ord name lower d chunk fuel file words,
  cdb_ok L -> file_ok file words -> (2 * List.length file + 1 < fuel)%nat ->
  OpenRAMDictionary chunk fuel file = words /\
  exists recs, BuildCDBDictionary L chunk fuel file = Ret recs /\ CdbSize recs = DictSize words /\
    (forall key, is_u32 key -> CdbGet L recs key = Ret (DictGet words key)) /\
    (forall S (f : S -> Z -> bytes -> option err * S) s, CdbIterate L f recs s = match DictIterate f words s with (Some e, _) => Fail e | (None, s') => Ret s' end) /\
    indexJob L rb g ord name lower d chunk fuel file = (ops <- IndexDictionary rb g ord (documentListFile name) (headerFile name) 0 lower d words ;; Ret (recs, ops)).
Proof.
  intros L rb g ord name lower d chunk fuel file words HL Hfile Hf. pose proof (file_lines file words chunk fuel Hfile Hf) as Es. destruct Hfile as (Ew & Hl & Hne & Hz & Hs).
  split; [unfold OpenRAMDictionary; rewrite Es; reflexivity|]. exists (recs_from 0 words).
  assert (BuildCDBDictionary L chunk fuel file = Ret (recs_from 0 words)) as Eb.
  { unfold BuildCDBDictionary, ReaderIterate. rewrite Es. rewrite (built L HL); [reflexivity|lia|unfold zlen, bytes in *; lia|unfold cdb_size, bytes in *; cbn [fold_right]; lia]. }
  assert (forall S (f : S -> Z -> bytes -> option err * S) s, CdbIterate L f (recs_from 0 words) s = match DictIterate f words s with (Some e, _) => Fail e | (None, s') => Ret s' end) as Hit.
  { intros S f s. apply (iterated L HL); [exact Hne|lia|unfold zlen, bytes in *; lia]. }
  split; [exact Eb|]. split; [unfold CdbSize, DictSize, zlen, recs_from; rewrite map_length, combine_length, seq_length; lia|]. split; [intros key Hk; apply (got L HL); [exact Hne|apply Z.lt_le_incl; exact Hz|exact Hk]|]. split; [exact Hit|].
  unfold indexJob. rewrite Eb. unfold IndexCdb, IndexDictionary. rewrite Hit. destruct (DictIterate _ words _) as [[e|] st]; reflexivity.
Qed.
Print Assumptions C74_indexer_partial.

Lemma retrieved (get : Z -> res bytes) words sc cs : (forall c, In c cs -> get (Key c) = Ret (DictGet words (Key c))) -> retrieve get sc cs = Ret (map (fun c => (sc c, DictGet words (Key c))) cs).
Proof. induction cs as [|c cs IH]; intros H; [reflexivity|]. cbn [retrieve map]. rewrite (H c (or_introl eq_refl)). cbn [bind]. rewrite IH by (intros; apply H; right; assumption). reflexivity. Qed.

(** A service over the stored dictionary answers, schedule by schedule, what a service over
    the words answers with the same index; C71-C73 say what that is. *)
Theorem C74_disc_suggest_partial : forall L rb srt g ord name lowr d words recs ix query m alpha topK,
  roaring_ok rb -> roaring_written rb -> gob_ok g -> order_ok ord -> sorter_ok srt ->
  indexable lowr d words -> index_built rb g ord name lowr d words ix ->
  (forall key, is_u32 key -> CdbGet L recs key = Ret (DictGet words key)) ->
  let q := entry_grams lowr d query in
  NoDup q -> 1 <= zlen q <= 65535 -> (m = Overlap -> zlen q <= 32767) -> alpha_ok alpha -> 1 <= topK ->
  (exists w, In w words /\ MinY m alpha (zlen q) <= zlen (entry_grams lowr d w)) ->
  forall sched, DiscSuggest L rb srt ix recs (ToLower lowr) d query alpha m topK sched = ServiceSuggest rb srt ix words (ToLower lowr) d query alpha m topK sched.
Proof.
  intros L rb srt g ord name lowr d words recs ix query m alpha topK Hrb Hrw Hg Ho Hsrt [Hdict|Hdict] Hb Hget q Nq Hq1 Hq2 Ha Hk Hlong sched.
  2:{ pose proof (NGramIndexAny.dict_index_any rb g ord name lowr d words Hrb Hrw Hg Ho Hdict ix Hb) as Hok.
    assert (query_ok ix q m alpha topK) as Hq by (split; [exact Ha|]; split; [exact Nq|]; split; [exact Hq1|]; split; [eapply P_RepeatedDict.any_len; eassumption|]; split; assumption).
    pose proof (P_RepeatedDict.any_searchable rb lowr d words ix Hok q m alpha Hlong) as Hse. destruct (NGramIndexAny.docs_good_any lowr d words Hdict) as (Hd & _). pose proof (proj1 Hok) as Hi.
    unfold DiscSuggest, ServiceSuggest. rewrite suggest_grams by (apply Hdict). fold q.
    destruct (run rb srt ix q m alpha topK sched (start ix q m alpha topK)) as [[s|r0|]|] eqn:Er; try reflexivity.
    destruct (P_Repeated.C94_suggest_partial rb srt ix _ q m alpha topK sched r0 Hq Hse Hd Hi Hsrt Er) as (l & -> & _ & _ & Hsound & _). cbn [bind]. f_equal. apply retrieved.
    intros c Hc. apply Hget. destruct (Hsound c Hc) as ((x & ts) & n & H1 & -> & _). apply (doc_entry lowr d words) in H1. destruct H1 as [H1 _]. cbn [Key fst]. destruct Hdict as (_ & Hz & _). unfold is_u32. unfold bytes in *. lia. }
  pose proof (dict_index rb g ord name lowr d words Hrb Hrw Hg Ho Hdict ix Hb) as Hok.
  assert (query_ok ix q m alpha topK) as Hq by (split; [exact Ha|]; split; [exact Nq|]; split; [exact Hq1|]; split; [eapply s_len; eassumption|]; split; assumption).
  pose proof (s_searchable rb lowr d words ix Hok q m alpha Hlong) as Hse. pose proof (s_docs lowr d words Hdict) as Hd. pose proof (s_index rb lowr d words ix Hok) as Hi.
  unfold DiscSuggest, ServiceSuggest. rewrite suggest_grams by (apply Hdict). fold q.
  destruct (run rb srt ix q m alpha topK sched (start ix q m alpha topK)) as [[s|r0|]|] eqn:Er; try reflexivity.
  destruct (C41_every_schedule_partial rb srt ix _ q m alpha topK sched r0 Hq Hse Hd Hi Hsrt Er) as (l & -> & _ & _ & _ & Hsound & _). cbn [bind]. f_equal. apply retrieved.
  intros c Hc. apply Hget. destruct (Hsound c Hc) as ((x & ts) & H1 & -> & _). apply (doc_entry lowr d words) in H1. destruct H1 as [H1 _]. cbn [cand_of Key fst]. destruct Hdict as (_ & Hz & _). unfold is_u32. unfold bytes in *. lia.
Qed.
Print Assumptions C74_disc_suggest_partial.
Theorem C74_disc_autocomplete_partial : forall L rb srt g ord name lowr d words recs ix query limit,
  roaring_ok rb -> roaring_written rb -> gob_ok g -> order_ok ord -> sorter_ok srt ->
  indexable lowr d words -> index_built rb g ord name lowr d words ix ->
  (forall key, is_u32 key -> CdbGet L recs key = Ret (DictGet words key)) ->
  let q := prefix_grams lowr d query in
  NoDup q -> 1 <= zlen q < 2 ^ 32 -> 0 <= limit ->
  forall sched, DiscAutocomplete L rb srt ix recs (ToLower lowr) d query limit sched = ServiceAutocomplete rb srt ix words (ToLower lowr) d query limit sched.
Proof.
  intros L rb srt g ord name lowr d words recs ix query limit Hrb Hrw Hg Ho Hsrt [Hdict|Hdict] Hb Hget q Nq Hq Hl sched.
  2:{ pose proof (NGramIndexAny.dict_index_any rb g ord name lowr d words Hrb Hrw Hg Ho Hdict ix Hb) as Hok. destruct (NGramIndexAny.docs_good_any lowr d words Hdict) as (Hd & _). pose proof (proj1 Hok) as Hi.
    unfold DiscAutocomplete, ServiceAutocomplete. rewrite auto_grams by (apply Hdict). fold q.
    destruct (arun rb srt ix q limit sched (astart q limit)) as [p|] eqn:Er; [|reflexivity]. pose proof (AutocompleteAny.autocomplete_any rb srt ix _ q limit Hd Hi Hsrt Hq Nq Hl sched p Er) as HG. destruct p as [s|r0|]; [reflexivity| |destruct HG].
    destruct HG as (X & (_ & Hin & _) & ->). cbn [bind]. f_equal. rewrite (retrieved (CdbGet L recs) words (fun _ => of_int 0)); [reflexivity|].
    intros c Hc. apply Hget. apply in_map_iff in Hc. destruct Hc as (i & <- & Hi'). assert (In i X) as HiX by (rewrite <- (firstn_skipn (Z.to_nat limit) X); apply in_app_iff; left; exact Hi').
    apply Hin in HiX. destruct HiX as (ts & Hdoc & _). apply (doc_entry lowr d words) in Hdoc. destruct Hdoc as [H1 _]. change (is_u32 i). destruct Hdict as (_ & Hz & _). unfold is_u32. unfold bytes in *. lia. }
  pose proof (dict_index rb g ord name lowr d words Hrb Hrw Hg Ho Hdict ix Hb) as Hok. pose proof (s_docs lowr d words Hdict) as Hd. pose proof (s_index rb lowr d words ix Hok) as Hi.
  unfold DiscAutocomplete, ServiceAutocomplete. rewrite auto_grams by (apply Hdict). fold q.
  destruct (arun rb srt ix q limit sched (astart q limit)) as [[s|r0|]|] eqn:Er; try reflexivity.
  rewrite (C43_first_matches rb srt ix _ q limit sched r0 Hd Hi Hsrt Nq Hq Hl Er). cbn [bind]. f_equal. rewrite (retrieved (CdbGet L recs) words (fun _ => of_int 0)); [reflexivity|].
  intros c Hc. apply Hget. unfold first_matches in Hc. apply in_map_iff in Hc. destruct Hc as ((x & ts) & <- & Hx). assert (In (x, ts) (docs_of lowr d words)) as Hx'.
  { assert (In (x, ts) (filter (has_all q) (docs_of lowr d words))) as Hf by (rewrite <- (firstn_skipn (Z.to_nat limit)); apply in_app_iff; left; exact Hx). apply filter_In in Hf. apply Hf. }
  apply (doc_entry lowr d words) in Hx'. destruct Hx' as [H1 _]. cbn [answer_of Key fst]. destruct Hdict as (_ & Hz & _). unfold is_u32. unfold bytes in *. lia.
Qed.
Print Assumptions C74_disc_autocomplete_partial.

(** Both drivers, from the same source file, give the same completions. *)
Theorem C74_drivers_agree_partial : forall L rb srt srt' g ord ord' name lowr d chunk chunk' fuel file words recs ops ops' ix ix' query limit,
  cdb_ok L -> file_ok file words -> (2 * List.length file + 1 < fuel)%nat ->
  roaring_ok rb -> roaring_written rb -> gob_ok g -> order_ok ord -> order_ok ord' -> sorter_ok srt -> sorter_ok srt' -> dictionary_ok lowr d words ->
  RAMBuild rb g ord name (ToLower lowr) d (OpenRAMDictionary chunk fuel file) = Ret ix ->
  (forall o b, IndexDictionary rb g ord (documentListFile name) (headerFile name) 0 (ToLower lowr) d words = Ret o -> ram_open (ram_run NewRAMDirectory o) (documentListFile name) = Some b -> zlen b < 2 ^ 32) ->
  indexJob L rb g ord' name (ToLower lowr) d chunk' fuel file = Ret (recs, ops) -> with_flushes 0 ops ops' -> FSBuild g name (fs_run NewFSDirectory ops') = Ret ix' ->
  (forall b, fs_open (fs_run NewFSDirectory ops') (documentListFile name) = Some b -> zlen b < 2 ^ 32) ->
  let q := prefix_grams lowr d query in
  NoDup q -> 1 <= zlen q < 2 ^ 32 -> 0 <= limit ->
  forall sched sched' r r',
  ServiceAutocomplete rb srt ix (OpenRAMDictionary chunk fuel file) (ToLower lowr) d query limit sched = Some r ->
  DiscAutocomplete L rb srt' ix' recs (ToLower lowr) d query limit sched' = Some r' -> r = r'.
Proof.
  intros L rb srt srt' g ord ord' name lowr d chunk chunk' fuel file words recs ops ops' ix ix' query limit HL Hfile Hf Hrb Hrw Hg Ho Ho' Hsrt Hsrt' Hdict Hram Hrs Hjob Hfl Hfs Hfz q Nq Hq Hl sched sched' r r' Hr Hr'.
  destruct (C74_indexer_partial L rb g ord name (ToLower lowr) d chunk fuel file words HL Hfile Hf) as (Ew & _). destruct (C74_indexer_partial L rb g ord' name (ToLower lowr) d chunk' fuel file words HL Hfile Hf) as (_ & recs' & _ & _ & Hget & _ & Ej).
  rewrite Ew in *. rewrite Ej in Hjob. destruct (IndexDictionary rb g ord' _ _ 0 _ d words) as [ops0|e| |] eqn:Ei; cbn [bind] in Hjob; try discriminate. injection Hjob as -> ->.
  assert (index_built rb g ord name lowr d words ix) as B1.
  { pose proof Hram as Hram'. unfold RAMBuild in Hram'. destruct (IndexDictionary rb g ord _ _ 0 _ d words) as [o|e| |] eqn:Eo; cbn [bind] in Hram'; try discriminate. exists o. split; [exact Eo|]. left. split; [exact Hram|]. intros b Hb. exact (Hrs o b eq_refl Hb). }
  assert (index_built rb g ord' name lowr d words ix') as B2 by (exists ops; split; [exact Ei|]; right; exists ops'; split; [exact Hfl|]; split; assumption).
  rewrite (C74_disc_autocomplete_partial L rb srt' g ord' name lowr d words recs ix' query limit Hrb Hrw Hg Ho' Hsrt' (or_introl Hdict) B2 Hget Nq Hq Hl) in Hr'.
  rewrite (C73_autocomplete_partial rb srt g ord name lowr d words ix query limit Hrb Hrw Hg Ho Hsrt Hdict B1 Nq Hq Hl sched r Hr).
  rewrite (C73_autocomplete_partial rb srt' g ord' name lowr d words ix' query limit Hrb Hrw Hg Ho' Hsrt' Hdict B2 Nq Hq Hl sched' r' Hr'). reflexivity.
Qed.
Print Assumptions C74_drivers_agree_partial.

(** The drivers differ outside: a line of 65536 bytes ends the dictionary in memory without
    an error, and is an error for the indexer ... *)
Theorem C74_long_line_refuted : exists file, forall L rb g ord name lower d chunk fuel, (2 * List.length file + 1 < fuel)%nat ->
  OpenRAMDictionary chunk fuel file = [bs "a"] /\ exists e, indexJob L rb g ord name lower d chunk fuel file = Fail e.
Proof.
  assert (exists n, Z.of_nat n = 65536) as [n Hn] by (exists (Z.to_nat 65536); apply Z2Nat.id; lia). exists (bs "a" ++ [10] ++ repeat 98 n). intros L rb g ord name lower d chunk fuel Hf.
  assert (raw_lines (bs "a" ++ [10] ++ repeat 98 n) = [bs "a"; repeat 98 n]) as E.
  { unfold raw_lines. change (bs "a" ++ [10] ++ repeat 98 n) with (97 :: 10 :: repeat 98 n). cbn [cut_lines Z.eqb Pos.eqb app]. f_equal.
    assert (forall k cur, cur ++ repeat 98 k <> [] -> cut_lines (repeat 98 k) cur = [cur ++ repeat 98 k]) as H.
    { induction k as [|k IH]; intros cur Hne; cbn [repeat cut_lines Z.eqb Pos.eqb]; [rewrite app_nil_r in *; destruct cur; [exfalso; apply Hne; reflexivity|reflexivity]|]. rewrite IH; rewrite <- app_assoc; [reflexivity|exact Hne]. }
    apply (H n []). destruct n; [lia|discriminate]. }
  assert (line_fits (repeat 98 n) = false) as El by (unfold line_fits, zlen; rewrite repeat_length, Hn; reflexivity).
  assert (scan_all ScanLines chunk fuel (NewScanner (bs "a" ++ [10] ++ repeat 98 n)) = ([bs "a"], Fail ErrTooLong)) as Es.
  { rewrite scan_lines by exact Hf. unfold lines_result. rewrite E. cbn [while forallb]. rewrite El. reflexivity. }
  split; [unfold OpenRAMDictionary; rewrite Es; reflexivity|]. unfold indexJob, BuildCDBDictionary, ReaderIterate. rewrite Es. cbn [lines_iterate]. unfold put_step.
  destruct (cdb_put L [] _) as [e|]; cbn [bind]; eauto.
Qed.
Print Assumptions C74_long_line_refuted.
(** ... and an empty line, if the cdb library's section reader answers io.EOF for an empty
    value as io.SectionReader does, makes the indexer fail, while the driver in memory takes
    it as an entry. *)
Theorem C74_empty_line_refuted : exists file d lowr words, dictionary_ok lowr d words /\
  forall L rb g ord name chunk fuel, cdb_ok L -> cdb_read L [] = Fail EOF -> (20 < fuel)%nat ->
  OpenRAMDictionary chunk fuel file = words /\ indexJob L rb g ord name (ToLower lowr) d chunk fuel file = Fail EOF.
Proof.
  exists (bs "ab" ++ [10; 10] ++ bs "cd" ++ [10]), demo71_conf, demo71_low, [bs "ab"; []; bs "cd"]. split.
  - split; [cbn; lia|]. split; [vm_compute; reflexivity|]. split; [exists (bs "ab"), [[]; bs "cd"]; split; [reflexivity|vm_compute; discriminate]|].
    intros w [<-|[<-|[<-|[]]]];
    (split; [match goal with |- NoDup ?t => let v := eval vm_compute in t in change t with v end; repeat apply NoDup_cons; try apply NoDup_nil; cbn; intuition discriminate|vm_compute; reflexivity]).
  - intros L rb g ord name chunk fuel HL He Hf. set (file := bs "ab" ++ [10; 10] ++ bs "cd" ++ [10]).
    assert (scan_all ScanLines chunk fuel (NewScanner file) = ([bs "ab"; []; bs "cd"], Ret tt)) as Es by (rewrite scan_lines by (cbn; lia); vm_compute; reflexivity).
    split; [unfold OpenRAMDictionary; rewrite Es; reflexivity|]. unfold indexJob, BuildCDBDictionary, ReaderIterate. rewrite Es. rewrite (built L HL) by (first [lia|vm_compute; congruence]). cbn [bind app].
    unfold IndexCdb. rewrite !recs_from_cons. pose proof HL as (_ & _ & _ & Hr). cbn [CdbIterate]. rewrite (Hr (le32 0)) by (vm_compute; discriminate). cbn [bind]. rewrite (Hr (bs "ab")) by discriminate. cbn [bind]. rewrite uint32_le32 by (unfold is_u32; lia). cbn [bind].
    destruct (index_step (ToLower demo71_low) demo71_conf (Ret []) 0 (bs "ab")) as [e st] eqn:Est. assert (e = None) as -> by (replace e with (fst (e, st)) by reflexivity; rewrite <- Est; vm_compute; reflexivity).
    rewrite (Hr (le32 (0 + 1))) by (vm_compute; discriminate). cbn [bind]. rewrite He. reflexivity.
Qed.
Print Assumptions C74_empty_line_refuted.

(** the hypotheses are met: a library that keeps the records as they are, with io.SectionReader's reading *)
Fixpoint lookup_rec (recs : list record) (k : bytes) : option bytes := match recs with [] => None | (k', v) :: t => if beqb k' k then Some v else lookup_rec t k end.
Definition lib74 : cdblib := mkCdb (fun recs r => if cdb_size (recs ++ [r]) <? 2 ^ 32 then None else Some (ErrOther 0)) (fun recs k => Ret (lookup_rec recs k)) (fun b => match b with [] => Fail EOF | _ => Ret b end).
Lemma lib74_ok : cdb_ok lib74.
Proof.
  split; [intros recs r H; cbn [cdb_put lib74]; rewrite (proj2 (Z.ltb_lt _ _) H); reflexivity|]. split; [|split].
  - intros recs k v Hn Hin _. cbn [cdb_get lib74]. f_equal. induction recs as [|[k' v'] recs IH]; [destruct Hin|]. cbn [lookup_rec]. cbn [map fst] in Hn. inversion_clear Hn. destruct Hin as [E|Hin].
    + injection E as -> ->. rewrite (eqb_refl _ beqb_ok). reflexivity.
    + destruct (beqb k' k) eqn:E; [apply beqb_ok in E; subst; exfalso; apply H; apply (in_map fst) in Hin; exact Hin|]. apply IH; assumption.
  - intros recs k Hn. cbn [cdb_get lib74]. f_equal. induction recs as [|[k' v'] recs IH]; [reflexivity|]. cbn [lookup_rec]. destruct (beqb k' k) eqn:E; [apply beqb_ok in E; subst; exfalso; apply Hn; left; reflexivity|]. apply IH. intros Hin. apply Hn. right. exact Hin.
  - intros [|x b] Hb; [exfalso; apply Hb; reflexivity|reflexivity].
Qed.
Definition demo74_file : bytes := bs "b" ++ [13; 10] ++ bs "Abc" ++ [10] ++ bs "ab" ++ [10] ++ bs "abd".
Lemma demo74_ok : file_ok demo74_file demo71_words.
Proof.
  split; [vm_compute; reflexivity|]. split; [|split; [|split; vm_compute; reflexivity]].
  - intros l Hl. match type of Hl with In _ ?t => let v := eval vm_compute in t in change t with v in Hl end. destruct Hl as [<-|[<-|[<-|[<-|[]]]]]; vm_compute; reflexivity.
  - intros w [<-|[<-|[<-|[<-|[]]]]]; vm_compute; discriminate.
Qed.
Definition demo74_recs : list record := match BuildCDBDictionary lib74 (fun _ => 3%nat) 100 demo74_file with Ret r => r | _ => [] end.
Example C74_nonvacuous : (2 * List.length demo74_file + 1 < 100)%nat /\
  indexJob lib74 rb4 gob1 (fun _ m => rev m) "x" (ToLower demo71_low) demo71_conf (fun _ => 3%nat) 100 demo74_file = Ret (demo74_recs, demo71_ops) /\
  FSBuild gob1 "x" (fs_run NewFSDirectory demo71_ops) = Ret demo71_index /\ (exists ix, RAMBuild rb4 gob1 (fun _ m => m) "x" (ToLower demo71_low) demo71_conf (OpenRAMDictionary (fun _ => 7%nat) 100 demo74_file) = Ret ix) /\
  DiscAutocomplete lib74 rb4 (fun l => l) demo71_index demo74_recs (ToLower demo71_low) demo71_conf (bs "A") 2 (demo73_sched (bs "A")) = Some (Ret [(of_int 0, bs "Abc"); (of_int 0, bs "ab")]) /\
  exists half, DiscSuggest lib74 rb4 (fun l => l) demo71_index demo74_recs (ToLower demo71_low) demo71_conf (bs "aBc") quarter Cosine 2 (demo71_sched (bs "aBc")) = Some (Ret [(f_one, bs "Abc"); (half, bs "ab")]).
Proof.
  split; [vm_compute; lia|]. split; [vm_compute; reflexivity|]. split; [vm_compute; reflexivity|]. split; [eexists; vm_compute; reflexivity|]. split; [vm_compute; reflexivity|]. eexists. vm_compute. reflexivity.
Qed.
