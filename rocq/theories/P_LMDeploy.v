(** C98: the commands of a language model and its configuration. *)
From Coq Require Import String ZifyBool Permutation Sorted Reals Lra Lia.
From Verif Require P_CountTrie P_Index P_Deploy.
From Verif Require Import Base BaseLemmas GoMap Store StoreSpec Postings PostingsSpec PostingsDrive P_PostingsLemmas Merger MergerSpec P_MergerLemmas Index IndexSpec IndexProofs P_IndexLemmas
  Text Analysis Decimal Float64 Metric MetricSpec FloatProofs MetricFloat TopK TopKSpec TopKProofs Suggest SuggestSpec SuggestProofs P_SuggestLemmas P_Suggest AutocompleteSpec AutocompleteProofs
  LMText NGram NGramSpec NGramStore GoogleNGram P_NGram GoogleProofs P_Google CountTrie CountTrieSpec CountTrieProofs Scanner ScannerSpec ScannerProofs2 Mph MphSpec P_Mph TrainedSpec TrainedProofs P_Trained LMPipeline LMPipelineSpec P_Pipeline
  NGramIndex NGramIndexSpec NGramIndexProofs P_NGramIndex CdbDict CdbDictSpec P_Cdb Spell SpellSpec SpellProofs P_Spell SpellBuild SpellBuildSpec P_SpellBuild
  JsonSpec Json P_Json Paths Config ConfigSpec P_Config Indexer P_Indexer Deploy Eval EvalSpec P_Eval LMDeploy LMDeploySpec.
Local Open Scope Z_scope.
Local Notation length := List.length.

(** ** The files of a model *)
Lemma put_all_other ps : forall (k : disk) cs x, ~ In x ps -> put_all k ps cs x = k x.
Proof.
  induction ps as [|p ps IH]; intros k cs x Hx; [reflexivity|]. destruct cs as [|c cs]; [reflexivity|]. cbn [put_all]. rewrite IH by (intros H; apply Hx; right; exact H).
  apply put_other. intros ->. apply Hx. left. reflexivity.
Qed.
Lemma put_all_in ps : NoDup ps -> forall (k : disk) cs i p c, nth_error ps i = Some p -> nth_error cs i = Some c -> put_all k ps cs p = Some c.
Proof.
  induction 1 as [|q ps Hq Hnd IH]; intros k cs i p c Hp Hc; [destruct i; discriminate|]. destruct cs as [|d cs]; [destruct i; discriminate|]. cbn [put_all]. destruct i as [|i]; cbn [nth_error] in Hp, Hc.
  - injection Hp as ->. injection Hc as ->. rewrite put_all_other by exact Hq. apply put_same.
  - eapply IH; eassumption.
Qed.
Lemma ngram_path_inj p i j : is_u64 i -> is_u64 j -> ngram_path p i = ngram_path p j -> i = j.
Proof.
  intros Hi Hj E. unfold ngram_path, in_directory in E. apply app_inv_head in E. injection E as E. apply app_inv_tail in E.
  destruct (dec_spec i Hi) as (_ & Ei & _), (dec_spec j Hj) as (_ & Ej & _). congruence.
Qed.
Lemma nodup_map {A B} (f : A -> B) (l : list A) : NoDup l -> (forall x y, In x l -> In y l -> f x = f y -> x = y) -> NoDup (map f l).
Proof.
  induction 1 as [|x l Hx Hl IH]; intros H; cbn [map]; constructor.
  - intros Hin. apply in_map_iff in Hin. destruct Hin as (y & E & Hy). apply Hx. rewrite (H x y (or_introl eq_refl) (or_intror Hy) (eq_sym E)). exact Hy.
  - apply IH. intros a b Ha Hb. apply H; right; assumption.
Qed.
Lemma paths_nodup c : m_order c <= 255 -> NoDup (ngram_paths c).
Proof.
  intros H. apply nodup_map; [apply seq_NoDup|]. intros x y Hx Hy E. apply in_seq in Hx, Hy. apply ngram_path_inj in E; unfold is_u64; lia.
Qed.
Lemma cdb_not_ngram p i : GetDictionaryFile p <> ngram_path p i.
Proof.
  unfold GetDictionaryFile, ngram_path, in_directory. intros E. apply app_inv_head in E. injection E as E. apply (f_equal (@rev Z)) in E. rewrite !rev_app_distr in E. cbn in E. discriminate.
Qed.
Lemma lm_not_ngram p i : binary_path p <> ngram_path p i.
Proof.
  unfold binary_path, ngram_path, in_directory. intros E. apply app_inv_head in E. injection E as E. apply (f_equal (@rev Z)) in E. rewrite !rev_app_distr in E. cbn in E. discriminate.
Qed.
Lemma cdb_not_lm p : GetDictionaryFile p <> binary_path p.
Proof.
  unfold GetDictionaryFile, binary_path, in_directory. intros E. apply app_inv_head in E. injection E as E. apply (f_equal (@rev Z)) in E. rewrite !rev_app_distr in E. cbn in E. discriminate.
Qed.
Lemma paths_in c f : In f (ngram_paths c) -> In f (files_of_model c).
Proof. intros H. right. right. exact H. Qed.
Lemma cdb_in c : In (GetDictionaryFile (model_place c)) (files_of_model c).
Proof. left. reflexivity. Qed.
Lemma lm_in c : In (binary_path (model_place c)) (files_of_model c).
Proof. right. left. reflexivity. Qed.
Lemma create_all_other O ps : forall (k : disk) x, ~ In x ps -> fst (create_all O k ps) x = k x.
Proof.
  induction ps as [|p ps IH]; intros k x Hx; [reflexivity|]. cbn [create_all]. destruct (o_create O p); [|reflexivity]. rewrite IH by (intros H; apply Hx; right; exact H). apply put_other. intros ->. apply Hx. left. reflexivity.
Qed.
Lemma create_all_ok O ps : (forall f, In f ps -> o_create O f = true) -> forall k : disk, snd (create_all O k ps) = true.
Proof. induction ps as [|p ps IH]; intros H k; [reflexivity|]. cbn [create_all]. rewrite (H p (or_introl eq_refl)). apply IH. intros f Hf. apply H. right. exact Hf. Qed.

(** ** C98: nothing else is touched *)
(** Whatever a run of ngram-count or build-lm comes to, only the files of the model that the
    configuration describes can differ afterwards. *)
Theorem C98_untouched : forall lowr asort tord bsrt L chunk fuel mfuel O configPath k path,
  (forall c, read_config k configPath = Ret c -> ~ In path (files_of_model c)) ->
  fst (ngram_count_command lowr asort tord chunk fuel O configPath k) path = k path /\ fst (build_lm_command bsrt L chunk fuel mfuel O configPath k) path = k path.
Proof.
  intros lowr asort tord bsrt L chunk fuel mfuel O configPath k path H. unfold ngram_count_command, build_lm_command, configured_command.
  destruct (read_config k configPath) as [c| | |]; [|split; reflexivity..]. specialize (H c eq_refl).
  assert (~ In path (ngram_paths c)) as Hp by (intros Hx; apply H, paths_in, Hx).
  assert (path <> GetDictionaryFile (model_place c)) as Hd by (intros ->; apply H, cdb_in). assert (path <> binary_path (model_place c)) as Hb by (intros ->; apply H, lm_in). split.
  - unfold count_model. cbv zeta. destruct (k (GetSourcePath (model_place c))); [|reflexivity]. destruct (buildNGramsCount _ _ _ _ _ _ _ _ _); [|reflexivity..]. destruct (o_dir O _); cbn [negb]; [|reflexivity].
    pose proof (create_all_other O (ngram_paths c) k path Hp) as Hc. destruct (create_all O k (ngram_paths c)) as [k1 created]. cbn [fst] in Hc. destruct created; cbn [negb]; [|exact Hc].
    destruct (WriteNGrams _ _ _); cbn [fst]; apply put_all_other, Hp.
  - unfold build_model. cbv zeta. destruct (o_dir O _); cbn [negb]; [|reflexivity]. destruct (open_input k _); [|reflexivity]. destruct (o_create O _); cbn [negb]; [|reflexivity].
    destruct (x <- dictionaryWords _ _ _ ;; _) as [[words recs]| | |]; cbn [fst]; [|apply put_other, Hd..].
    destruct (BuildMph _ _ _); cbn [fst]; [|apply put_other, Hd..]. destruct (ReadNGrams _ _ _ _ _); cbn [fst]; [|apply put_other, Hd..]. destruct (o_create O (binary_path _)); cbn [negb fst]; [|apply put_other, Hd].
    destruct (StoreBinary _ _ _); cbn [fst]; rewrite put_other by exact Hb; apply put_other, Hd.
Qed.
Print Assumptions C98_untouched.

(** ** Counting *)
Lemma model_read k configPath c : model_says k configPath c -> read_config k configPath = Ret c.
Proof.
  intros (text & j & Hk & Hb & Hp & Hpl & Hc). unfold read_config, read_text. rewrite Hk. pose proof (C91_model_config configPath text j Hb Hp Hpl) as H. rewrite Hc in H. exact H.
Qed.
Lemma says_kept k k1 configPath c : model_says k configPath c -> k1 configPath = k configPath -> model_says k1 configPath c.
Proof. intros (text & j & Hk & H) E. exists text, j. rewrite E. split; [exact Hk|exact H]. Qed.
Section Trained.
Context {lowr : Z -> Z} {has sep : Z -> bool} {first last : bytes} {order : Z} {text : bytes} {sentences : list (list bytes)}.
Notation occ := (occurrences_in first last sentences).
Context (Ht : trainable lowr has sep first last order text sentences).
Lemma trained_words : exists K, (forall w, In w (first :: last :: concat sentences) -> w <> [] /\ plain w /\ zlen w <= K) /\ order * (K + 1) + 21 < 65536.
Proof.
  destruct Ht as [Hsep (H32 & H9 & H10) Hfi Hla Ho Hs (K & HK & HK') Hne Hsz]. exists K. split; [|exact HK'].
  intros w Hin. assert (w <> [] /\ plain w) as [Hp1 Hp2]; [|split; [exact Hp1|split; [exact Hp2|apply HK; exact Hin]]]. destruct Hin as [<-|[<-|Hin]]; [exact Hfi|exact Hla|].
  apply in_concat in Hin. destruct Hin as (s & Hin & Hws). clear - Hs Hin Hws H32 H9 H10. unfold text_sentences in Hs. induction Hs as [|p s' ps ss Hp _ IH]; [destruct Hin|]. destruct Hin as [->|Hin]; [eapply words_plain; eassumption|apply IH; exact Hin].
Qed.
Lemma counted tord chunk fuel : (forall p l, Permutation l (tord p l)) -> (2 * length text + 1 < fuel)%nat ->
  buildNGramsCount lowr has sep first last order chunk fuel text = Ret (Build first last sentences order) /\
  exists es, NoDup (map fst es) /\ (forall g c, In (g, c) es <-> 1 <= zlen g <= order /\ c = occ g /\ 0 < c) /\
    WriteNGrams tord order (Build first last sentences order) = Ret (map file_of (by_order (Z.to_nat order) es)).
Proof.
  intros Hord Hfuel. destruct trained_words as (K & Hw & HK). destruct Ht as [Hsep Hhas Hfi Hla Ho Hs _ Hne Hsz]. split.
  { unfold buildNGramsCount. rewrite (scan_sentences sep Hsep) by exact Hfuel. unfold sentences_result. cbn [fst]. rewrite (sentences_tokenized lowr has _ sentences Hs). reflexivity. }
  destruct (P_CountTrie.C47_build_counts_partial first last sentences order tord Hord ltac:(lia)) as (es & Hnd & Hes0 & Hwalk).
  { assert (zlen (nodup (list_eq_dec Z.eq_dec) (first :: last :: concat sentences)) <= zlen (first :: last :: concat sentences)) as H1.
    { unfold zlen. apply Nat2Z.inj_le. apply NoDup_incl_length; [apply NoDup_nodup|]. intros x Hx. apply nodup_In in Hx. exact Hx. }
    assert (zlen (concat sentences) <= wrapped_words sentences) as H2.
    { clear. induction sentences as [|s l IH]; [reflexivity|]. cbn [concat wrapped_words fold_right]. fold (wrapped_words l). rewrite (zlen_app s (concat l)). destruct s; [exact IH|unfold bytes in *; lia]. }
    rewrite !zlen_cons in H1. eapply Z.le_lt_trans; [exact H1|]. unfold bytes in *. lia. }
  assert (forall g c, In (g, c) es <-> 1 <= zlen g <= order /\ c = occ g /\ 0 < c) as Hes.
  { intros g c. rewrite Hes0. rewrite Z.mod_small; [reflexivity|]. pose proof (occ_u32_gen first last sentences Hsz g) as H. unfold is_u32 in H. exact H. }
  exists es. split; [exact Hnd|]. split; [exact Hes|]. unfold WriteNGrams. rewrite Hwalk. rewrite write_files; [reflexivity|]. intros g c Hin. apply Hes in Hin. unfold zlen in Hin. lia.
Qed.
(* the file of an order *)
Lemma order_file es i : NoDup (map fst es) -> (forall g c, In (g, c) es <-> 1 <= zlen g <= order /\ c = occ g /\ 0 < c) -> (1 <= i <= Z.to_nat order)%nat ->
  counts_file first last sentences (Z.of_nat i) (file_of (of_order i es)).
Proof.
  intros Hnd Hes Hi. exists (of_order i es). split; [|split; [|reflexivity]].
  - unfold of_order. clear - Hnd. induction es as [|e es IH]; [constructor|]. cbn [map] in Hnd. apply NoDup_cons_iff in Hnd. destruct Hnd as [H1 H2]. cbn [filter]. destruct (length (fst e) =? i)%nat; [|apply IH, H2]. cbn [map]. constructor; [|apply IH, H2].
    intros H. apply H1. apply in_map_iff in H. destruct H as (x & Ex & Hx). apply filter_In in Hx. rewrite <- Ex. apply in_map. apply Hx.
  - intros g c. unfold of_order. rewrite filter_In. cbn [fst]. rewrite Hes. unfold zlen. rewrite Nat.eqb_eq. lia.
Qed.
Lemma file_empty n t : counts_file first last sentences n t -> t = [] -> forall g, zlen g = n -> occ g <= 0.
Proof.
  intros (es & _ & Hes & ->) E g Hg. destruct (Z.leb_spec (occ g) 0) as [H|H]; [exact H|exfalso]. assert (In (g, occ g) es) as Hin by (apply Hes; auto). destruct es as [|e es]; [exact Hin|]. cbn [flat_map] in E. apply app_eq_nil in E. destruct E as [E _]. unfold ngram_line in E. apply app_eq_nil in E. destruct E as [_ E]. discriminate.
Qed.
(* a sentence that is long enough has a run of n words, and only such a sentence *)
Lemma run_occurs n : 1 <= n -> (exists s, In s sentences /\ s <> [] /\ n <= zlen s + 2) <-> exists g, zlen g = n /\ 0 < occ g.
Proof.
  intros Hn. split.
  - intros (s & Hin & Hs & Hl). set (t := first :: s ++ [last]). assert (zlen t = zlen s + 2) as Hz by (unfold t; rewrite zlen_cons, zlen_app, zlen_cons, zlen_nil; lia).
    exists (firstn (Z.to_nat n) t). assert (zlen (firstn (Z.to_nat n) t) = n) as Hf by (unfold zlen in *; rewrite firstn_length; lia). split; [exact Hf|].
    rewrite occ_tokens. apply Z.lt_le_trans with (occurrences (firstn (Z.to_nat n) t) t).
    + unfold occurrences. assert (In 0%nat (filter (fun i => sent_eqb (firstn (length (firstn (Z.to_nat n) t)) (skipn i t)) (firstn (Z.to_nat n) t)) (seq 0 (length t)))) as Hi.
      { apply filter_In. split; [apply in_seq; unfold zlen in *; lia|]. apply sent_eqb_ok. cbn [skipn]. replace (length (firstn (Z.to_nat n) t)) with (Z.to_nat n) by (unfold zlen in Hf; lia). reflexivity. }
      destruct (filter _ _) as [|x l]; [destruct Hi|]. rewrite zlen_cons. pose proof (zlen_nonneg l). lia.
    + apply zsum_in; [intros; apply occ_nonneg|]. unfold corpus_tokens. apply in_map_iff. exists s. split; [reflexivity|]. apply filter_In. split; [exact Hin|]. destruct s; [exfalso; apply Hs; reflexivity|]. rewrite zlen_cons. pose proof (zlen_nonneg s). lia.
  - intros (g & Hg & Hp). rewrite occ_tokens in Hp. destruct (zsum_pos _ _ ltac:(intros; apply occ_nonneg) Hp) as (t & Hin & Hpos). unfold corpus_tokens in Hin. apply in_map_iff in Hin. destruct Hin as (s & <- & Hs). apply filter_In in Hs. destruct Hs as [Hs Hz].
    exists s. split; [exact Hs|]. split; [intros ->; discriminate Hz|]. assert (g <> []) as Hne by (intros ->; change (zlen (@nil bytes)) with 0 in Hg; lia).
    unfold occurrences in Hpos. destruct (filter _ _) as [|i l] eqn:E; [change (zlen (@nil nat)) with 0 in Hpos; lia|]. assert (In i (i :: l)) as Hi by (left; reflexivity). rewrite <- E in Hi. apply filter_In in Hi. destruct Hi as [_ Hi]. apply sent_eqb_ok in Hi.
    apply (f_equal (@zlen _)) in Hi. assert (zlen (first :: s ++ [last]) = zlen s + 2) as Hzs by (rewrite zlen_cons, zlen_app, zlen_cons, zlen_nil; lia). rewrite <- Hzs. rewrite <- Hg, <- Hi. unfold zlen. rewrite firstn_length, skipn_length. lia.
Qed.
End Trained.

(** Without a configuration file no command succeeds, and nothing is changed. *)
Theorem C98_no_configuration : forall lowr asort tord bsrt L chunk fuel mfuel O configPath k, k configPath = None ->
  (exists e, ngram_count_command lowr asort tord chunk fuel O configPath k = (k, Fail e)) /\ (exists e, build_lm_command bsrt L chunk fuel mfuel O configPath k = (k, Fail e)) /\
  forall flog stdin, exists e, lm_eval_command lowr asort chunk fuel O flog configPath k stdin = ([], Some (Fail e)).
Proof.
  intros lowr asort tord bsrt L chunk fuel mfuel O configPath k Hk. assert (exists e, read_config k configPath = Fail e) as (e & He) by (unfold read_config, read_text; rewrite Hk; eexists; reflexivity).
  unfold ngram_count_command, build_lm_command, configured_command, lm_eval_command. rewrite He. repeat split; try (intros; eexists; reflexivity).
Qed.
Print Assumptions C98_no_configuration.

(** After ngram-count, for every text a model can be trained on and every configuration file
    that says so: the file of each order holds the n-grams of the text with their numbers of
    occurrences, and no other file has changed. *)
Theorem C98_counts : forall lowr asort tord chunk fuel O k configPath c text sentences,
  model_says k configPath c -> k (GetSourcePath (model_place c)) = Some (CText text) ->
  trainable lowr (words_alphabet asort c) (separators_alphabet asort c) (m_start c) (m_end c) (m_order c) text sentences ->
  model_writable O c -> (forall p l, Permutation l (tord p l)) -> (2 * length text + 1 < fuel)%nat ->
  exists k1, ngram_count_command lowr asort tord chunk fuel O configPath k = (k1, Ret tt) /\
    (forall i, 1 <= i <= m_order c -> exists t, k1 (ngram_path (model_place c) i) = Some (CText t) /\ counts_file (m_start c) (m_end c) sentences i t) /\
    (forall path, ~ In path (ngram_paths c) -> k1 path = k path).
Proof.
  intros lowr asort tord chunk fuel O k configPath c text sentences Hsay Hsrc Ht [Hdir Hcr] Hord Hfuel.
  destruct (counted Ht tord chunk fuel Hord Hfuel) as (Eb & es & Hnd & Hes & Ew). unfold ngram_count_command, configured_command. rewrite (model_read _ _ _ Hsay).
  unfold count_model. cbv zeta. rewrite Hsrc. assert (text_at k (GetSourcePath (model_place c)) = text) as -> by (unfold text_at; rewrite Hsrc; reflexivity). rewrite Eb, Hdir. cbn [negb].
  pose proof (create_all_ok O (ngram_paths c) (fun f Hf => Hcr f (paths_in c f Hf)) k) as Hc. destruct (create_all O k (ngram_paths c)) as [k0 created]. cbn [snd] in Hc. subst created. cbn [negb]. rewrite Ew.
  eexists. split; [reflexivity|]. pose proof (tn_order _ _ _ _ _ _ _ _ Ht) as Ho. split; [|intros path Hp; apply put_all_other, Hp].
  intros i Hi. exists (file_of (of_order (Z.to_nat i) es)). split; [|rewrite <- (Z2Nat.id i) at 1 by lia; apply (order_file (order := m_order c)); [exact Hnd|exact Hes|lia]].
  assert (nth_error (seq 1 (Z.to_nat (m_order c))) (Z.to_nat i - 1) = Some (Z.to_nat i)) as Hn.
  { rewrite nth_error_nth' with (d := 0%nat) by (rewrite seq_length; lia). rewrite seq_nth by lia. f_equal. lia. }
  apply (put_all_in _ (paths_nodup c ltac:(lia)) k _ (Z.to_nat i - 1)).
  - unfold ngram_paths. rewrite (map_nth_error _ _ _ Hn). rewrite Z2Nat.id by lia. reflexivity.
  - apply map_nth_error. apply map_nth_error. unfold by_order. rewrite (map_nth_error _ _ _ Hn). reflexivity.
Qed.
Print Assumptions C98_counts.

(** ** Building *)
Lemma opened (k : disk) : forall ps files, Forall2 (fun p f => k p = Some (CText f) /\ f <> []) ps files -> open_inputs k ps = files.
Proof.
  induction 1 as [|p f ps files [Hp Hf] _ IH]; [reflexivity|]. cbn [open_inputs]. unfold open_input, text_at. rewrite Hp. destruct f as [|b f]; [exfalso; apply Hf; reflexivity|]. rewrite IH. reflexivity.
Qed.
Lemma build_run bsrt L chunk fuel mfuel O (k : disk) c ones rest words recs :
  model_writable O c -> m_order c >= 1 -> open_inputs k (ngram_paths c) = ones :: rest -> dictionaryWords chunk fuel ones = Ret words -> WriteDictionary L words = Ret recs ->
  match build_lm (m_order c) bsrt chunk fuel mfuel (ones :: rest) with
  | Ret (words', binary) => words' = words /\ build_model bsrt L chunk fuel mfuel O k c = (put (put k (GetDictionaryFile (model_place c)) (CDict recs)) (binary_path (model_place c)) (CText binary), Ret tt)
  | NoFuel => exists k2, build_model bsrt L chunk fuel mfuel O k c = (k2, NoFuel)
  | Fail _ => exists k2 e, build_model bsrt L chunk fuel mfuel O k c = (k2, Fail e)
  | Panic => exists k2, build_model bsrt L chunk fuel mfuel O k c = (k2, Panic)
  end.
Proof.
  intros [Hdir Hcr] Ho Hopen Hdict Hrec. unfold build_lm, StoreBinaryLMFromGoogleFormat, build_model. cbv zeta. rewrite Hdir. cbn [negb].
  assert (open_input k (ngram_path (model_place c) 1) = Some ones) as ->.
  { unfold ngram_paths in Hopen. destruct (Z.to_nat (m_order c)) as [|n] eqn:En; [lia|]. cbn [seq map open_inputs] in Hopen. change (Z.of_nat 1) with 1 in Hopen. destruct (open_input k (ngram_path (model_place c) 1)); [injection Hopen as -> _; reflexivity|discriminate]. }
  rewrite (Hcr _ (cdb_in c)), (Hcr _ (lm_in c)). cbn [negb]. rewrite Hdict. cbn [bind]. rewrite Hrec. cbn [bind]. destruct (BuildMph mfuel bsrt words) as [table| | |]; cbn [bind]; [|eexists; try eexists; reflexivity..].
  rewrite Hopen. destruct (ReadNGrams _ _ _ _ _) as [model| | |]; cbn [bind]; [|eexists; try eexists; reflexivity..].
  destruct (StoreBinary model table []) as [out| | |]; cbn [bind]; [split; reflexivity|eexists; try eexists; reflexivity..].
Qed.
Section Built.
Context {lowr : Z -> Z} {has sep : Z -> bool} {first last : bytes} {order : Z} {text : bytes} {sentences : list (list bytes)}.
Notation occ := (occurrences_in first last sentences).
Context (Ht : trainable lowr has sep first last order text sentences).
Lemma dictionary_read es chunk fuel L : NoDup (map fst es) -> (forall g c, In (g, c) es <-> 1 <= zlen g <= order /\ c = occ g /\ 0 < c) -> (2 * length (file_of (of_order 1 es)) + 1 < fuel)%nat ->
  cdb_ok L -> words_fit first last sentences ->
  exists words, dictionaryWords chunk fuel (file_of (of_order 1 es)) = Ret words /\ NoDup words /\ (forall w, In w words <-> 0 < occ [w]) /\ (forall w, In w words -> w <> []) /\ WriteDictionary L words = Ret (recs_from 0 words).
Proof.
  intros Hnd Hes Hfuel HL Hfit. destruct (trained_words Ht) as (K & Hw & HK). pose proof (tn_order _ _ _ _ _ _ _ _ Ht) as Ho. pose proof (tn_size _ _ _ _ _ _ _ _ Ht) as Hsz. pose proof (tn_some _ _ _ _ _ _ _ _ Ht) as Hne.
  pose proof (es_writable first last sentences order K Hw HK Hsz es Hes) as Hwr. exists (P_Trained.words_of es).
  pose proof (words_nodup first last sentences order K Hw es Hnd Hes) as N. pose proof (fun w => words_in first last sentences order K Ho Hw es Hnd Hes w) as I. split.
  { apply TrainedProofs.dictionary_ok; [apply (writable_orders _ _ _ Hwr)| |exact Hfuel].
    apply Forall_forall. intros e He. destruct (one_shape first last sentences order K Hw es Hes e He) as (w & -> & _ & Hn). split; [reflexivity|exact Hn]. }
  split; [exact N|]. split; [exact I|]. split.
  { intros w Hiw. apply I in Hiw. apply (Hw w). apply (corpus_words first last sentences [w] w Hiw); [discriminate|left; reflexivity]. }
  specialize (Hfit _ N I). pose proof (fold_pos (P_Trained.words_of es)) as Hfp. pose proof (zlen_nonneg (P_Trained.words_of es)) as Hzn.
  unfold WriteDictionary. rewrite (built L HL _ 0 []); [reflexivity|lia|unfold bytes in *; lia|exact Hfit].
Qed.
End Built.
(* counting, with the files as they are written *)
Lemma count_run lowr asort tord chunk fuel O k configPath c text sentences :
  model_says k configPath c -> k (GetSourcePath (model_place c)) = Some (CText text) ->
  trainable lowr (words_alphabet asort c) (separators_alphabet asort c) (m_start c) (m_end c) (m_order c) text sentences ->
  model_writable O c -> (forall p l, Permutation l (tord p l)) -> (2 * length text + 1 < fuel)%nat ->
  exists k1 es, ngram_count_command lowr asort tord chunk fuel O configPath k = (k1, Ret tt) /\ NoDup (map fst es) /\ (forall g n, In (g, n) es <-> 1 <= zlen g <= m_order c /\ n = occurrences_in (m_start c) (m_end c) sentences g /\ 0 < n) /\
    ngram_count lowr (words_alphabet asort c) (separators_alphabet asort c) (m_start c) (m_end c) (m_order c) tord chunk fuel text = Ret (map file_of (by_order (Z.to_nat (m_order c)) es)) /\
    Forall2 (fun p f => k1 p = Some (CText f)) (ngram_paths c) (map file_of (by_order (Z.to_nat (m_order c)) es)) /\ (forall path, ~ In path (ngram_paths c) -> k1 path = k path).
Proof.
  intros Hsay Hsrc Ht [Hdir Hcr] Hord Hfuel.
  destruct (counted Ht tord chunk fuel Hord Hfuel) as (Eb & es & Hnd & Hes & Ew). unfold ngram_count_command, configured_command. rewrite (model_read _ _ _ Hsay).
  unfold count_model. cbv zeta. rewrite Hsrc. assert (text_at k (GetSourcePath (model_place c)) = text) as -> by (unfold text_at; rewrite Hsrc; reflexivity). rewrite Eb, Hdir. cbn [negb].
  pose proof (create_all_ok O (ngram_paths c) (fun f Hf => Hcr f (paths_in c f Hf)) k) as Hc. destruct (create_all O k (ngram_paths c)) as [k0 created]. cbn [snd] in Hc. subst created. cbn [negb]. rewrite Ew.
  eexists. exists es. split; [reflexivity|]. split; [exact Hnd|]. split; [exact Hes|]. pose proof (tn_order _ _ _ _ _ _ _ _ Ht) as Ho. split; [unfold ngram_count; rewrite Eb; cbn [bind]; exact Ew|]. split; [|intros path Hp; apply put_all_other, Hp].
  pose proof (paths_nodup c ltac:(lia)) as Hpn. assert (length (ngram_paths c) = length (map file_of (by_order (Z.to_nat (m_order c)) es))) as Hl by (unfold ngram_paths, by_order; rewrite !map_length; reflexivity).
  generalize dependent (map file_of (by_order (Z.to_nat (m_order c)) es)). intros files _ Hl. generalize dependent (ngram_paths c). intros ps Hpn Hl. clear - Hpn Hl. revert k files Hl. induction Hpn as [|p ps Hp Hnd IH]; intros k files Hl; (destruct files as [|f files]; [try discriminate|try discriminate]); [constructor|].
  cbn [map put_all]. constructor; [rewrite put_all_other by exact Hp; apply put_same|]. apply IH. injection Hl as Hl. exact Hl.
Qed.
Lemma nonempty_files {first last sentences order es} : NoDup (map fst es) -> (forall g n, In (g, n) es <-> 1 <= zlen g <= order /\ n = occurrences_in first last sentences g /\ 0 < n) ->
  (exists s, In s sentences /\ s <> [] /\ order <= zlen s + 2) -> Forall (fun f => f <> []) (map file_of (by_order (Z.to_nat order) es)).
Proof.
  intros Hnd Hes (s & Hs & Hne & Hl). apply Forall_forall. intros f Hf. apply in_map_iff in Hf. destruct Hf as (e & <- & He). unfold by_order in He. apply in_map_iff in He. destruct He as (i & <- & Hi). apply in_seq in Hi. intros E.
  destruct (proj1 (run_occurs (first := first) (last := last) (sentences := sentences) (Z.of_nat i) ltac:(lia))) as (g & Hg & Hp); [exists s; split; [exact Hs|split; [exact Hne|lia]]|].
  pose proof (file_empty (Z.of_nat i) _ (order_file (order := order) es i Hnd Hes ltac:(lia)) E g Hg). lia.
Qed.
Lemma forall2_and {A B} (P : A -> B -> Prop) (Q : B -> Prop) l1 l2 : Forall2 P l1 l2 -> Forall Q l2 -> Forall2 (fun a b => P a b /\ Q b) l1 l2.
Proof. induction 1 as [|x y l1 l2 Hxy _ IH]; intros HQ; constructor; [split; [assumption|apply (Forall_inv HQ)]|apply IH; apply (Forall_inv_tail HQ)]. Qed.
Lemma forall2_right {A B} (P : A -> B -> Prop) l1 l2 b : Forall2 P l1 l2 -> In b l2 -> exists a, In a l1 /\ P a b.
Proof. induction 1 as [|x y l1 l2 Hxy _ IH]; intros Hin; [destruct Hin|]. destruct Hin as [<- |Hin]; [exists x; split; [left; reflexivity|exact Hxy]|]. destruct (IH Hin) as (a & Ha & HP). exists a. split; [right; exact Ha|exact HP]. Qed.

(** ** C98: the scores *)
(** For every configuration file and every text a model of its order can be trained on that has
    a sentence of at least [order - 2] words: ngram-count succeeds; build-lm after it succeeds
    or never ends (C54 and C55: the search for the hash function); and every session of eval
    after that answers the lines with the scores of their sentences in that text. *)
Theorem C98_scores_partial : forall lowr asort tord bsrt L chunk chunk' chunk2 fuel fuel' fuel2 mfuel O k configPath c text sentences,
  model_says k configPath c -> ~ In configPath (files_of_model c) -> k (GetSourcePath (model_place c)) = Some (CText text) ->
  trainable lowr (words_alphabet asort c) (separators_alphabet asort c) (m_start c) (m_end c) (m_order c) text sentences ->
  (exists s, In s sentences /\ s <> [] /\ m_order c <= zlen s + 2) -> words_fit (m_start c) (m_end c) sentences ->
  model_writable O c -> (forall p l, Permutation l (tord p l)) -> sorts_by_size bsrt -> cdb_ok L -> (2 * length text + 1 < fuel)%nat -> Z.of_nat mfuel < 2 ^ 31 - 1 ->
  exists k1, ngram_count_command lowr asort tord chunk fuel O configPath k = (k1, Ret tt) /\
  ((forall f, In f (ngram_paths c) -> (2 * length (text_at k1 f) + 1 < fuel')%nat) ->
   (exists k2, build_lm_command bsrt L chunk' fuel' mfuel O configPath k1 = (k2, NoFuel)) \/
   exists k2, build_lm_command bsrt L chunk' fuel' mfuel O configPath k1 = (k2, Ret tt) /\
     (zlen (text_at k2 (binary_path (model_place c))) < 2 ^ 63 -> forall flog stdin asked, (2 * length stdin + 1 < fuel2)%nat -> Forall2 (text_words lowr (words_alphabet asort c)) (lines_in stdin) asked ->
      exists o, lm_eval_command lowr asort chunk2 fuel2 O flog configPath k2 stdin = (o, Some (if forallb line_fits (raw_lines stdin) then Ret tt else Fail ErrTooLong)) /\
        answers o = map (fun s => (s, sentence_score flog (m_start c) (m_end c) (m_order c) sentences s)) (filter (fun s => match s with [] => false | _ => true end) asked))).
Proof.
  intros lowr asort tord bsrt L chunk chunk' chunk2 fuel fuel' fuel2 mfuel O k configPath c text sentences Hsay Hconf Hsrc Ht Hlong Hfit Hwr Hord Hsrt HL Hfuel Hmf.
  destruct (count_run lowr asort tord chunk fuel O k configPath c text sentences Hsay Hsrc Ht Hwr Hord Hfuel) as (k1 & es & Ec & Hnd & Hes & Ecount & Hfiles & Hkeep). exists k1. split; [exact Ec|]. intros Hf'.
  set (files := map file_of (by_order (Z.to_nat (m_order c)) es)) in *. pose proof (nonempty_files Hnd Hes Hlong) as Hne. fold files in Hne. pose proof (opened k1 _ _ (forall2_and _ _ _ _ Hfiles Hne)) as Hopen.
  assert (forall f, In f files -> (2 * length f + 1 < fuel')%nat) as Hff.
  { intros f Hin. destruct (forall2_right _ _ _ f Hfiles Hin) as (p & Hp & Ep). specialize (Hf' p Hp). unfold text_at in Hf'. rewrite Ep in Hf'. exact Hf'. }
  pose proof (tn_order _ _ _ _ _ _ _ _ Ht) as Ho. assert (exists rest, files = file_of (of_order 1 es) :: rest) as [rest Er].
  { unfold files, by_order. destruct (Z.to_nat (m_order c)) as [|n] eqn:En; [lia|]. cbn [seq map]. eexists. reflexivity. }
  destruct (dictionary_read Ht es chunk' fuel' L Hnd Hes ltac:(apply Hff; rewrite Er; left; reflexivity) HL Hfit) as (words & Ed & _ & _ & _ & Ew).
  assert (model_says k1 configPath c) as Hsay1 by (apply (says_kept k k1 _ _ Hsay), Hkeep; intros H; apply Hconf, paths_in, H).
  assert (forall w, In w (m_start c :: m_end c :: concat sentences) -> zlen w <= zlen w) as _ by (intros; lia).
  destruct (tn_short _ _ _ _ _ _ _ _ Ht) as (K & HK & HK'). destruct (tn_words _ _ _ _ _ _ _ _ Ht) as (H32 & H9 & H10).
  destruct (C70_text_to_scores_partial lowr (words_alphabet asort c) (separators_alphabet asort c) (m_start c) (m_end c) (m_order c) text sentences tord bsrt chunk chunk' fuel fuel' mfuel K
    (tn_sep _ _ _ _ _ _ _ _ Ht) H32 H9 H10 (tn_first _ _ _ _ _ _ _ _ Ht) (tn_last _ _ _ _ _ _ _ _ Ht) Ho Hord Hsrt (tn_text _ _ _ _ _ _ _ _ Ht) HK HK' (tn_some _ _ _ _ _ _ _ _ Ht) (tn_size _ _ _ _ _ _ _ _ Ht) Hmf Hfuel) as (files' & Ec' & H70).
  rewrite Ecount in Ec'. injection Ec' as <-. specialize (H70 Hff). rewrite Er in Hopen, H70.
  pose proof (build_run bsrt L chunk' fuel' mfuel O k1 c _ rest words (recs_from 0 words) Hwr ltac:(lia) Hopen Ed Ew) as Hrun. unfold build_lm_command, configured_command. rewrite (model_read _ _ _ Hsay1).
  destruct H70 as [E|(words' & binary & E & Hl)]; rewrite E in Hrun; [left; exact Hrun|right]. destruct Hrun as [-> Hrun]. eexists. split; [exact Hrun|].
  set (k2 := put _ _ _). assert (k2 (GetDictionaryFile (model_place c)) = Some (CDict (recs_from 0 words))) as K1 by (unfold k2; rewrite put_other by apply cdb_not_lm; apply put_same).
  assert (k2 (binary_path (model_place c)) = Some (CText binary)) as K2 by (unfold k2; apply put_same). intros Hbz flog stdin asked Hst Hasked.
  assert (text_at k2 (binary_path (model_place c)) = binary) as Etx by (unfold text_at; rewrite K2; reflexivity). rewrite Etx in Hbz. destruct (Hl Hbz) as (l & El & Hlines).
  assert (model_says k2 configPath c) as Hsay2.
  { apply (says_kept k1 k2 _ _ Hsay1). unfold k2. rewrite !put_other; [reflexivity| |]; intros E'; apply Hconf; rewrite E'; [apply cdb_in|apply lm_in]. }
  assert (binary <> []) as Hbne. { intros E0. rewrite E0 in El. unfold eval_load, RetrieveLMFromBinary in El. vm_compute in El. discriminate. }
  unfold lm_eval_command. rewrite (model_read _ _ _ Hsay2). cbn [wrapped bind]. unfold load_model, open_model. cbv zeta. rewrite (proj1 Hwr). cbn [negb]. rewrite K1. unfold open_input. rewrite Etx. destruct binary as [|b0 binary0]; [exfalso; apply Hbne; reflexivity|].
  cbn [bind]. rewrite map_snd_recs. unfold eval_load in El. rewrite El. cbn [bind].
  destruct (lm_eval lowr chunk2 fuel2 flog (words_alphabet asort c) l stdin) as [o r] eqn:Eo. destruct (C89_lm lowr chunk2 fuel2 flog (words_alphabet asort c) l stdin asked o r Hst Hasked Eo) as (A1 & A2 & A3 & A4). cbv zeta in A1, A2, A3, A4.
  set (qs := filter (fun s => match s with [] => false | _ => true end) asked) in *.
  assert (forall s, In s qs -> ScoreSentence flog l s = Ret (sentence_score flog (m_start c) (m_end c) (m_order c) sentences s)) as Hsc.
  { intros s Hin. unfold qs in Hin. apply filter_In in Hin. destruct Hin as [Hin Hns]. destruct (forall2_right _ _ _ s Hasked Hin) as (line & _ & Hline). specialize (Hlines flog line s Hline). unfold eval_line in Hlines. rewrite (proj1 (tokenize_iff _ _ _ _) Hline) in Hlines. cbn [bind] in Hlines.
    destruct s as [|w s]; [discriminate Hns|]. assert (zlen (w :: s) =? 0 = false) as Hz by (rewrite zlen_cons; pose proof (zlen_nonneg s); lia). rewrite Hz in Hlines. destruct (ScoreSentence flog l (w :: s)) as [x| | |]; cbn [bind] in Hlines; try discriminate. injection Hlines as ->. reflexivity. }
  assert (length (answers o) = length qs) as Hall.
  { destruct (Nat.eq_dec (length (answers o)) (length qs)) as [|Hn]; [assumption|exfalso]. destruct (A4 ltac:(lia)) as (s & Hs & Hno). apply nth_error_In in Hs. exact (Hno _ (Hsc s Hs)). }
  exists o. split; [rewrite (A3 Hall); reflexivity|]. clear - A2 Hall Hsc. revert A2 Hall Hsc. generalize (answers o) qs. clear. intros ans. induction ans as [|a l0 IH]; intros [|s qs] A2 Hall Hsc; try discriminate; [reflexivity|].
  cbn [map]. destruct (A2 0%nat a eq_refl) as [E1 E2]. injection E1 as E1. rewrite <- E1 in E2. rewrite (Hsc s (or_introl eq_refl)) in E2. injection E2 as E2. f_equal; [destruct a; cbn [fst snd] in *; congruence|].
  apply IH; [intros i a' Ha'; apply (A2 (S i) a' Ha')|injection Hall as Hall; exact Hall|intros s' Hs'; apply Hsc; right; exact Hs'].
Qed.
Print Assumptions C98_scores_partial.

(** ** C98: an order that is too large *)
Lemma read_files_short get chunk fuel : forall n vs files ixs, read_files get chunk fuel n vs files = Ret ixs -> (n <= length files)%nat.
Proof.
  induction n as [|n IH]; intros vs files ixs E; [lia|]. cbn [read_files] in E. destruct files as [|f files]; [discriminate|]. destruct (readNGramVector _ _ _ _ _) as [t| | |]; cbn [bind] in E; try discriminate. apply IH in E. cbn [length]. lia.
Qed.
Lemma open_inputs_all (k : disk) : forall ps, (length ps <= length (open_inputs k ps))%nat -> forall p, In p ps -> open_input k p <> None.
Proof.
  assert (forall ps, (length (open_inputs k ps) <= length ps)%nat) as Hle.
  { induction ps as [|p ps IH]; [cbn; lia|]. cbn [open_inputs]. destruct (open_input k p); cbn [length]; lia. }
  induction ps as [|p ps IH]; intros Hl q Hq; [destruct Hq|]. cbn [open_inputs length] in Hl. destruct (open_input k p) as [b|] eqn:E; cbn [length] in Hl; [|lia]. destruct Hq as [<- |Hq]; [rewrite E; discriminate|apply IH; [lia|exact Hq]].
Qed.
(** If no sentence of the text has [order - 2] words, there are no n-grams of the order, their
    file is empty, and build-lm, which maps it into memory, never succeeds: the model's binary
    is left as it was. *)
Theorem C98_order_refuted : forall lowr asort tord bsrt L chunk chunk' fuel fuel' mfuel O k configPath c text sentences,
  model_says k configPath c -> ~ In configPath (files_of_model c) -> k (GetSourcePath (model_place c)) = Some (CText text) ->
  trainable lowr (words_alphabet asort c) (separators_alphabet asort c) (m_start c) (m_end c) (m_order c) text sentences ->
  (forall s, In s sentences -> zlen s + 2 < m_order c) ->
  model_writable O c -> (forall p l, Permutation l (tord p l)) -> (2 * length text + 1 < fuel)%nat ->
  exists k1, ngram_count_command lowr asort tord chunk fuel O configPath k = (k1, Ret tt) /\
    forall k2 r, build_lm_command bsrt L chunk' fuel' mfuel O configPath k1 = (k2, r) -> r <> Ret tt /\ k2 (binary_path (model_place c)) = k1 (binary_path (model_place c)).
Proof.
  intros lowr asort tord bsrt L chunk chunk' fuel fuel' mfuel O k configPath c text sentences Hsay Hconf Hsrc Ht Hshort Hwr Hord Hfuel.
  destruct (C98_counts lowr asort tord chunk fuel O k configPath c text sentences Hsay Hsrc Ht Hwr Hord Hfuel) as (k1 & Ec & Hfiles & Hkeep). exists k1. split; [exact Ec|]. intros k2 r E.
  assert (model_says k1 configPath c) as Hsay1 by (apply (says_kept k k1 _ _ Hsay), Hkeep; intros H; apply Hconf, paths_in, H). unfold build_lm_command, configured_command in E. rewrite (model_read _ _ _ Hsay1) in E.
  pose proof (tn_order _ _ _ _ _ _ _ _ Ht) as Ho.
  assert (forall get model, ReadNGrams get chunk' fuel' (m_order c) (open_inputs k1 (ngram_paths c)) <> Ret model) as Hno.
  { intros get model Em. unfold ReadNGrams in Em. destruct (m_order c =? 0); [discriminate|]. destruct (read_files _ _ _ _ _ _) as [ixs| | |] eqn:Er; try discriminate. apply read_files_short in Er.
    assert (length (ngram_paths c) = Z.to_nat (m_order c)) as Hl by (unfold ngram_paths; rewrite map_length, seq_length; reflexivity). rewrite <- Hl in Er.
    destruct (Hfiles (m_order c) ltac:(lia)) as (t & Et & Hcf). refine (open_inputs_all k1 _ Er (ngram_path (model_place c) (m_order c)) _ _).
    - unfold ngram_paths. apply in_map_iff. exists (Z.to_nat (m_order c)). rewrite Z2Nat.id by lia. split; [reflexivity|]. apply in_seq. lia.
    - unfold open_input, text_at. rewrite Et. destruct Hcf as (es & _ & Hes & ->). destruct es as [|[g n] es]; [reflexivity|exfalso].
      destruct (proj1 (Hes g n) (or_introl eq_refl)) as (Hg & -> & Hp). destruct (proj2 (run_occurs (first := m_start c) (last := m_end c) (sentences := sentences) (m_order c) ltac:(lia))) as (s & Hs & _ & Hz); [exists g; auto|]. specialize (Hshort s Hs). lia. }
  unfold build_model in E. cbv zeta in E. pose proof (cdb_not_lm (model_place c)) as Hcl. assert (binary_path (model_place c) <> GetDictionaryFile (model_place c)) as Hlc by congruence.
  destruct (o_dir O _); cbn [negb] in E; [|injection E as <- <-; split; [discriminate|reflexivity]].
  destruct (open_input k1 _); [|injection E as <- <-; split; [discriminate|reflexivity]].
  destruct (o_create O _); cbn [negb] in E; [|injection E as <- <-; split; [discriminate|reflexivity]].
  destruct (x <- dictionaryWords _ _ _ ;; _) as [[words recs]| | |]; [|injection E as <- <-; split; [discriminate|apply put_other, Hlc]..].
  destruct (BuildMph _ _ _); [|injection E as <- <-; split; [discriminate|apply put_other, Hlc]..].
  destruct (ReadNGrams _ _ _ _ _) as [model| | |] eqn:Em; [exfalso; exact (Hno _ _ Em)|injection E as <- <-; split; [discriminate|apply put_other, Hlc]..].
Qed.
Print Assumptions C98_order_refuted.

(** ** C98: the predictions *)
Lemma trainable_training lowr has sep first last order text sentences : trainable lowr has sep first last order text sentences -> 2 <= order -> training lowr has sep first last order text sentences.
Proof. intros [A B C D E F G H I] Ho. constructor; try assumption. lia. Qed.
Lemma alpha_half : alpha_ok f_half.
Proof.
  assert (f_half = S754_finite false 4503599627370496 (-53)) as -> by (vm_compute; reflexivity). split; [split; vm_compute; reflexivity|]. rewrite val_finite. cbn [sgn].
  change (Flocq.Core.Raux.bpow Flocq.Core.Zaux.radix2 (-53)) with (/ IZR (Z.pow_pos 2 53))%R. change (Z.pow_pos 2 53) with 9007199254740992. lra.
Qed.
(** The same for the spellchecker: started on the model that the two commands left, it answers
    the lines of a session with the words of the text that C87 promises, up to five of them
    (and one more), for a similarity of one half. *)
Theorem C98_predict_partial : forall lowr asort tord bsrt srt stable rb g ord L chunk chunk' chunk2 fuel fuel' fuel2 mfuel O k configPath c text sentences,
  model_says k configPath c -> ~ In configPath (files_of_model c) -> k (GetSourcePath (model_place c)) = Some (CText text) ->
  trainable lowr (words_alphabet asort c) (separators_alphabet asort c) (m_start c) (m_end c) (m_order c) text sentences -> 2 <= m_order c ->
  (exists s, In s sentences /\ s <> [] /\ m_order c <= zlen s + 2) -> words_fit (m_start c) (m_end c) sentences ->
  model_writable O c -> world L rb g ord tord srt bsrt stable -> (2 * length text + 1 < fuel)%nat -> Z.of_nat mfuel < 2 ^ 31 - 1 ->
  let d := tokenizer_of asort words_description in let occ := occurrences_in (m_start c) (m_end c) sentences in
  exists k1, ngram_count_command lowr asort tord chunk fuel O configPath k = (k1, Ret tt) /\
  ((forall f, In f (ngram_paths c) -> (2 * length (text_at k1 f) + 1 < fuel')%nat) ->
   (exists k2, build_lm_command bsrt L chunk' fuel' mfuel O configPath k1 = (k2, NoFuel)) \/
   exists k2 words, build_lm_command bsrt L chunk' fuel' mfuel O configPath k1 = (k2, Ret tt) /\ NoDup words /\ (forall w, In w words <-> 0 < occ [w]) /\
     (zlen (text_at k2 (binary_path (model_place c))) < 2 ^ 63 -> dictionary_ok lowr d words ->
      (forall ops b, IndexCdb L rb g ord "words" (ToLower lowr) d (recs_from 0 words) = Ret ops -> ram_open (ram_run NewRAMDirectory ops) (documentListFile "words") = Some b -> zlen b < 2 ^ 32) ->
      forall flog scheds scheds' stdin o r, log_ok flog -> (2 * length stdin + 1 < fuel2)%nat ->
      spell_eval_command lowr asort L rb g ord O srt chunk2 fuel2 flog stable scheds scheds' configPath k2 stdin = (o, r) ->
      (length (answers o) <= length (questions asks_spell (lines_in stdin)))%nat /\
      forall i vs, nth_error (answers o) i = Some vs -> exists query, nth_error (questions asks_spell (lines_in stdin)) i = Some query /\
        forall seq word, text_words lowr (words_alphabet asort c) query (seq ++ [word]) ->
        let terms := prefix_grams lowr d word in let tokens := entry_grams lowr d word in let ctx := context_of (m_order c) (m_start c) seq in
        let known := seq <> [] /\ exists w, 0 < occ (ctx ++ [w]) in
        let completes := fun w => forall t, In t terms -> In t (entry_grams lowr d w) in
        NoDup terms -> 1 <= zlen terms < 2 ^ 32 -> NoDup tokens -> 1 <= zlen tokens <= 65535 ->
        (exists w, 0 < occ [w] /\ MinY Cosine f_half (zlen tokens) <= zlen (entry_grams lowr d w)) ->
        zlen vs <= 6 /\ NoDup vs /\
        (forall w, In w vs -> 0 < occ [w] /\ (completes w \/ (gram_similarity lowr d Cosine tokens w >= val f_half * (1 - / 2 ^ 46))%R)) /\
        (known -> StronglySorted (fun v w => occ (ctx ++ [w]) <= occ (ctx ++ [v])) vs) /\
        (forall w, 0 < occ [w] -> completes w -> In w vs \/ (5 <= zlen vs /\ (known -> forall v, In v vs -> occ (ctx ++ [w]) <= occ (ctx ++ [v])))))).
Proof.
  intros lowr asort tord bsrt srt stable rb g ord L chunk chunk' chunk2 fuel fuel' fuel2 mfuel O k configPath c text sentences Hsay Hconf Hsrc Ht Ho2 Hlong Hfit Hwr Hworld Hfuel Hmf d occ.
  destruct (count_run lowr asort tord chunk fuel O k configPath c text sentences Hsay Hsrc Ht Hwr (wo_tord _ _ _ _ _ _ _ _ Hworld) Hfuel) as (k1 & es & Ec & Hnd & Hes & Ecount & Hfiles & Hkeep). exists k1. split; [exact Ec|]. intros Hf'.
  set (files := map file_of (by_order (Z.to_nat (m_order c)) es)) in *. pose proof (nonempty_files Hnd Hes Hlong) as Hne. fold files in Hne. pose proof (opened k1 _ _ (forall2_and _ _ _ _ Hfiles Hne)) as Hopen.
  assert (forall f, In f files -> (2 * length f + 1 < fuel')%nat) as Hff.
  { intros f Hin. destruct (forall2_right _ _ _ f Hfiles Hin) as (p & Hp & Ep). specialize (Hf' p Hp). unfold text_at in Hf'. rewrite Ep in Hf'. exact Hf'. }
  pose proof (tn_order _ _ _ _ _ _ _ _ Ht) as Ho. assert (exists rest, files = file_of (of_order 1 es) :: rest) as [rest Er].
  { unfold files, by_order. destruct (Z.to_nat (m_order c)) as [|n] eqn:En; [lia|]. cbn [seq map]. eexists. reflexivity. }
  destruct (dictionary_read Ht es chunk' fuel' L Hnd Hes ltac:(apply Hff; rewrite Er; left; reflexivity) (wo_cdb _ _ _ _ _ _ _ _ Hworld) Hfit) as (words & Ed & Hwn & Hwi & _ & Ew).
  assert (model_says k1 configPath c) as Hsay1 by (apply (says_kept k k1 _ _ Hsay), Hkeep; intros H; apply Hconf, paths_in, H). pose proof (trainable_training _ _ _ _ _ _ _ _ Ht Ho2) as Htr.
  destruct (C87_builds_partial lowr (words_alphabet asort c) (separators_alphabet asort c) (m_start c) (m_end c) (m_order c) text sentences L rb g ord tord srt bsrt stable chunk chunk' fuel fuel' mfuel "words" d Htr Hworld Hfuel Hmf) as (files' & Ec' & H87).
  rewrite Ecount in Ec'. injection Ec' as <-. specialize (H87 Hff). pose proof Hopen as Hopen'. rewrite Er in Hopen', H87.
  pose proof (build_run bsrt L chunk' fuel' mfuel O k1 c _ rest words (recs_from 0 words) Hwr ltac:(lia) Hopen' Ed Ew) as Hrun. unfold build_lm_command, configured_command. rewrite (model_read _ _ _ Hsay1).
  destruct H87 as [E|(words' & binary & E & Hl)]; rewrite E in Hrun; [left; exact Hrun|right]. destruct Hrun as [-> Hrun]. eexists. exists words. split; [exact Hrun|]. split; [exact Hwn|]. split; [exact Hwi|].
  set (k2 := put _ _ _). assert (k2 (GetDictionaryFile (model_place c)) = Some (CDict (recs_from 0 words))) as K1 by (unfold k2; rewrite put_other by apply cdb_not_lm; apply put_same).
  assert (k2 (binary_path (model_place c)) = Some (CText binary)) as K2 by (unfold k2; apply put_same). intros Hbz Hdict Hops flog scheds scheds' stdin o r Hlog Hst Es.
  assert (text_at k2 (binary_path (model_place c)) = binary) as Etx by (unfold text_at; rewrite K2; reflexivity). rewrite Etx in Hbz.
  destruct (Hl Hbz (Hfit _ Hwn Hwi) Hdict) as (recs & ops & Ew' & Eo & Hsp). rewrite Ew in Ew'. injection Ew' as <-. destruct (Hsp (fun b => Hops ops b Eo)) as (sp & Hfrom).
  assert (BuildSpellChecker L rb g ord "words" lowr (words_alphabet asort c) (m_start c) (m_end c) (m_order c) d (recs_from 0 words) binary = Ret sp) as Ebsp.
  { destruct Hfrom as (fl & bn & rc & op & F1 & _ & F3 & _ & _ & F6 & _ & _ & F9). rewrite Ecount in F1. injection F1 as <-. rewrite Er, E in F3. injection F3 as <-. rewrite Ew in F6. injection F6 as <-. exact F9. }
  assert (model_says k2 configPath c) as Hsay2.
  { apply (says_kept k1 k2 _ _ Hsay1). unfold k2. rewrite !put_other; [reflexivity| |]; intros E'; apply Hconf; rewrite E'; [apply cdb_in|apply lm_in]. }
  assert (binary <> []) as Hbne. { intros E0. rewrite E0 in Ebsp. unfold BuildSpellChecker in Ebsp. destruct (RetrieveLMFromBinary _ _ _ (map snd _) []) as [l| | |] eqn:El; cbn [bind] in Ebsp; discriminate. }
  unfold spell_eval_command in Es. rewrite (model_read _ _ _ Hsay2) in Es. cbn [wrapped bind] in Es. unfold load_spellchecker, open_model in Es. cbv zeta in Es. rewrite (proj1 Hwr) in Es. cbn [negb] in Es. rewrite K1 in Es. unfold open_input in Es. rewrite Etx in Es. destruct binary as [|b0 binary0]; [exfalso; apply Hbne; reflexivity|].
  cbn [bind] in Es. fold d in Es. rewrite Ebsp in Es. destruct (C89_spell rb srt chunk2 fuel2 flog stable sp scheds scheds' stdin o r Hst Es) as (A1 & A2 & _ & _). cbv zeta in A1, A2. split; [exact A1|].
  intros i vs Hi. destruct (A2 i vs Hi) as (query & Hq & Hp). exists query. split; [exact Hq|]. cbv zeta. intros seq word Hwords Nt Zt Nk Zk Hmin.
  destruct (C87_predict_partial lowr (words_alphabet asort c) (separators_alphabet asort c) (m_start c) (m_end c) (m_order c) text sentences L rb g ord tord srt bsrt stable chunk chunk' fuel fuel' mfuel "words" d words sp flog Htr Hworld Hfuel Hmf Hfrom Hdict Hlog
    query seq word 5 f_half Hwords ltac:(lia) alpha_half Nt Zt Nk Zk Hmin _ _ _ Hp) as (vs' & Ev & P1 & P2 & P3 & P4 & P5 & _). injection Ev as <-.
  split; [lia|]. split; [exact P2|]. split; [exact P3|]. split; [exact P4|exact P5].
Qed.
Print Assumptions C98_predict_partial.

(** ** Witnesses *)
Local Open Scope string_scope.
Definition conf98 (name source : string) (order : string) : bytes :=
  bs ("{""name"": """ ++ name ++ """, ""nGramOrder"": " ++ order ++ ", ""source"": """ ++ source ++ """, ""output"": ""db"", ""alphabet"": [""english""], ""separators"": [""?!""], ""startSymbol"": ""<S>"", ""endSymbol"": ""</S>""}").
Definition c98 (name source : string) (order : Z) : ModelConfig := mkModelConfig (bs name) order (bs source) (bs "db") [bs "english"] [bs "?!"] (bs "<S>") (bs "</S>") (bs "/d").
Local Close Scope string_scope.
Definition out98 : outside := mkOut (fun _ => true) (fun _ => true) (fun _ => None) (fun _ => Ret []).
Definition disk98 : disk := fun p =>
  if beqb p (bs "/d/a.json") then Some (CText (conf98 "a" "a.txt" "2")) else if beqb p (bs "/d/b.json") then Some (CText (conf98 "b" "b.txt" "2")) else if beqb p (bs "/d/c.json") then Some (CText (conf98 "c" "a.txt" "5"))
  else if beqb p (bs "/d/a.txt") then Some (CText text70) else if beqb p (bs "/d/b.txt") then Some (CText (bs "Am i? Am, am!")) else None.
Definition count98 (conf : bytes) (k : disk) := ngram_count_command low70 (fun l => l) P_CountTrie.ord_rev (fun _ => 3%nat) 300 out98 conf k.
Definition build98 (conf : bytes) (k : disk) := build_lm_command sort_big lib74 (fun _ => 3%nat) 300 50 out98 conf k.
Definition eval98 (conf : bytes) (k : disk) := lm_eval_command low70 (fun l => l) (fun _ => 3%nat) 300 out98 (fun x => x) conf k (bs "I am." ++ [10] ++ bs "?" ++ [10] ++ bs "am").
Definition sents98 : list (list bytes) := [[bs "am"; bs "i"]; [bs "am"; bs "am"]].
Lemma says98 name source order n : In (name, source, order, n) [("a", "a.txt", "2", 2); ("b", "b.txt", "2", 2); ("c", "a.txt", "5", 5)]%string -> model_says disk98 (bs "/d/" ++ bs name ++ bs ".json") (c98 name source n).
Proof.
  intros H. assert (disk98 (bs "/d/" ++ bs name ++ bs ".json") = Some (CText (conf98 name source order)) /\ exists j, parse (conf98 name source order) = Some j /\ model_described (bs "/d") j = Some (c98 name source n) /\ plain_config j) as (Hd & j & E & Hc & Hp).
  { destruct H as [E|[E|[E|[]]]]; injection E as <- <- <- <-; (split; [reflexivity|]); (match goal with |- context [parse ?t] => destruct (parse t) as [j|] eqn:E; [|vm_compute in E; discriminate] end); exists j; vm_compute in E; injection E as <-; (split; [reflexivity|]; split; [vm_compute; reflexivity|]);
    cbn [plain_config]; apply distinct_nodup; match goal with |- NoDup ?t => let v := eval vm_compute in t in change t with v end; repeat apply NoDup_cons; try apply NoDup_nil; cbn; intuition discriminate. }
  exists (conf98 name source order), j. split; [exact Hd|]. split; [|split; [exact E|split; [exact Hp|]]].
  - rewrite Forall_forall. intros x Hx. assert (forallb (fun c => (0 <=? c) && (c <? 256)) (conf98 name source order) = true)%Z as Hb by (destruct H as [E'|[E'|[E'|[]]]]; injection E' as <- <- <- <-; vm_compute; reflexivity). rewrite forallb_forall in Hb. specialize (Hb x Hx). unfold is_byte. lia.
  - assert (Dir (bs "/d/" ++ bs name ++ bs ".json") = bs "/d") as -> by (destruct H as [E'|[E'|[E'|[]]]]; injection E' as <- <- <- <-; vm_compute; reflexivity). exact Hc.
Qed.
Definition has98 : Z -> bool := words_alphabet (fun l => l) (c98 "a" "a.txt" 2).
Definition separate98 : Z -> bool := separators_alphabet (fun l => l) (c98 "a" "a.txt" 2).
Definition demo98 (text : bytes) (sentences : list (list bytes)) : Prop :=
  text_sentences low70 has98 separate98 text sentences /\ forallb (fun w => zlen w <=? 4) (bs "<S>" :: bs "</S>" :: concat sentences) = true /\ (exists s, In s sentences /\ s <> []) /\ wrapped_words sentences <= 100.
Ltac sentences98 := unfold text_sentences; match goal with |- context [while piece_fits ?t] => let v := eval vm_compute in (while piece_fits t) in change (while piece_fits t) with v end; repeat constructor; apply (proj2 (tokenize_iff _ _ _ _)); vm_compute; reflexivity.
Lemma demo98_a : demo98 text70 sents70.
Proof.
  split; [sentences98|]. split; [vm_compute; reflexivity|]. split; [exists [bs "i"]; split; [right; left; reflexivity|discriminate]|vm_compute; discriminate].
Qed.
Lemma demo98_b : demo98 (bs "Am i? Am, am!") sents98.
Proof.
  split; [sentences98|]. split; [vm_compute; reflexivity|]. split; [exists [bs "am"; bs "i"]; split; [left; reflexivity|discriminate]|vm_compute; discriminate].
Qed.
Lemma trainable98 name source n text sentences : demo98 text sentences -> 1 <= n <= 9 ->
  trainable low70 (words_alphabet (fun l => l) (c98 name source n)) (separators_alphabet (fun l => l) (c98 name source n)) (m_start (c98 name source n)) (m_end (c98 name source n)) (m_order (c98 name source n)) text sentences.
Proof.
  intros (H1 & H2 & H3 & H4) Hn. destruct C70_nonvacuous as (_ & _ & _ & _ & A5 & A6 & _). constructor; try assumption.
  - vm_compute; reflexivity.
  - split; [vm_compute; reflexivity|split; vm_compute; reflexivity].
  - cbn [c98 m_order]. lia.
  - exists 4. split; [|cbn [c98 m_order]; lia]. intros w Hw. rewrite forallb_forall in H2. specialize (H2 w Hw). lia.
  - lia.
Qed.
Lemma fits98 text sentences : demo98 text sentences -> words_fit (bs "<S>") (bs "</S>") sentences.
Proof.
  intros (_ & H2 & _ & H4) ws Hnd Hin.
  assert (forall w, In w ws -> In w (bs "<S>" :: bs "</S>" :: concat sentences)) as Hi by (intros w Hw; apply Hin in Hw; apply (corpus_words _ _ _ _ w Hw); [discriminate|left; reflexivity]).
  assert (fold_right (fun w n => 28 + zlen w + n) 0 ws <= 32 * zlen ws) as Hf.
  { clear Hnd Hin. induction ws as [|w ws IH]; [reflexivity|]. cbn [fold_right]. rewrite zlen_cons. rewrite forallb_forall in H2. pose proof (H2 w (Hi w (or_introl eq_refl))). rewrite <- forallb_forall in H2. specialize (IH (fun x Hx => Hi x (or_intror Hx))). unfold bytes in *. lia. }
  assert (zlen ws <= zlen (bs "<S>" :: bs "</S>" :: concat sentences)) as Hl by (unfold zlen; apply Nat2Z.inj_le; apply NoDup_incl_length; [exact Hnd|exact Hi]).
  assert (zlen (concat sentences) <= wrapped_words sentences) as Hc.
  { clear. induction sentences as [|s l IH]; [reflexivity|]. cbn [concat wrapped_words fold_right]. fold (wrapped_words l). rewrite (zlen_app s (concat l)). destruct s; [exact IH|unfold bytes in *; lia]. }
  rewrite !zlen_cons in Hl. unfold bytes in *. lia.
Qed.
Definition after98 : disk := fst (build98 (bs "/d/a.json") (fst (count98 (bs "/d/a.json") disk98))).
(** The hypotheses are met, and the commands do what the theorems say: "I am." has 2/2 + 1/2 + 1/1
    (with the identity for the logarithm). *)
Example C98_nonvacuous : let c := c98 "a" "a.txt" 2 in
  model_says disk98 (bs "/d/a.json") c /\ ~ In (bs "/d/a.json") (files_of_model c) /\ disk98 (GetSourcePath (model_place c)) = Some (CText text70) /\
  trainable low70 (words_alphabet (fun l => l) c) (separators_alphabet (fun l => l) c) (m_start c) (m_end c) (m_order c) text70 sents70 /\
  (exists s, In s sents70 /\ s <> [] /\ m_order c <= zlen s + 2) /\ words_fit (m_start c) (m_end c) sents70 /\ model_writable out98 c /\ cdb_ok lib74 /\ sorts_by_size sort_big /\
  snd (count98 (bs "/d/a.json") disk98) = Ret tt /\ snd (build98 (bs "/d/a.json") (fst (count98 (bs "/d/a.json") disk98))) = Ret tt /\
  zlen (text_at after98 (binary_path (model_place c))) < 2 ^ 63 /\
  Forall2 (text_words low70 (words_alphabet (fun l => l) c)) (lines_in (bs "I am." ++ [10] ++ bs "?" ++ [10] ++ bs "am")) [[bs "i"; bs "am"]; []; [bs "am"]] /\
  answers (fst (eval98 (bs "/d/a.json") after98)) = map (fun s => (s, sentence_score (fun x => x) (m_start c) (m_end c) (m_order c) sents70 s)) [[bs "i"; bs "am"]; [bs "am"]] /\
  sentence_score (fun x => x) (m_start c) (m_end c) (m_order c) sents70 [bs "i"; bs "am"] = fdiv (of_int 5) (of_int 2).
Proof.
  cbv zeta. split; [exact (says98 "a" "a.txt" "2" 2 (or_introl eq_refl))|]. split; [intros H; vm_compute in H; intuition discriminate|]. split; [reflexivity|]. split; [apply trainable98; [exact demo98_a|lia]|].
  split; [exists [bs "i"]; split; [right; left; reflexivity|split; [discriminate|vm_compute; discriminate]]|]. split; [exact (fits98 _ _ demo98_a)|]. split; [split; reflexivity|]. split; [exact lib74_ok|]. split; [exact sort_big_ok|].
  split; [vm_compute; reflexivity|]. split; [vm_compute; reflexivity|]. split; [vm_compute; reflexivity|].
  split. { match goal with |- Forall2 _ ?t _ => let v := eval vm_compute in t in change t with v end. repeat constructor; apply (proj2 (tokenize_iff _ _ _ _)); vm_compute; reflexivity. }
  split; vm_compute; reflexivity.
Qed.
(** An order of 5 over the same text: ngram-count succeeds, build-lm does not. *)
Example C98_order_nonvacuous : let c := c98 "c" "a.txt" 5 in
  model_says disk98 (bs "/d/c.json") c /\ ~ In (bs "/d/c.json") (files_of_model c) /\ disk98 (GetSourcePath (model_place c)) = Some (CText text70) /\
  trainable low70 (words_alphabet (fun l => l) c) (separators_alphabet (fun l => l) c) (m_start c) (m_end c) (m_order c) text70 sents70 /\
  (forall s, In s sents70 -> zlen s + 2 < m_order c) /\ model_writable out98 c /\
  snd (count98 (bs "/d/c.json") disk98) = Ret tt /\ exists e, snd (build98 (bs "/d/c.json") (fst (count98 (bs "/d/c.json") disk98))) = Fail e.
Proof.
  cbv zeta. split; [exact (says98 "c" "a.txt" "5" 5 (or_intror (or_intror (or_introl eq_refl))))|]. split; [intros H; vm_compute in H; intuition discriminate|]. split; [reflexivity|]. split; [apply trainable98; [exact demo98_a|lia]|].
  split; [intros s [<- |[<- |[]]]; reflexivity|]. split; [split; reflexivity|]. split; [vm_compute; reflexivity|]. eexists. vm_compute. reflexivity.
Qed.
(** Two models of different names with the same output directory share the files of the n-grams:
    counting for one, counting for the other, building the first: all succeed, and the first
    model scores by the text of the second. *)
Theorem C98_two_models_refuted : let c := c98 "a" "a.txt" 2 in let c' := c98 "b" "b.txt" 2 in
  model_says disk98 (bs "/d/a.json") c /\ model_says disk98 (bs "/d/b.json") c' /\ m_name c <> m_name c' /\
  text_sentences low70 (words_alphabet (fun l => l) c) (separators_alphabet (fun l => l) c) (text_at disk98 (GetSourcePath (model_place c))) sents70 /\
  text_sentences low70 (words_alphabet (fun l => l) c') (separators_alphabet (fun l => l) c') (text_at disk98 (GetSourcePath (model_place c'))) sents98 /\
  exists k1 k2 k3, count98 (bs "/d/a.json") disk98 = (k1, Ret tt) /\ count98 (bs "/d/b.json") k1 = (k2, Ret tt) /\ build98 (bs "/d/a.json") k2 = (k3, Ret tt) /\
    answers (fst (eval98 (bs "/d/a.json") k3)) = map (fun s => (s, sentence_score (fun x => x) (m_start c) (m_end c) (m_order c) sents98 s)) [[bs "i"; bs "am"]; [bs "am"]] /\
    answers (fst (eval98 (bs "/d/a.json") k3)) <> map (fun s => (s, sentence_score (fun x => x) (m_start c) (m_end c) (m_order c) sents70 s)) [[bs "i"; bs "am"]; [bs "am"]].
Proof.
  cbv zeta. split; [exact (says98 "a" "a.txt" "2" 2 (or_introl eq_refl))|]. split; [exact (says98 "b" "b.txt" "2" 2 (or_intror (or_introl eq_refl)))|]. split; [discriminate|].
  split; [exact (proj1 demo98_a)|]. split; [exact (proj1 demo98_b)|].
  assert (snd (count98 (bs "/d/a.json") disk98) = Ret tt) as E1 by (vm_compute; reflexivity). destruct (count98 (bs "/d/a.json") disk98) as [k1 r1] eqn:C1. cbn [snd] in E1. subst r1.
  assert (k1 = fst (count98 (bs "/d/a.json") disk98)) as K1 by (rewrite C1; reflexivity).
  assert (snd (count98 (bs "/d/b.json") k1) = Ret tt) as E2 by (rewrite K1; vm_compute; reflexivity). destruct (count98 (bs "/d/b.json") k1) as [k2 r2] eqn:C2. cbn [snd] in E2. subst r2.
  assert (k2 = fst (count98 (bs "/d/b.json") (fst (count98 (bs "/d/a.json") disk98)))) as K2 by (rewrite <- K1, C2; reflexivity).
  assert (snd (build98 (bs "/d/a.json") k2) = Ret tt) as E3 by (rewrite K2; vm_compute; reflexivity). destruct (build98 (bs "/d/a.json") k2) as [k3 r3] eqn:C3. cbn [snd] in E3. subst r3.
  assert (k3 = fst (build98 (bs "/d/a.json") (fst (count98 (bs "/d/b.json") (fst (count98 (bs "/d/a.json") disk98)))))) as K3 by (rewrite <- K2, C3; reflexivity).
  exists k1, k2, k3. split; [reflexivity|]. split; [exact C2|]. split; [exact C3|]. rewrite K3. clear. split; [vm_compute; reflexivity|]. intros H. vm_compute in H. discriminate.
Qed.
Print Assumptions C98_two_models_refuted.

(** The n-grams by which the spellchecker compares words: three characters, of "^", the word and
    "$"; what is neither an English or Russian letter, a digit, nor one of "$", "^" and "'" is
    replaced by "$". *)
Theorem C98_words_described : forall asort, (forall l, Permutation l (asort l)) -> let d := tokenizer_of asort words_description in
  t_n d = 3 /\ t_wrap0 d = [94] /\ t_wrap1 d = [36] /\ t_pad d = [36] /\
  forall r, t_has d r = true <-> 97 <= r <= 122 \/ 1072 <= r <= 1103 \/ r = 1105 \/ 48 <= r <= 57 \/ r = 36 \/ r = 94 \/ r = 39.
Proof.
  intros asort Hs. destruct (P_Deploy.C93_as_described asort words_description Hs) as (H1 & H2 & H3 & H4 & H5). cbv zeta. split; [exact H1|]. split; [exact H2|]. split; [exact H3|]. split; [exact H4|].
  intros r. rewrite H5. clear. split.
  - intros (s & Hi & [[-> H]|[[-> H]|[[-> H]|(N1 & N2 & N3 & H)]]]); [lia..|]. destruct Hi as [<- |[<- |[<- |[<- |[]]]]]; try contradiction. change (map fst (runes (bs "$^'"))) with [36; 94; 39] in H. destruct H as [<- |[<- |[<- |[]]]]; lia.
  - intros H. assert (97 <= r <= 122 \/ (1072 <= r <= 1103 \/ r = 1105) \/ 48 <= r <= 57 \/ (r = 36 \/ r = 94 \/ r = 39)) as [H'|[H'|[H'|H']]] by lia.
    + exists (bs "english"). split; [cbn; auto|]. left. auto.
    + exists (bs "russian"). split; [cbn; auto|]. right. right. left. auto.
    + exists (bs "numbers"). split; [cbn; auto|]. right. left. auto.
    + exists (bs "$^'"). split; [cbn; auto 6|]. right. right. right. split; [discriminate|]. split; [discriminate|]. split; [discriminate|]. change (map fst (runes (bs "$^'"))) with [36; 94; 39]. cbn. intuition lia.
Qed.
Print Assumptions C98_words_described.

(** The hypotheses of the predictions are met by the same model, with the index description of the
    command; the session "I am", an empty line, "am" answers both lines with "am". *)
Definition d98 : tokconf := tokenizer_of (fun l => l) words_description.
Definition words98 : list bytes := [bs "</S>"; bs "<S>"; bs "i"; bs "am"].
Definition sp98 : res spellchecker := load_spellchecker low70 (fun l => l) lib74 rb4 gob1 (fun _ m => m) out98 after98 (c98 "a" "a.txt" 2).
Definition lsched98 (q w : bytes) : list lchoice :=
  match sp98 with
  | Ret sp => lauto 100 (sp_index sp) (prefix_grams low70 d98 w) (newScorer (fun x => x) (match (t <- sp_tokenize sp q ;; scorer_next (sp_get sp) (sp_model sp) (removelast t)) with Ret n => n | _ => None end)) 5 (lstart (prefix_grams low70 d98 w) 5)
  | _ => []
  end.
Definition sched98 (w : bytes) : list choice :=
  match sp98 with Ret sp => let tokens := entry_grams low70 d98 w in sauto 300 (sp_index sp) tokens f_half 5 (start (sp_index sp) tokens Cosine f_half 5) | _ => [] end.
Definition stdin98 : bytes := bs "I am" ++ [10; 10] ++ bs "am" ++ [10].
Definition session98 := spell_eval_command low70 (fun l => l) lib74 rb4 gob1 (fun _ m => m) out98 (fun l => l) (fun _ => 3%nat) 300 (fun x => x) isort
  (fun i => match i with O => lsched98 (bs "I am") (bs "am") | _ => lsched98 (bs "am") (bs "am") end) (fun _ => sched98 (bs "am")) (bs "/d/a.json") after98 stdin98.
Example C98_predict_nonvacuous : let c := c98 "a" "a.txt" 2 in let terms := prefix_grams low70 d98 (bs "am") in let tokens := entry_grams low70 d98 (bs "am") in let occ := occurrences_in (bs "<S>") (bs "</S>") sents70 in
  (match (r <- open_model out98 after98 c ;; Ret (fst r)) with Ret recs => map snd recs | _ => [] end) = words98 /\
  world lib74 rb4 gob1 (fun _ m => m) P_CountTrie.ord_rev (fun l => l) sort_big isort /\ log_ok (fun x => x) /\ NoDup words98 /\ dictionary_ok low70 d98 words98 /\
  (forall ops b, IndexCdb lib74 rb4 gob1 (fun _ m => m) "words" (ToLower low70) d98 (recs_from 0 words98) = Ret ops -> ram_open (ram_run NewRAMDirectory ops) (documentListFile "words") = Some b -> zlen b < 2 ^ 32) /\
  questions asks_spell (lines_in stdin98) = [bs "I am"; bs "am"] /\ text_words low70 (words_alphabet (fun l => l) c) (bs "I am") ([bs "i"] ++ [bs "am"]) /\
  NoDup terms /\ zlen terms = 1 /\ NoDup tokens /\ zlen tokens = 2 /\ (0 < occ [bs "am"] /\ MinY Cosine f_half (zlen tokens) <= zlen (entry_grams low70 d98 (bs "am"))) /\
  context_of 2 (bs "<S>") [bs "i"] = [bs "i"] /\ 0 < occ ([bs "i"] ++ [bs "am"]) /\ answers (fst session98) = [[bs "am"]; [bs "am"]].
Proof.
  cbv zeta. split; [vm_compute; reflexivity|]. split; [exact world87|]. split; [exact log_id|]. split; [repeat apply NoDup_cons; try apply NoDup_nil; cbn; intuition discriminate|].
  split. { split; [cbn; lia|]. split; [vm_compute; reflexivity|]. split; [exists (bs "</S>"), [bs "<S>"; bs "i"; bs "am"]; split; [reflexivity|vm_compute; discriminate]|].
    intros w [<-|[<-|[<-|[<-|[]]]]]; (split; [match goal with |- NoDup ?t => let v := eval vm_compute in t in change t with v end; repeat apply NoDup_cons; try apply NoDup_nil; cbn; intuition discriminate|vm_compute; reflexivity]). }
  split. { assert (match IndexCdb lib74 rb4 gob1 (fun _ m => m) "words" (ToLower low70) d98 (recs_from 0 words98) with Ret ops => match ram_open (ram_run NewRAMDirectory ops) (documentListFile "words") with Some b => zlen b <? 2 ^ 32 | None => true end | _ => true end = true) as H by (vm_compute; reflexivity).
    intros ops b Eo Eb. rewrite Eo, Eb in H. lia. }
  split; [vm_compute; reflexivity|]. split; [apply (proj2 (tokenize_iff _ _ _ _)); vm_compute; reflexivity|].
  split; [match goal with |- NoDup ?t => let v := eval vm_compute in t in change t with v end; repeat apply NoDup_cons; try apply NoDup_nil; cbn; intuition discriminate|]. split; [vm_compute; reflexivity|].
  split; [match goal with |- NoDup ?t => let v := eval vm_compute in t in change t with v end; repeat apply NoDup_cons; try apply NoDup_nil; cbn; intuition discriminate|]. split; [vm_compute; reflexivity|].
  split; [split; [vm_compute; reflexivity|vm_compute; discriminate]|]. split; [reflexivity|]. split; vm_compute; reflexivity.
Qed.
