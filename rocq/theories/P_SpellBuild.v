(** C87: from the training text to the predictions. *)
From Coq Require Import String ZifyBool Permutation Sorted Reals Lra Lia.
From Flocq Require Import Core BinarySingleNaN.
From Verif Require P_CountTrie P_Index.
From Verif Require Import Base BaseLemmas GoMap Store StoreSpec Postings PostingsSpec PostingsDrive P_PostingsLemmas Merger MergerSpec P_MergerLemmas Index IndexSpec IndexProofs P_IndexLemmas
  Text Analysis Float64 Metric MetricSpec FloatProofs MetricFloat TopK TopKSpec TopKProofs Suggest SuggestSpec SuggestProofs P_SuggestLemmas P_Suggest AutocompleteSpec AutocompleteProofs
  LMText NGram NGramSpec GoogleNGram P_NGram GoogleProofs P_Google CountTrieSpec Scanner ScannerSpec ScannerProofs2 Mph MphSpec P_Mph TrainedSpec TrainedProofs P_Trained LMPipeline LMPipelineSpec P_Pipeline
  NGramIndex NGramIndexSpec NGramIndexProofs P_NGramIndex CdbDict CdbDictSpec P_Cdb Spell SpellSpec SpellProofs P_Spell SpellBuild SpellBuildSpec.
Local Open Scope Z_scope.
Local Notation length := List.length.

(** ** The next word *)
Lemma fin_inj x y : fin x -> fin y -> val x = val y -> val x <> 0%R -> x = y.
Proof.
  intros Hx Hy E Hz. destruct (fin_B x Hx) as (bx & -> & Fx & Vx), (fin_B y Hy) as (b & -> & Fy & Vy). f_equal. rewrite <- Vx, <- Vy in E. rewrite <- Vx in Hz.
  apply B2R_inj; [| |exact E].
  - destruct bx; try discriminate; [exfalso; apply Hz; reflexivity|reflexivity].
  - destruct b; try discriminate; [exfalso; apply Hz; rewrite E; reflexivity|reflexivity].
Qed.
Lemma one_times c : 0 <= c < 2 ^ 32 -> fmul (of_int 1) (of_int c) = of_int c.
Proof.
  intros Hc. destruct (Z.eq_dec c 0) as [->|Hn]; [reflexivity|]. destruct (of_int_val 1 ltac:(lia)) as [F1 V1], (of_int_val c ltac:(lia)) as [Fc Vc].
  assert (rnd (val (of_int 1) * val (of_int c)) = IZR c) as Er by (rewrite V1, Vc, Rmult_1_l; apply rnd_fmt, fmt_int; lia).
  destruct (mul_val (of_int 1) (of_int c) F1 Fc) as [Fm Vm].
  { rewrite Er. apply Rlt_trans with (bpow radix2 32); [|apply pow_big; lia]. rewrite <- abs_IZR. change (bpow radix2 32) with (IZR (2 ^ 32)). apply IZR_lt. lia. }
  apply fin_inj; [exact Fm|exact Fc|rewrite Vm, Er, Vc; reflexivity|]. rewrite Vm, Er. apply not_0_IZR. exact Hn.
Qed.

Section Next.
Context (first last : bytes) (sentences : list (list bytes)) (order : Z) (l : lmodel).
Notation occ := (occurrences_in first last sentences).
Context (Ht : trained_model first last sentences order l) (Ho : 2 <= order <= 255) (Hsz : wrapped_words sentences < 2 ^ 28).
Lemma context_len seq : seq <> [] -> 1 <= zlen (context_of order first seq) <= order - 1.
Proof.
  intros Hs. unfold context_of, zlen in *. assert (length seq <> O) by (destruct seq; [congruence|discriminate]).
  destruct (Z.ltb_spec (Z.of_nat (length seq)) (order - 1)); [cbn [List.length]; lia|]. destruct (Z.eqb_spec (Z.of_nat (length seq)) order); [rewrite firstn_length; lia|rewrite skipn_length; lia].
Qed.
Lemma trained_next flog seq : seq <> [] -> let ctx := context_of order first seq in exists ids, get_all (GetWordID l) seq = Ret ids /\
  ((exists w, 0 < occ (ctx ++ [w])) -> exists s, LMNext (l_lm l) ids = Ret (Some s) /\
     forall w, exists i, GetWordID l w = Ret i /\ ScoreNext flog s i = Ret (next_score flog (occ (ctx ++ [w])) (occ ctx))) /\
  (~ (exists w, 0 < occ (ctx ++ [w])) -> LMNext (l_lm l) ids = Ret None).
Proof.
  intros Hs ctx. destruct Ht as (f & ms & ixs & Hm & Hl & Er & El & Hid & Hu & Hc & Hcont). exists (map f seq). split; [apply get_all_ok; intros; apply Hid|].
  pose proof (context_len seq Hs) as Hcl. fold ctx in Hcl.
  assert (LMNext (l_lm l) (map f seq) = Next (NewNGramModel ixs) (map f ctx)) as ->.
  { rewrite El. unfold LMNext, lm_context. cbn [lm_order lm_start lm_model]. unfold ctx, context_of, zlen in *. rewrite map_length.
    destruct (Z.ltb_spec (Z.of_nat (length seq) + 1) order) as [H|H]; [assert (Z.of_nat (length seq) <? order - 1 = true) as -> by lia; reflexivity|].
    assert (Z.of_nat (length seq) <? order - 1 = false) as -> by lia. destruct (Z.ltb_spec order (Z.of_nat (length seq))) as [H1|H1].
    - assert (Z.of_nat (length seq) =? order = false) as -> by lia. unfold slice, zlen. rewrite map_length. assert ((0 <=? Z.of_nat (length seq) - order + 1) && (Z.of_nat (length seq) - order + 1 <=? Z.of_nat (length seq)) && (Z.of_nat (length seq) <=? Z.of_nat (length seq)) = true) as -> by lia.
      cbn [bind]. f_equal. rewrite skipn_map, firstn_map. f_equal. rewrite firstn_all2 by (rewrite skipn_length; lia). f_equal. lia.
    - destruct (Z.eqb_spec (Z.of_nat (length seq)) order) as [H2|H2].
      + unfold slice, zlen. rewrite map_length. assert ((0 <=? 0) && (0 <=? order - 1) && (order - 1 <=? Z.of_nat (length seq)) = true) as -> by lia. cbn [bind Z.to_nat skipn]. rewrite firstn_map, Z.sub_0_r. reflexivity.
      + replace (Z.to_nat (Z.of_nat (length seq) - (order - 1))) with O by lia. reflexivity. }
  assert (Forall is_u32 (map f ctx)) as Hu1 by (apply Forall_forall; intros x Hx; apply in_map_iff in Hx; destruct Hx as (w & <- & _); apply Hu).
  destruct (C50_next_partial flog ms ixs Hm Er (map f ctx) Hu1) as [HN _]. rewrite map_length in HN. unfold zlen in Hcl. specialize (HN ltac:(lia)). destruct HN as [HS HN].
  assert (forall i, (1 <= i <= length ctx)%nat -> count32 ms (firstn i (map f ctx)) = occ (firstn i ctx)) as Hci.
  { intros i Hi. rewrite firstn_map. apply Hc. unfold zlen. rewrite firstn_length. lia. }
  assert (seen_context ms (map f ctx) <-> exists w, 0 < occ (ctx ++ [w])) as Hseen.
  { unfold seen_context. rewrite map_length. rewrite (Hcont ctx) by (unfold zlen; lia). split; [intros [_ H]; exact H|]. intros H. split; [|exact H]. destruct H as (w & Hw). intros i Hi. rewrite Hci by exact Hi.
    pose proof (corpus_prefix first last sentences (firstn i ctx) (skipn i ctx ++ [w])) as Hp. rewrite app_assoc, firstn_skipn in Hp. lia. }
  split; [|intros H; apply HN; rewrite Hseen; exact H]. intros H. destruct (HS (proj2 Hseen H)) as (s & Es & Hsc). exists s. split; [exact Es|]. intros w. exists (f w). split; [apply Hid|]. rewrite Hsc by apply Hu.
  replace (map f ctx ++ [f w]) with (map f (ctx ++ [w])) by (rewrite map_app; reflexivity).
  rewrite (Hc (ctx ++ [w])) by (unfold zlen; rewrite app_length; cbn [length]; lia). unfold next_score. destruct (Z.eqb_spec (occ (ctx ++ [w])) 0) as [E0|E0]; [reflexivity|].
  destruct (C49_counts_partial ms Hm) as (ixs' & E' & _ & Hcnt). rewrite Er in E'. injection E' as <-.
  assert (Score_counts (NewNGramModel ixs) (map f (ctx ++ [w])) = Ret (count_all (nth 0 ms []) mod 2 ^ 32 :: map (fun i => occ (firstn i (ctx ++ [w]))) (List.seq 1 (S (length ctx))))) as Ecs.
  { rewrite Hcnt; [|rewrite map_app; destruct (map f ctx); discriminate|apply Forall_forall; intros x Hx; apply in_map_iff in Hx; destruct Hx as (v & <- & _); apply Hu].
    unfold seen_counts. do 2 f_equal. rewrite map_length, app_length. cbn [length]. rewrite Hl. replace (Nat.min (Z.to_nat order) (length ctx + 1)) with (S (length ctx)) by lia.
    apply map_ext_in. intros i Hi. apply in_seq in Hi. rewrite firstn_map. apply Hc. unfold zlen. rewrite firstn_length, app_length. cbn [length]. lia. }
  destruct (score_of_counts flog _ _ _ _ _ Ecs) as [S1 _]. specialize (S1 (S (length ctx)) ltac:(lia)).
  assert (firstn (S (length ctx)) (ctx ++ [w]) = ctx ++ [w]) as Ea by (apply firstn_all2; rewrite app_length; cbn [length]; lia). rewrite Ea in S1.
  assert (firstn (S (length ctx) - 1) (ctx ++ [w]) = ctx) as Eb by (replace (S (length ctx) - 1)%nat with (length ctx + 0)%nat by lia; rewrite firstn_app_2; apply app_nil_r). rewrite Eb in S1.
  assert ((S (length ctx) =? 1)%nat = false) as Ec by lia. rewrite Ec in S1. rewrite Nat.sub_diag in S1. change (discount 0) with (of_int 1) in S1.
  pose proof (corpus_nonneg first last sentences (ctx ++ [w])) as Hnn. pose proof (corpus_le first last sentences (ctx ++ [w])). rewrite (one_times (occ (ctx ++ [w]))) in S1 by lia. apply S1; [lia|]. intros i Hi. lia.
Qed.
End Next.

Lemma fold_pos (words : list bytes) : zlen words * 28 <= fold_right (fun w n => 28 + zlen w + n) 0 words.
Proof. induction words as [|w ws IH]; [reflexivity|]. cbn [fold_right]. rewrite zlen_cons. pose proof (zlen_nonneg w). unfold bytes in *. lia. Qed.
Lemma map_snd_recs (ws : list bytes) : forall i, map snd (recs_from i ws) = ws.
Proof. induction ws as [|w ws IH]; intros i; [reflexivity|]. rewrite recs_from_cons. cbn [map snd]. f_equal. apply IH. Qed.

(** ** Training *)
(** A training text and the configuration of a model. *)
Record training (lowr : Z -> Z) (has sep : Z -> bool) (first last : bytes) (order : Z) (text : bytes) (sentences : list (list bytes)) : Prop := {
  tr_sep : sep RuneError = false; tr_words : has 32 = false /\ has 9 = false /\ has 10 = false;
  tr_first : first <> [] /\ plain first; tr_last : last <> [] /\ plain last; tr_order : 2 <= order <= 255;
  tr_text : text_sentences lowr has sep text sentences;
  tr_short : exists L, (forall w, In w (first :: last :: concat sentences) -> zlen w <= L) /\ order * (L + 1) + 21 < 65536;
  tr_some : exists s, In s sentences /\ s <> []; tr_size : wrapped_words sentences < 2 ^ 28 }.
(** The outside world: the cdb library, the roaring and gob codecs, the orders of map iteration
    and the sorting functions. *)
Record world (L : cdblib) (rb : roaring) (g : gobcodec) (ord : Z -> index_map -> index_map) (tord : list Z -> list (Z * CountTrie.node) -> list (Z * CountTrie.node))
    (srt : list iter -> list iter) (bsrt : list (list Z) -> list (list Z)) (stable : (cand -> f64) -> list cand -> list cand) : Prop := {
  wo_cdb : cdb_ok L; wo_rb : roaring_ok rb; wo_rw : roaring_written rb; wo_gob : gob_ok g; wo_ord : order_ok ord; wo_tord : forall p l, Permutation l (tord p l);
  wo_srt : sorter_ok srt; wo_bsrt : sorts_by_size bsrt; wo_stable : stable_ok stable }.

Section Trained.
Context (lowr : Z -> Z) (has sep : Z -> bool) (first last : bytes) (order : Z) (text : bytes) (sentences : list (list bytes)).
Notation occ := (occurrences_in first last sentences).
Context (L : cdblib) (rb : roaring) (g : gobcodec) (ord : Z -> index_map -> index_map) (tord : list Z -> list (Z * CountTrie.node) -> list (Z * CountTrie.node))
  (srt : list iter -> list iter) (bsrt : list (list Z) -> list (list Z)) (stable : (cand -> f64) -> list cand -> list cand).
Context (chunk chunk' : nat -> nat) (fuel fuel' mfuel : nat) (name : string) (d : tokconf).
(** The three programs one after the other: n-gram counting, building of the model, start of
    the spellchecker; [words] is the dictionary.  With files below 2^63, 2^32 and 2^32 bytes. *)
Definition spellchecker_from (words : list bytes) (sp : spellchecker) : Prop :=
  exists files binary recs ops, ngram_count lowr has sep first last order tord chunk fuel text = Ret files /\ (forall f, In f files -> (2 * length f + 1 < fuel')%nat) /\
    build_lm order bsrt chunk' fuel' mfuel files = Ret (words, binary) /\ zlen binary < 2 ^ 63 /\
    2048 + fold_right (fun w n => 28 + zlen w + n) 0 words < 2 ^ 32 /\ WriteDictionary L words = Ret recs /\
    IndexCdb L rb g ord name (ToLower lowr) d recs = Ret ops /\ (forall b, ram_open (ram_run NewRAMDirectory ops) (documentListFile name) = Some b -> zlen b < 2 ^ 32) /\
    BuildSpellChecker L rb g ord name lowr has first last order d recs binary = Ret sp.
Context (Ht : training lowr has sep first last order text sentences) (Hwd : world L rb g ord tord srt bsrt stable).
Context (Hf1 : (2 * length text + 1 < fuel)%nat) (Hf2 : Z.of_nat mfuel < 2 ^ 31 - 1).

Lemma text_trained : exists files words, ngram_count lowr has sep first last order tord chunk fuel text = Ret files /\
  NoDup words /\ (forall w, In w words <-> 0 < occ [w]) /\ (forall w, In w words -> w <> []) /\
  StronglySorted (fun a b => occ [b] < occ [a] \/ occ [a] = occ [b] /\ str_lt a b = true) words /\
  ((forall f, In f files -> (2 * length f + 1 < fuel')%nat) ->
   (build_lm order bsrt chunk' fuel' mfuel files = NoFuel) \/
   exists binary, build_lm order bsrt chunk' fuel' mfuel files = Ret (words, binary) /\
     (zlen binary < 2 ^ 63 -> exists l, RetrieveLMFromBinary order first last words binary = Ret l /\
       (forall i w, nth_error words i = Some w -> GetWordID l w = Ret (Z.of_nat i)) /\ trained_model first last sentences order l)).
Proof.
  destruct Ht as [Hsep (H32 & H9 & H10) Hfi Hla Ho Hs (K & HK & HK') Hne Hsz].
  assert (forall w, In w (first :: last :: concat sentences) -> w <> [] /\ plain w /\ zlen w <= K) as Hw.
  { intros w Hin. assert (w <> [] /\ plain w) as [Hp1 Hp2]; [|split; [exact Hp1|split; [exact Hp2|apply HK; exact Hin]]]. destruct Hin as [<-|[<-|Hin]]; [exact Hfi|exact Hla|].
    apply in_concat in Hin. destruct Hin as (s & Hin & Hws). clear - Hs Hin Hws H32 H9 H10. unfold text_sentences in Hs. induction Hs as [|p s' ps ss Hp _ IH]; [destruct Hin|]. destruct Hin as [->|Hin]; [eapply words_plain; eassumption|apply IH; exact Hin]. }
  destruct (trained_full first last sentences order tord bsrt chunk' fuel' mfuel K (wo_tord _ _ _ _ _ _ _ _ Hwd) (wo_bsrt _ _ _ _ _ _ _ _ Hwd) ltac:(lia) Hw HK' Hne Hsz Hf2) as (files & words & Ef & Hnd & Hin & Hso & H).
  exists files, words. split.
  { unfold ngram_count, buildNGramsCount. rewrite (scan_sentences sep Hsep) by exact Hf1. unfold sentences_result. cbn [fst]. rewrite (sentences_tokenized lowr has _ sentences Hs). cbn [bind]. exact Ef. }
  split; [exact Hnd|]. split; [exact Hin|]. split.
  { intros w Hiw. apply Hin in Hiw. apply (Hw w). apply (corpus_words first last sentences [w] w Hiw); [discriminate|left; reflexivity]. }
  split; [exact Hso|]. intros Hff. destruct (H Hff) as [[_ E]|(binary & Eb & Hl)]; [left; exact E|right]. exists binary. split; [exact Eb|]. intros Hz. destruct (Hl Hz) as (l & El & A & _ & _ & _ & _ & T & _). exists l. auto.
Qed.
Lemma index_cdb (words : list bytes) : (forall w, In w words -> w <> []) -> zlen words <= 2 ^ 32 ->
  IndexCdb L rb g ord name (ToLower lowr) d (recs_from 0 words) = IndexDictionary rb g ord (documentListFile name) (headerFile name) 0 (ToLower lowr) d words.
Proof.
  intros Hne Hz. unfold IndexCdb, IndexDictionary, DictIterate. rewrite (iterated L (wo_cdb _ _ _ _ _ _ _ _ Hwd) _ words Hne 0 _ (Z.le_refl 0) Hz). destruct (DictIterate_from _ 0 words (Ret [])) as [[e|] st]; reflexivity.
Qed.
(** What the parts of the spellchecker are. *)
Lemma from_parts words sp : spellchecker_from words sp -> NoDup words /\ (forall w, In w words <-> 0 < occ [w]) /\
  StronglySorted (fun a b => occ [b] < occ [a] \/ occ [a] = occ [b] /\ str_lt a b = true) words /\
  index_built rb g ord name lowr d words (sp_index sp) /\ zlen words < 2 ^ 32 /\
  (forall q, sp_suggest sp q = SuggestTokenize (ToLower lowr) d q) /\ (forall q, sp_complete sp q = AutocompleteTokenize (ToLower lowr) d q) /\ (forall q, sp_tokenize sp q = LMTokenize lowr has q) /\
  (forall x, 0 <= x < zlen words -> sp_value sp x = Ret (entry_at words x)) /\
  exists l, trained_model first last sentences order l /\ sp_model sp = l_lm l /\ (forall w, sp_get sp w = GetWordID l w) /\ (forall i w, nth_error words i = Some w -> GetWordID l w = Ret (Z.of_nat i)).
Proof.
  intros (files & binary & recs & ops & Ef & Hff & Eb & Hbz & Hcz & Er & Eo & Hoz & Es).
  destruct text_trained as (files' & words' & Ef' & Hnd & Hin & Hne & Hso & H). rewrite Ef in Ef'. injection Ef' as <-. destruct (H Hff) as [E|(binary' & Eb' & Hl)]; [rewrite Eb in E; discriminate|]. rewrite Eb in Eb'. injection Eb' as <- <-.
  destruct (Hl Hbz) as (l & El & Hid & Htm). clear H Hl. pose proof (fold_pos words) as Hfp. pose proof (zlen_nonneg words) as Hzn.
  assert (recs = recs_from 0 words) as ->.
  { unfold WriteDictionary in Er. rewrite (built L (wo_cdb _ _ _ _ _ _ _ _ Hwd) words 0 []) in Er; [injection Er as <-; reflexivity|lia|unfold bytes in *; lia|exact Hcz]. }
  assert (zlen words <= 2 ^ 32) as Hz32 by lia. rewrite index_cdb in Eo by assumption. unfold BuildSpellChecker in Es. rewrite map_snd_recs, El in Es. cbn [bind] in Es. unfold RAMBuildCdb in Es. rewrite index_cdb, Eo in Es by assumption. cbn [bind] in Es.
  destruct (IndexRead g (ram_open (ram_run NewRAMDirectory ops)) (documentListFile name) (headerFile name)) as [ix| | |] eqn:Ei; try discriminate. cbn [bind] in Es. injection Es as <-. cbn [sp_index sp_suggest sp_complete sp_tokenize sp_value sp_model sp_get].
  split; [exact Hnd|]. split; [exact Hin|]. split; [exact Hso|]. split; [exists ops; split; [exact Eo|left; split; [unfold RAMBuild; rewrite Eo; exact Ei|exact Hoz]]|]. split; [lia|]. do 3 (split; [reflexivity|]). split.
  - intros x Hx. rewrite (got L (wo_cdb _ _ _ _ _ _ _ _ Hwd) words x Hne Hz32) by (unfold is_u32; lia). unfold DictGet, entry_at. match goal with |- Ret (if ?b then _ else _) = _ => assert (b = false) as -> by (unfold bytes in *; lia) end. f_equal. apply nth_indep. unfold zlen, bytes in *. lia.
  - exists l. auto.
Qed.
End Trained.

(** ** The score decides by the counts *)
Lemma next_numeric flog c n : log_ok flog -> 0 <= c <= n -> n < 2 ^ 28 -> next_score flog c n <> S754_nan.
Proof. intros [H _] Hc Hn. unfold next_score. destruct (Z.eqb_spec c 0) as [->|E]; [discriminate|]. apply H; lia. Qed.
Lemma next_order flog c c' n : log_ok flog -> 0 <= c <= n -> 0 <= c' <= n -> n < 2 ^ 28 -> flt (next_score flog c n) (next_score flog c' n) = false -> c' <= c.
Proof.
  intros [H1 H2] Hc Hc' Hn H. destruct (Z.le_gt_cases c' c) as [|Hlt]; [assumption|exfalso]. unfold next_score in H. assert (c' =? 0 = false) as E by lia. rewrite E in H. destruct (Z.eqb_spec c 0) as [->|E0].
  - rewrite (proj2 (H1 c' n ltac:(lia) Hn)) in H. discriminate.
  - rewrite (H2 c c' n) in H by lia. discriminate.
Qed.
Lemma filter_docs lowr d terms (words : list bytes) : forall i, zlen (filter (has_all terms) (docs_from lowr d i words)) = zlen (filter (fun w => forallb (fun t => existsb (beqb t) (entry_grams lowr d w)) terms) words).
Proof.
  induction words as [|w ws IH]; intros i; [reflexivity|]. rewrite docs_from_cons. cbn [filter]. unfold has_all at 1. cbn [snd]. destruct (forallb _ terms); [rewrite !zlen_cons; f_equal|]; apply IH.
Qed.
Lemma filter_ids lowr d terms (words : list bytes) : forall i, 0 <= i -> map (fun x => nth (Z.to_nat (x - i)) words []) (map fst (filter (has_all terms) (docs_from lowr d i words))) = filter (fun w => forallb (fun t => existsb (beqb t) (entry_grams lowr d w)) terms) words.
Proof.
  induction words as [|w ws IH]; intros i Hi; [reflexivity|]. rewrite docs_from_cons. cbn [filter]. unfold has_all at 1. cbn [snd].
  assert (map (fun x => nth (Z.to_nat (x - i)) (w :: ws) []) (map fst (filter (has_all terms) (docs_from lowr d (i + 1) ws))) = filter (fun w => forallb (fun t => existsb (beqb t) (entry_grams lowr d w)) terms) ws) as E.
  { rewrite <- (IH (i + 1)) by lia. apply map_ext_in. intros x Hx. apply in_map_iff in Hx. destruct Hx as (dd & <- & Hd). apply filter_In in Hd. destruct Hd as [Hd _]. destruct dd as [x ts]. apply docs_from_in in Hd. destruct Hd as (j & v & _ & -> & _). cbn [fst].
    replace (Z.to_nat (i + 1 + Z.of_nat j - i)) with (S (Z.to_nat (i + 1 + Z.of_nat j - (i + 1)))) by lia. reflexivity. }
  destruct (forallb _ terms); [|exact E]. cbn [map fst]. rewrite Z.sub_diag. cbn [Z.to_nat nth]. f_equal. exact E.
Qed.

Section Query.
Context (lowr : Z -> Z) (has sep : Z -> bool) (first last : bytes) (order : Z) (text : bytes) (sentences : list (list bytes)).
Notation occ := (occurrences_in first last sentences).
Context (L : cdblib) (rb : roaring) (g : gobcodec) (ord : Z -> index_map -> index_map) (tord : list Z -> list (Z * CountTrie.node) -> list (Z * CountTrie.node))
  (srt : list iter -> list iter) (bsrt : list (list Z) -> list (list Z)) (stable : (cand -> f64) -> list cand -> list cand).
Context (chunk chunk' : nat -> nat) (fuel fuel' mfuel : nat) (name : string) (d : tokconf) (words : list bytes) (sp : spellchecker) (flog : f64 -> f64).
Context (Ht : training lowr has sep first last order text sentences) (Hwd : world L rb g ord tord srt bsrt stable) (Hf1 : (2 * length text + 1 < fuel)%nat) (Hf2 : Z.of_nat mfuel < 2 ^ 31 - 1)
  (Hfrom : spellchecker_from lowr has sep first last order text L rb g ord tord bsrt chunk chunk' fuel fuel' mfuel name d words sp) (Hd : dictionary_ok lowr d words) (Hlog : log_ok flog).
Context (query : bytes) (seq : list bytes) (word : bytes) (topK : Z) (alpha : f64).
Notation terms := (prefix_grams lowr d word).
Notation tokens := (entry_grams lowr d word).
Notation ctx := (context_of order first seq).
Context (Hq : text_words lowr has query (seq ++ [word])) (Hk : 1 <= topK) (Ha : alpha_ok alpha) (Nt : NoDup terms) (Zt : 1 <= zlen terms < 2 ^ 32) (Nk : NoDup tokens) (Zk : 1 <= zlen tokens <= 65535)
  (Hlong : exists w, 0 < occ [w] /\ MinY Cosine alpha (zlen tokens) <= zlen (entry_grams lowr d w)).
Definition known_context : Prop := seq <> [] /\ exists w, 0 < occ (ctx ++ [w]).
Lemma occ_range w : 0 <= occ (ctx ++ [w]) <= occ ctx /\ occ ctx < 2 ^ 28.
Proof. pose proof (corpus_nonneg first last sentences (ctx ++ [w])). pose proof (corpus_prefix first last sentences ctx [w]). pose proof (corpus_le first last sentences ctx). pose proof (tr_size _ _ _ _ _ _ _ _ Ht). lia. Qed.
Lemma call : exists next, parts_ok flog rb srt stable sp (docs_of lowr d words) next /\ query_of sp query topK alpha seq word next terms tokens /\
  (known_context -> next <> None /\ forall x, 0 <= x < zlen words -> sc_of flog next x = next_score flog (occ (ctx ++ [entry_at words x])) (occ ctx)) /\ (~ known_context -> next = None).
Proof.
  destruct (from_parts lowr has sep first last order text sentences L rb g ord tord srt bsrt stable chunk chunk' fuel fuel' mfuel name d Ht Hwd Hf1 Hf2 words sp Hfrom) as (Hnd & Hin & _ & Hix & Hz & Es & Ec & Et & Ev & l & Htm & Em & Eg & Hid).
  pose proof Hwd as [_ Hrb Hrw Hg Hor _ Hsrt _ Hst].
  pose proof (dict_index rb g ord name lowr d words Hrb Hrw Hg Hor Hd (sp_index sp) Hix) as Hok.
  assert (exists next, scorer_next (sp_get sp) (sp_model sp) seq = Ret next /\ (known_context -> exists s, next = Some s /\ forall w, exists i, GetWordID l w = Ret i /\ ScoreNext flog s i = Ret (next_score flog (occ (ctx ++ [w])) (occ ctx))) /\ (~ known_context -> next = None)) as (next & En & Hkn & Hunk).
  { destruct seq as [|s0 seq0] eqn:Eseq; [exists None; split; [reflexivity|split; [intros [H _]; congruence|reflexivity]]|]. rewrite <- Eseq in *.
    assert (seq <> []) as Hne by (rewrite Eseq; discriminate). destruct (trained_next first last sentences order l Htm (tr_order _ _ _ _ _ _ _ _ Ht) (tr_size _ _ _ _ _ _ _ _ Ht) flog seq Hne) as (ids & Ei & H1 & H2).
    assert (get_all (sp_get sp) seq = Ret ids) as Ei'. { rewrite <- Ei. clear - Eg. induction seq as [|w ws IH]; [reflexivity|]. cbn [get_all]. rewrite Eg, IH. reflexivity. }
    assert (0 <? zlen ids = true) as El0.
    { assert (length ids = length seq) as El. { clear - Ei. revert ids Ei. induction seq as [|w ws IH]; intros ids Ei; [injection Ei as <-; reflexivity|]. cbn [get_all] in Ei. destruct (GetWordID l w); try discriminate. cbn [bind] in Ei. destruct (get_all (GetWordID l) ws) as [r| | |]; try discriminate. injection Ei as <-. cbn [List.length]. rewrite (IH r eq_refl). reflexivity. }
      unfold zlen. rewrite El, Eseq. reflexivity. }
    unfold scorer_next. rewrite Ei'. cbn [bind]. rewrite El0, Em.
    assert ((exists w, 0 < occ (ctx ++ [w])) \/ ~ (exists w, 0 < occ (ctx ++ [w]))) as [Hc|Hc] by apply Classical_Prop.classic.
    - destruct (H1 Hc) as (s & Esn & Hs). exists (Some s). split; [exact Esn|]. split; [intros _; exists s; split; [reflexivity|exact Hs]|]. intros Hn. exfalso. apply Hn. split; assumption.
    - exists None. split; [apply H2; exact Hc|]. split; [intros [_ H]; contradiction|reflexivity]. }
  exists next.
  assert (forall x, 0 <= x < zlen words -> nth_error words (Z.to_nat x) = Some (entry_at words x)) as Hnth by (intros x Hx; unfold entry_at; apply nth_error_nth'; unfold zlen in Hx; lia).
  assert (Hsc : forall x, 0 <= x < zlen words -> (known_context -> newScorer flog next x = Ret (next_score flog (occ (ctx ++ [entry_at words x])) (occ ctx))) /\ (~ known_context -> newScorer flog next x = Ret UnknownWordScore)).
  { intros x Hx. split.
    - intros Hc. destruct (Hkn Hc) as (s & -> & Hs). cbn [newScorer]. destruct (Hs (entry_at words x)) as (i & Ei & Er). rewrite (Hid (Z.to_nat x) (entry_at words x) (Hnth x Hx)) in Ei. injection Ei as <-. rewrite Z2Nat.id in Er by lia. exact Er.
    - intros Hc. rewrite (Hunk Hc). reflexivity. }
  split; [|split; [|split]].
  - constructor; [apply (s_docs lowr d words Hd)|apply (s_index rb lowr d words _ Hok)|exact Hsrt|exact Hst| |].
    + intros [x ts] Hx. apply (doc_entry lowr d words) in Hx. destruct Hx as [Hx _]. cbn [fst]. unfold sc_of. destruct (Hsc x Hx) as [S1 S2]. assert (known_context \/ ~ known_context) as [Hc|Hc] by apply Classical_Prop.classic.
      * rewrite (S1 Hc). split; [reflexivity|]. destruct (occ_range (entry_at words x)). apply next_numeric; assumption.
      * rewrite (S2 Hc). split; [reflexivity|discriminate].
    + intros [x ts] Hx. apply (doc_entry lowr d words) in Hx. destruct Hx as [Hx _]. exists (entry_at words x). apply Ev. exact Hx.
  - constructor.
    + rewrite Et. apply tokenize_iff. exact Hq.
    + exact En.
    + rewrite Ec. apply auto_grams. apply Hd.
    + exact Nt.
    + exact Zt.
    + rewrite Es. apply suggest_grams. apply Hd.
    + split; [exact Ha|]. split; [exact Nk|]. split; [exact Zk|]. split; [eapply s_len; eassumption|]. split; [discriminate|exact Hk].
    + apply (s_searchable rb lowr d words _ Hok). destruct Hlong as (w & Hw & Hm). exists w. split; [apply Hin; exact Hw|exact Hm].
  - intros Hc. split; [destruct (Hkn Hc) as (s & -> & _); discriminate|]. intros x Hx. unfold sc_of. rewrite (proj1 (Hsc x Hx) Hc). reflexivity.
  - exact Hunk.
Qed.
Lemma values ids vs : (forall x, In x ids -> 0 <= x < zlen words) -> map (sp_value sp) ids = map Ret vs -> vs = map (entry_at words) ids.
Proof.
  destruct (from_parts lowr has sep first last order text sentences L rb g ord tord srt bsrt stable chunk chunk' fuel fuel' mfuel name d Ht Hwd Hf1 Hf2 words sp Hfrom) as (_ & _ & _ & _ & _ & _ & _ & _ & Ev & _).
  revert vs. induction ids as [|x ids IH]; intros [|v vs] Hr E; try discriminate; [reflexivity|]. cbn [map] in *. injection E as E1 E2. rewrite Ev in E1 by (apply Hr; left; reflexivity). injection E1 as <-. f_equal. apply IH; [intros; apply Hr; right; assumption|exact E2].
Qed.
Lemma position w : 0 < occ [w] -> exists x, 0 <= x < zlen words /\ entry_at words x = w.
Proof.
  intros Hw. destruct (from_parts lowr has sep first last order text sentences L rb g ord tord srt bsrt stable chunk chunk' fuel fuel' mfuel name d Ht Hwd Hf1 Hf2 words sp Hfrom) as (_ & Hin & _).
  apply Hin in Hw. apply In_nth_error in Hw. destruct Hw as (j & Hj). assert (j < length words)%nat by (apply nth_error_Some; rewrite Hj; discriminate). exists (Z.of_nat j). unfold zlen, entry_at. rewrite Nat2Z.id, (nth_error_nth words j [] Hj). split; [lia|reflexivity].
Qed.
Lemma entry_occ x : 0 <= x < zlen words -> 0 < occ [entry_at words x].
Proof.
  intros Hx. destruct (from_parts lowr has sep first last order text sentences L rb g ord tord srt bsrt stable chunk chunk' fuel fuel' mfuel name d Ht Hwd Hf1 Hf2 words sp Hfrom) as (_ & Hin & _).
  apply Hin. unfold entry_at. apply nth_In. unfold zlen in Hx. lia.
Qed.
Lemma predicted sched sched' r : Predict flog rb srt stable sched sched' sp query topK alpha = Some r ->
  exists vs, r = Ret vs /\ zlen vs <= topK + 1 /\ NoDup vs /\
   (forall w, In w vs -> 0 < occ [w] /\ ((forall t, In t terms -> In t (entry_grams lowr d w)) \/ (gram_similarity lowr d Cosine tokens w >= val alpha * (1 - / 2 ^ 46))%R)) /\
   (known_context -> StronglySorted (fun v w => occ (ctx ++ [w]) <= occ (ctx ++ [v])) vs) /\
   (forall w, 0 < occ [w] -> (forall t, In t terms -> In t (entry_grams lowr d w)) -> In w vs \/ (topK <= zlen vs /\ (known_context -> forall v, In v vs -> occ (ctx ++ [w]) <= occ (ctx ++ [v])))) /\
   (zlen (filter (fun w => forallb (fun t => existsb (beqb t) (entry_grams lowr d w)) terms) words) < topK -> forall w, 0 < occ [w] -> 1 <= zlen (entry_grams lowr d w) ->
      (gram_similarity lowr d Cosine tokens w >= val alpha * (1 + / 2 ^ 46))%R -> In w vs \/ topK <= zlen vs).
Proof.
  intros Hr. destruct call as (next & HP & HQ & Hsc & _).
  destruct (C61_prediction_partial flog rb srt stable sp _ query topK alpha seq word next terms tokens sched sched' r HP HQ Hr) as (ids & vs & -> & Em & Hl & Hnd & Hsound & Hsort & Hcomp & Hfew).
  assert (forall x, In x ids -> 0 <= x < zlen words) as Hrange. { intros x Hx. destruct (Hsound x Hx) as (ts & Hd1 & _). apply (doc_entry lowr d words) in Hd1. apply Hd1. }
  assert (vs = map (entry_at words) ids) as -> by (apply values; assumption). exists (map (entry_at words) ids). split; [reflexivity|].
  destruct (from_parts lowr has sep first last order text sentences L rb g ord tord srt bsrt stable chunk chunk' fuel fuel' mfuel name d Ht Hwd Hf1 Hf2 words sp Hfrom) as (Hwn & _).
  assert (zlen (map (entry_at words) ids) = zlen ids) as Ez by (unfold zlen; rewrite map_length; reflexivity).
  split; [unfold bytes in *; lia|]. split; [|split; [|split; [|split]]].
  - clear - Hnd Hrange Hwn. induction ids as [|x ids IH]; [constructor|]. inversion_clear Hnd. cbn [map]. constructor; [|apply IH; [assumption|intros; apply Hrange; right; assumption]].
    intros Hin. apply in_map_iff in Hin. destruct Hin as (y & E & Hy). apply H. pose proof (Hrange x (or_introl eq_refl)) as Rx. pose proof (Hrange y (or_intror Hy)) as Ry. unfold zlen, entry_at in *.
    assert (Z.to_nat y = Z.to_nat x) as En by (apply (proj1 (NoDup_nth words []) Hwn); [lia|lia|exact E]). replace x with y by lia. exact Hy.
  - intros w Hw. apply in_map_iff in Hw. destruct Hw as (x & <- & Hx). split; [apply entry_occ, Hrange, Hx|]. destruct (Hsound x Hx) as (ts & Hd1 & H). apply (doc_entry lowr d words) in Hd1. destruct Hd1 as [_ ->]. exact H.
  - intros Hc. destruct (Hsc Hc) as [Hne Hs]. specialize (Hsort Hne). clear Hcomp Hfew Hsound Hnd Em Hl Hr Ez. induction Hsort as [|x l Hsort IH Hx]; cbn [map]; constructor; [apply IH; intros; apply Hrange; right; assumption|].
    apply Forall_forall. intros w Hw. apply in_map_iff in Hw. destruct Hw as (y & <- & Hy). rewrite Forall_forall in Hx. specialize (Hx y Hy). rewrite !Hs in Hx by (apply Hrange; cbn; auto).
    destruct (occ_range (entry_at words x)) as [R1 R2]. destruct (occ_range (entry_at words y)) as [R3 _]. exact (next_order flog _ _ _ Hlog R1 R3 R2 Hx).
  - intros w Hw Hcw. destruct (position w Hw) as (x & Hx & <-). destruct (Hcomp x (entry_grams lowr d (entry_at words x))) as [Hi|[Hi1 Hi2]]; [apply (doc_entry lowr d words); split; [exact Hx|reflexivity]|exact Hcw|left; apply in_map; exact Hi|right].
    split; [unfold bytes in *; lia|]. intros Hc v Hv. apply in_map_iff in Hv. destruct Hv as (y & <- & Hy). destruct (Hsc Hc) as [_ Hs]. specialize (Hi2 y Hy). rewrite !Hs in Hi2 by (assumption || apply Hrange; assumption).
    destruct (occ_range (entry_at words x)) as [R1 R2]. destruct (occ_range (entry_at words y)) as [R3 _]. exact (next_order flog _ _ _ Hlog R3 R1 R2 Hi2).
  - intros Hf w Hw H1 Hs. destruct (position w Hw) as (x & Hx & <-). destruct (Hfew) with (x := x) (ts := entry_grams lowr d (entry_at words x)) as [Hi|Hi].
    + rewrite <- (filter_docs lowr d terms words 0) in Hf. exact Hf.
    + apply (doc_entry lowr d words). split; [exact Hx|reflexivity].
    + exact H1.
    + exact Hs.
    + left. apply in_map. exact Hi.
    + right. unfold bytes in *. lia.
Qed.
Lemma predicted_no_context sched sched' r : ~ known_context -> Predict flog rb srt stable sched sched' sp query topK alpha = Some r ->
  let completions := filter (fun w => forallb (fun t => existsb (beqb t) (entry_grams lowr d w)) terms) words in
  exists more, r = Ret (firstn (Z.to_nat topK) completions ++ more) /\ (topK <= zlen completions -> more = []).
Proof.
  intros Hc Hr completions. destruct call as (next & HP & HQ & _ & Hn). rewrite (Hn Hc) in *.
  destruct (C61_prediction_partial flog rb srt stable sp _ query topK alpha seq word None terms tokens sched sched' r HP HQ Hr) as (ids & vs0 & E0 & Em0 & _ & _ & Hsound & _).
  destruct (C61_no_context flog rb srt stable sp _ query topK alpha seq word terms tokens sched sched' r HP HQ Hr) as (vs & more & -> & Em & Hmore). injection E0 as <-.
  assert (forall x, In x ids -> 0 <= x < zlen words) as Hrange. { intros x Hx. destruct (Hsound x Hx) as (ts & Hd1 & _). apply (doc_entry lowr d words) in Hd1. apply Hd1. }
  pose proof (values ids vs Hrange Em0) as Ev. set (fs := firstn (Z.to_nat topK) (map fst (filter (has_all terms) (docs_of lowr d words)))) in *.
  assert (exists vm, vs = map (entry_at words) fs ++ vm /\ (more = [] -> vm = [])) as (vm & -> & Hvm).
  { rewrite map_app in Em. exists (skipn (length fs) vs). split.
    - assert (forall x, In x fs -> 0 <= x < zlen words) as Hfr.
      { intros x Hx. assert (In x (map fst (filter (has_all terms) (docs_of lowr d words)))) as Hx' by (rewrite <- (firstn_skipn (Z.to_nat topK) (map fst _)); apply in_app_iff; left; exact Hx). apply in_map_iff in Hx'. destruct Hx' as ([y ts] & <- & Hy). apply filter_In in Hy. destruct Hy as [Hy _]. apply (doc_entry lowr d words) in Hy. apply Hy. }
      rewrite <- (firstn_skipn (length fs) vs) at 1. f_equal. apply values; [exact Hfr|]. apply (f_equal (firstn (length fs))) in Em. rewrite (firstn_map (@Ret bytes)) in Em. rewrite <- Em, firstn_app, map_length, Nat.sub_diag. cbn [firstn]. rewrite app_nil_r. symmetry. apply firstn_all2. rewrite map_length. lia.
    - intros ->. apply (f_equal (@List.length _)) in Em. rewrite app_length, !map_length in Em. cbn [List.length] in Em. apply skipn_all2. lia. }
  exists vm. split.
  - do 2 f_equal. unfold fs, completions. rewrite <- (filter_ids lowr d terms words 0) by lia. rewrite <- !firstn_map. f_equal. apply map_ext. intros x. unfold entry_at. rewrite Z.sub_0_r. reflexivity.
  - intros H. apply Hvm, Hmore. unfold docs_of. rewrite (filter_docs lowr d terms words 0). exact H.
Qed.
End Query.

(** ** C87 *)
(** The dictionary of a spellchecker trained on a text: the words of the text (with the two
    symbols), each once, the more frequent first. *)
Theorem C87_words : forall lowr has sep first last order text sentences L rb g ord tord srt bsrt stable chunk chunk' fuel fuel' mfuel name d words sp,
  training lowr has sep first last order text sentences -> world L rb g ord tord srt bsrt stable -> (2 * length text + 1 < fuel)%nat -> Z.of_nat mfuel < 2 ^ 31 - 1 ->
  spellchecker_from lowr has sep first last order text L rb g ord tord bsrt chunk chunk' fuel fuel' mfuel name d words sp ->
  let occ := occurrences_in first last sentences in
  NoDup words /\ (forall w, In w words <-> 0 < occ [w]) /\ StronglySorted (fun a b => occ [b] <= occ [a]) words.
Proof.
  intros lowr has sep first last order text sentences L rb g ord tord srt bsrt stable chunk chunk' fuel fuel' mfuel name d words sp Ht Hw H1 H2 Hs occ.
  destruct (from_parts lowr has sep first last order text sentences L rb g ord tord srt bsrt stable chunk chunk' fuel fuel' mfuel name d Ht Hw H1 H2 words sp Hs) as (A & B & C & _).
  split; [exact A|]. split; [exact B|]. clear - C. fold occ in C. induction C as [|a l _ IH Ha]; constructor; [exact IH|]. eapply Forall_impl; [|exact Ha]. cbn beta. intros b Hab. lia.
Qed.
Print Assumptions C87_words.
(** The predictions: for every text, dictionary configuration, query and schedule, a call that
    returns gives words of the text, each once, at most limit + 1, each a completion of the
    last word or as similar to it as requested; if the words before it are followed by
    anything in the text, the words that follow them more often come first; and every word
    that completes the last one is returned unless limit words that follow the context at
    least as often are. *)
Theorem C87_predict_partial : forall lowr has sep first last order text sentences L rb g ord tord srt bsrt stable chunk chunk' fuel fuel' mfuel name d words sp flog,
  training lowr has sep first last order text sentences -> world L rb g ord tord srt bsrt stable -> (2 * length text + 1 < fuel)%nat -> Z.of_nat mfuel < 2 ^ 31 - 1 ->
  spellchecker_from lowr has sep first last order text L rb g ord tord bsrt chunk chunk' fuel fuel' mfuel name d words sp -> dictionary_ok lowr d words -> log_ok flog ->
  forall query seq word topK alpha,
  let occ := occurrences_in first last sentences in let terms := prefix_grams lowr d word in let tokens := entry_grams lowr d word in let ctx := context_of order first seq in
  let known := seq <> [] /\ exists w, 0 < occ (ctx ++ [w]) in
  let completes := fun w => forall t, In t terms -> In t (entry_grams lowr d w) in
  text_words lowr has query (seq ++ [word]) -> 1 <= topK -> alpha_ok alpha -> NoDup terms -> 1 <= zlen terms < 2 ^ 32 -> NoDup tokens -> 1 <= zlen tokens <= 65535 ->
  (exists w, 0 < occ [w] /\ MinY Cosine alpha (zlen tokens) <= zlen (entry_grams lowr d w)) ->
  forall sched sched' r, Predict flog rb srt stable sched sched' sp query topK alpha = Some r ->
  exists vs, r = Ret vs /\ zlen vs <= topK + 1 /\ NoDup vs /\
   (forall w, In w vs -> 0 < occ [w] /\ (completes w \/ (gram_similarity lowr d Cosine tokens w >= val alpha * (1 - / 2 ^ 46))%R)) /\
   (known -> StronglySorted (fun v w => occ (ctx ++ [w]) <= occ (ctx ++ [v])) vs) /\
   (forall w, 0 < occ [w] -> completes w -> In w vs \/ (topK <= zlen vs /\ (known -> forall v, In v vs -> occ (ctx ++ [w]) <= occ (ctx ++ [v])))) /\
   (zlen (filter (fun w => forallb (fun t => existsb (beqb t) (entry_grams lowr d w)) terms) words) < topK -> forall w, 0 < occ [w] -> 1 <= zlen (entry_grams lowr d w) ->
      (gram_similarity lowr d Cosine tokens w >= val alpha * (1 + / 2 ^ 46))%R -> In w vs \/ topK <= zlen vs).
Proof. intros. eapply predicted; eassumption. Qed.
Print Assumptions C87_predict_partial.
(** Without a known context (the query is one word, or nothing follows these words in the
    text) the most frequent completions come first, in the order of the dictionary. *)
Theorem C87_no_context_partial : forall lowr has sep first last order text sentences L rb g ord tord srt bsrt stable chunk chunk' fuel fuel' mfuel name d words sp flog,
  training lowr has sep first last order text sentences -> world L rb g ord tord srt bsrt stable -> (2 * length text + 1 < fuel)%nat -> Z.of_nat mfuel < 2 ^ 31 - 1 ->
  spellchecker_from lowr has sep first last order text L rb g ord tord bsrt chunk chunk' fuel fuel' mfuel name d words sp -> dictionary_ok lowr d words -> log_ok flog ->
  forall query seq word topK alpha,
  let occ := occurrences_in first last sentences in let terms := prefix_grams lowr d word in let tokens := entry_grams lowr d word in let ctx := context_of order first seq in
  let completions := filter (fun w => forallb (fun t => existsb (beqb t) (entry_grams lowr d w)) terms) words in
  text_words lowr has query (seq ++ [word]) -> 1 <= topK -> alpha_ok alpha -> NoDup terms -> 1 <= zlen terms < 2 ^ 32 -> NoDup tokens -> 1 <= zlen tokens <= 65535 ->
  (exists w, 0 < occ [w] /\ MinY Cosine alpha (zlen tokens) <= zlen (entry_grams lowr d w)) ->
  ~ (seq <> [] /\ exists w, 0 < occ (ctx ++ [w])) ->
  forall sched sched' r, Predict flog rb srt stable sched sched' sp query topK alpha = Some r ->
  exists more, r = Ret (firstn (Z.to_nat topK) completions ++ more) /\ (topK <= zlen completions -> more = []).
Proof. intros. eapply predicted_no_context; eassumption. Qed.
Print Assumptions C87_no_context_partial.
(** And a call does return: the two searches it runs stop after a bounded number of steps,
    never stuck, and then there is a result. *)
Theorem C87_returns_partial : forall lowr has sep first last order text sentences L rb g ord tord srt bsrt stable chunk chunk' fuel fuel' mfuel name d words sp flog,
  training lowr has sep first last order text sentences -> world L rb g ord tord srt bsrt stable -> (2 * length text + 1 < fuel)%nat -> Z.of_nat mfuel < 2 ^ 31 - 1 ->
  spellchecker_from lowr has sep first last order text L rb g ord tord bsrt chunk chunk' fuel fuel' mfuel name d words sp -> dictionary_ok lowr d words -> log_ok flog ->
  forall query seq word topK alpha,
  let occ := occurrences_in first last sentences in let terms := prefix_grams lowr d word in let tokens := entry_grams lowr d word in
  text_words lowr has query (seq ++ [word]) -> 1 <= topK -> alpha_ok alpha -> NoDup terms -> 1 <= zlen terms < 2 ^ 32 -> NoDup tokens -> 1 <= zlen tokens <= 65535 ->
  (exists w, 0 < occ [w] /\ MinY Cosine alpha (zlen tokens) <= zlen (entry_grams lowr d w)) ->
  exists next, scorer_next (sp_get sp) (sp_model sp) seq = Ret next /\ let ix := sp_index sp in let score := newScorer flog next in
  (forall sched p, lrun rb srt ix terms score topK sched (lstart terms topK) = Some p ->
     zlen sched <= 5 * Z.max 0 (zlen ix - zlen terms) + 2 /\ ((exists l, p = LFinished (Ret l)) \/ exists c p', lexec rb srt ix terms score topK c p = Some p')) /\
  (forall sched p, run rb srt ix tokens Cosine alpha topK sched (start ix tokens Cosine alpha topK) = Some p ->
     zlen sched <= 20 * Z.max 0 (Z.max (zlen tokens - bMin tokens Cosine alpha + 1) (bMax ix tokens Cosine alpha - zlen tokens)) + 7 /\
     ((exists l, p = Finished (Ret l)) \/ exists c p', exec rb srt ix tokens Cosine alpha topK c p = Some p')) /\
  (forall sched sched' r r', lrun rb srt ix terms score topK sched (lstart terms topK) = Some (LFinished r) ->
     run rb srt ix tokens Cosine alpha topK sched' (start ix tokens Cosine alpha topK) = Some (Finished r') ->
     exists vs, Predict flog rb srt stable sched sched' sp query topK alpha = Some (Ret vs)).
Proof.
  intros lowr has sep first last order text sentences L rb g ord tord srt bsrt stable chunk chunk' fuel fuel' mfuel name d words sp flog Ht Hw H1 H2 Hs Hd Hl query seq word topK alpha occ terms tokens Hq Hk Ha Nt Zt Nk Zk Hlong.
  destruct (call lowr has sep first last order text sentences L rb g ord tord srt bsrt stable chunk chunk' fuel fuel' mfuel name d words sp flog Ht Hw H1 H2 Hs Hd Hl query seq word topK alpha Hq Hk Ha Nt Zt Nk Zk Hlong) as (next & HP & HQ & _).
  exists next. split; [exact (qo_next _ _ _ _ _ _ _ _ _ HQ)|]. exact (C62_returns_partial flog rb srt stable sp _ query topK alpha seq word next terms tokens HP HQ).
Qed.
Print Assumptions C87_returns_partial.
(** The spellchecker exists: unless the search for the hash function runs out of attempts, it
    starts, for every text whose files stay below 4 GB and whose dictionary is one. *)
Theorem C87_builds_partial : forall lowr has sep first last order text sentences L rb g ord tord srt bsrt stable chunk chunk' fuel fuel' mfuel name d,
  training lowr has sep first last order text sentences -> world L rb g ord tord srt bsrt stable -> (2 * length text + 1 < fuel)%nat -> Z.of_nat mfuel < 2 ^ 31 - 1 ->
  exists files, ngram_count lowr has sep first last order tord chunk fuel text = Ret files /\ ((forall f, In f files -> (2 * length f + 1 < fuel')%nat) ->
   build_lm order bsrt chunk' fuel' mfuel files = NoFuel \/
   exists words binary, build_lm order bsrt chunk' fuel' mfuel files = Ret (words, binary) /\
     (zlen binary < 2 ^ 63 -> 2048 + fold_right (fun w n => 28 + zlen w + n) 0 words < 2 ^ 32 -> dictionary_ok lowr d words ->
      exists recs ops, WriteDictionary L words = Ret recs /\ IndexCdb L rb g ord name (ToLower lowr) d recs = Ret ops /\
        ((forall b, ram_open (ram_run NewRAMDirectory ops) (documentListFile name) = Some b -> zlen b < 2 ^ 32) ->
         exists sp, spellchecker_from lowr has sep first last order text L rb g ord tord bsrt chunk chunk' fuel fuel' mfuel name d words sp))).
Proof.
  intros lowr has sep first last order text sentences L rb g ord tord srt bsrt stable chunk chunk' fuel fuel' mfuel name d Ht Hw H1 H2.
  destruct (text_trained lowr has sep first last order text sentences L rb g ord tord srt bsrt stable chunk chunk' fuel fuel' mfuel Ht Hw H1 H2) as (files & words & Ef & Hnd & Hin & Hne & Hso & H).
  exists files. split; [exact Ef|]. intros Hff. destruct (H Hff) as [E|(binary & Eb & Hl)]; [left; exact E|right]. exists words, binary. split; [exact Eb|]. intros Hbz Hcz Hd.
  destruct (Hl Hbz) as (l & El & Hid & Htm). pose proof (fold_pos words) as Hfp. pose proof (zlen_nonneg words) as Hzn.
  assert (WriteDictionary L words = Ret (recs_from 0 words)) as Er. { unfold WriteDictionary. rewrite (built L (wo_cdb _ _ _ _ _ _ _ _ Hw) words 0 []); [reflexivity|lia|unfold bytes in *; lia|exact Hcz]. }
  assert (zlen words <= 2 ^ 32) as Hz32 by (unfold bytes in *; lia).
  destruct (C71_index_builds_partial rb g ord name lowr d words (wo_rb _ _ _ _ _ _ _ _ Hw) (wo_rw _ _ _ _ _ _ _ _ Hw) (wo_gob _ _ _ _ _ _ _ _ Hw) (wo_ord _ _ _ _ _ _ _ _ Hw) Hd) as (ops & Eo & _ & Hram & _).
  exists (recs_from 0 words), ops. split; [exact Er|].
  assert (IndexCdb L rb g ord name (ToLower lowr) d (recs_from 0 words) = Ret ops) as Ei by (rewrite (index_cdb lowr L rb g ord tord srt bsrt stable name d Hw words Hne Hz32); exact Eo). split; [exact Ei|]. intros Hoz. destruct (Hram Hoz) as (ix & Ex).
  unfold RAMBuild in Ex. rewrite Eo in Ex. cbn [bind] in Ex.
  eexists. exists files, binary, (recs_from 0 words), ops. do 3 (split; [assumption|]). split; [exact Hbz|]. split; [exact Hcz|]. split; [exact Er|]. split; [exact Ei|]. split; [exact Hoz|].
  unfold BuildSpellChecker. rewrite map_snd_recs, El. cbn [bind]. unfold RAMBuildCdb. rewrite Ei. cbn [bind]. rewrite Ex. cbn [bind]. reflexivity.
Qed.
Print Assumptions C87_builds_partial.

(** ** The hypotheses are met *)
Lemma rnd_err x : (0 <= x <= 1)%R -> (Rabs (rnd x - x) <= bpow radix2 (-53))%R.
Proof.
  intros Hx. eapply Rle_trans; [apply error_le_half_ulp; apply fexp64_valid|]. apply Rle_trans with (/ 2 * ulp radix2 fexp64 1)%R.
  - apply Rmult_le_compat_l; [lra|]. apply ulp_le; [apply fexp64_valid|apply (FLT_exp_monotone (emin 53 1024) 53)|]. rewrite !Rabs_pos_eq; lra.
  - change 1%R with (bpow radix2 0). rewrite ulp_bpow. change (fexp64 (0 + 1)) with (-52). change (bpow radix2 (-52)) with (/ IZR (2 ^ 52))%R. change (bpow radix2 (-53)) with (/ IZR (2 ^ 53))%R. change (2 ^ 53) with (2 * 2 ^ 52). rewrite mult_IZR. apply Req_le. field. apply not_0_IZR. discriminate.
Qed.
Lemma quotient c n : 0 < c <= n -> n < 2 ^ 28 -> let q := fdiv (of_int c) (of_int n) in fin q /\ val q = rnd (IZR c / IZR n) /\ (0 < IZR c / IZR n <= 1)%R /\ (0 <= val q <= 1)%R.
Proof.
  intros Hc Hn q. destruct (of_int_val c ltac:(lia)) as [F1 V1], (of_int_val n ltac:(lia)) as [F2 V2].
  assert (0 < IZR n)%R as Pn by (apply IZR_lt; lia). assert (0 < IZR c <= IZR n)%R as Pc by (split; [apply IZR_lt; lia|apply IZR_le; lia]).
  assert (0 < IZR c / IZR n <= 1)%R as Hq. { split; [apply Rdiv_lt_0_compat; lra|]. apply Rmult_le_reg_r with (IZR n); [exact Pn|]. unfold Rdiv. rewrite Rmult_assoc, Rinv_l by lra. lra. }
  assert (0 <= rnd (IZR c / IZR n) <= 1)%R as Hr. { split; [apply (rnd_ge_fmt 0); [apply (fmt_int 0); lia|lra]|apply (rnd_le_fmt _ 1); [apply (fmt_int 1); lia|lra]]. }
  destruct (div_val (of_int c) (of_int n) F1 F2) as [F V]; [rewrite V2; lra|rewrite V1, V2, Rabs_pos_eq by lra; eapply Rle_lt_trans; [apply Hr|apply (pow_big 0); lia]|].
  rewrite V1, V2 in V. split; [exact F|]. split; [exact V|]. split; [exact Hq|]. unfold q. rewrite V. exact Hr.
Qed.
(** The identity will do for the logarithm. *)
Lemma log_id : log_ok (fun x => x).
Proof.
  split.
  - intros c n Hc Hn. destruct (quotient c n Hc Hn) as (F & _ & _ & V). split; [intros E; rewrite E in F; destruct F as [_ F]; discriminate F|].
    assert (fin UnknownWordScore) as Fu by (split; reflexivity). apply (flt_val _ _ Fu F). apply Rlt_le_trans with 0%R; [|apply V]. unfold UnknownWordScore. vm_compute. lra.
  - intros c c' n Hc Hc' Hn. destruct (quotient c n ltac:(lia) Hn) as (F & E & Q & V), (quotient c' n ltac:(lia) Hn) as (F' & E' & Q' & V'). apply (flt_val _ _ F F'). rewrite E, E'.
    assert (0 < IZR n)%R as Pn by (apply IZR_lt; lia).
    assert (IZR c / IZR n + / IZR n <= IZR c' / IZR n)%R as Hg. { unfold Rdiv. assert (IZR c + 1 <= IZR c')%R as Hi by (rewrite <- plus_IZR; apply IZR_le; lia). apply Rmult_le_reg_r with (IZR n); [exact Pn|]. rewrite Rmult_plus_distr_r, !Rmult_assoc, Rinv_l by lra. lra. }
    assert (bpow radix2 (-28) < / IZR n)%R as Hn'. { change (bpow radix2 (-28)) with (/ IZR (2 ^ 28))%R. apply Rinv_lt_contravar; [apply Rmult_lt_0_compat; [exact Pn|apply IZR_lt; lia]|apply IZR_lt; lia]. }
    pose proof (rnd_err (IZR c / IZR n) ltac:(lra)) as E1. pose proof (rnd_err (IZR c' / IZR n) ltac:(lra)) as E2. apply Rabs_le_inv in E1. apply Rabs_le_inv in E2.
    assert (2 * bpow radix2 (-53) < bpow radix2 (-28))%R as Hb. { change 2%R with (bpow radix2 1). rewrite <- bpow_plus. apply bpow_lt. lia. }
    lra.
Qed.
(* the program's own description (cmd/spellchecker/cmd/eval.go:15-22), English letters only *)
Definition conf87 : tokconf := mkTok 3 (Has (AComposite [English; ASimple [36; 94; 39]])) (bs "$") (bs "^") (bs "$").
Definition binary87 : bytes := match built70 with Ret (_, b) => b | _ => [] end.
Definition words87 : list bytes := [bs "</S>"; bs "<S>"; bs "i"; bs "am"].
Definition spell87 (d : tokconf) : res spellchecker := BuildSpellChecker lib74 rb4 gob1 (fun _ m => m) "x" low70 (Has English) (bs "<S>") (bs "</S>") 2 d (recs_from 0 words87) binary87.
Definition demo87 (d : tokconf) (q w : bytes) (k : Z) : option (res (list bytes)) :=
  match spell87 d with
  | Ret sp => let score := newScorer (fun x => x) (match (t <- sp_tokenize sp q ;; scorer_next (sp_get sp) (sp_model sp) (removelast t)) with Ret n => n | _ => None end) in
     let terms := prefix_grams low70 d w in let tokens := entry_grams low70 d w in
     Predict (fun x => x) rb4 (fun l => l) isort (lauto 100 (sp_index sp) terms score k (lstart terms k)) (sauto 300 (sp_index sp) tokens quarter k (start (sp_index sp) tokens Cosine quarter k)) sp q k quarter
  | _ => None
  end.

Lemma training87 : training low70 (Has English) sep70 (bs "<S>") (bs "</S>") 2 text70 sents70.
Proof.
  destruct C70_nonvacuous as (H1 & H2 & H3 & H4 & H5 & H6 & H7 & H8 & H9 & _). constructor; try assumption; try (split; [assumption|split; assumption]); try lia.
  - exists 4. split; [|lia]. intros w Hw. rewrite forallb_forall in H8. specialize (H8 w Hw). lia.
  - exists [bs "i"]. split; [right; left; reflexivity|discriminate].
Qed.
Lemma world87 : world lib74 rb4 gob1 (fun _ m => m) P_CountTrie.ord_rev (fun l => l) sort_big isort.
Proof. destruct P_Index.C24_nonvacuous_codecs as (G & _ & R & W). constructor; [exact lib74_ok|exact R|exact W|exact G|intros c m; apply Permutation_refl|intros; apply Permutation_rev|exact sorter_id|exact sort_big_ok|exact isort_ok]. Qed.
Definition recs87 : list record := recs_from 0 words87.
Definition from87 (d : tokconf) : Prop := exists sp, spell87 d = Ret sp /\ spellchecker_from low70 (Has English) sep70 (bs "<S>") (bs "</S>") 2 text70 lib74 rb4 gob1 (fun _ m => m) P_CountTrie.ord_rev sort_big (fun _ => 3%nat) (fun _ => 3%nat) 100 200 50 "x" d words87 sp.
Lemma from87_ok d ops sp : IndexCdb lib74 rb4 gob1 (fun _ m => m) "x" (ToLower low70) d recs87 = Ret ops ->
  match ram_open (ram_run NewRAMDirectory ops) (documentListFile "x") with Some b => zlen b <? 2 ^ 32 | None => true end = true -> spell87 d = Ret sp -> from87 d.
Proof.
  intros Eo Hz Es. exists sp. split; [exact Es|]. exists files70, binary87, recs87, ops. split; [vm_compute; reflexivity|]. split.
  { destruct C70_nonvacuous as (_ & _ & _ & _ & _ & _ & _ & _ & _ & _ & _ & H & _). rewrite forallb_forall in H. intros f Hf. apply Nat.ltb_lt. apply H. exact Hf. }
  split; [vm_compute; reflexivity|]. split; [vm_compute; reflexivity|]. split; [vm_compute; reflexivity|]. split; [vm_compute; reflexivity|]. split; [exact Eo|]. split; [|exact Es].
  intros b Hb. rewrite Hb in Hz. lia.
Qed.
Definition ops87 (d : tokconf) : list dop := match IndexCdb lib74 rb4 gob1 (fun _ m => m) "x" (ToLower low70) d recs87 with Ret o => o | _ => [] end.
Example C87_nonvacuous :
  training low70 (Has English) sep70 (bs "<S>") (bs "</S>") 2 text70 sents70 /\ world lib74 rb4 gob1 (fun _ m => m) P_CountTrie.ord_rev (fun l => l) sort_big isort /\ log_ok (fun x => x) /\
  from87 conf87 /\ dictionary_ok low70 conf87 words87 /\
  let terms := prefix_grams low70 conf87 (bs "am") in let tokens := entry_grams low70 conf87 (bs "am") in let occ := occurrences_in (bs "<S>") (bs "</S>") sents70 in
  text_words low70 (Has English) (bs "I am") ([bs "i"] ++ [bs "am"]) /\ NoDup terms /\ zlen terms = 1 /\ NoDup tokens /\ zlen tokens = 2 /\ alpha_ok quarter /\
  (0 < occ [bs "am"] /\ MinY Cosine quarter (zlen tokens) <= zlen (entry_grams low70 conf87 (bs "am"))) /\
  context_of 2 (bs "<S>") [bs "i"] = [bs "i"] /\ 0 < occ ([bs "i"] ++ [bs "am"]) /\ demo87 conf87 (bs "I am") (bs "am") 2 = Some (Ret [bs "am"]).
Proof.
  split; [exact training87|]. split; [exact world87|]. split; [exact log_id|].
  split. { assert (match spell87 conf87 with Ret _ => true | _ => false end = true) as Er by (vm_compute; reflexivity). destruct (spell87 conf87) as [sp| | |] eqn:E; [clear Er|discriminate Er..]. eapply (from87_ok conf87 (ops87 conf87)); [vm_compute; reflexivity|vm_compute; reflexivity|exact E]. }
  split. { split; [cbn; lia|]. split; [vm_compute; reflexivity|]. split; [exists (bs "</S>"), [bs "<S>"; bs "i"; bs "am"]; split; [reflexivity|vm_compute; discriminate]|].
    intros w [<-|[<-|[<-|[<-|[]]]]]; (split; [match goal with |- NoDup ?t => let v := eval vm_compute in t in change t with v end; repeat apply NoDup_cons; try apply NoDup_nil; cbn; intuition discriminate|vm_compute; reflexivity]). }
  cbv zeta. split; [apply (proj2 (tokenize_iff _ _ _ _)); vm_compute; reflexivity|].
  split; [match goal with |- NoDup ?t => let v := eval vm_compute in t in change t with v end; repeat apply NoDup_cons; try apply NoDup_nil; cbn; intuition discriminate|]. split; [vm_compute; reflexivity|].
  split; [match goal with |- NoDup ?t => let v := eval vm_compute in t in change t with v end; repeat apply NoDup_cons; try apply NoDup_nil; cbn; intuition discriminate|]. split; [vm_compute; reflexivity|]. split; [exact alpha_quarter|].
  split; [split; [vm_compute; reflexivity|vm_compute; discriminate]|]. split; [reflexivity|]. split; vm_compute; reflexivity.
Qed.
(** "Every prediction is a word of the text" is false: the symbols that mark the ends of the
    sentences are words of the dictionary.  Trained on "I, am? i!", with the index description
    of the examples (3-grams, "$" around and for other characters), the answer to "s" is
    "<S>" and "</S>", and to "I s" the same in the other order. *)
Definition conf87t : tokconf := mkTok 3 (Has (AComposite [English; ASimple [36]])) (bs "$") (bs "$") (bs "$").
Theorem C87_symbols_refuted :
  training low70 (Has English) sep70 (bs "<S>") (bs "</S>") 2 text70 sents70 /\ world lib74 rb4 gob1 (fun _ m => m) P_CountTrie.ord_rev (fun l => l) sort_big isort /\ log_ok (fun x => x) /\
  from87 conf87t /\ dictionary_ok low70 conf87t words87 /\ alpha_ok quarter /\
  text_words low70 (Has English) (bs "s") [bs "s"] /\ (forall w, In w [bs "<S>"; bs "</S>"] -> ~ In w (concat sents70)) /\
  demo87 conf87t (bs "s") (bs "s") 2 = Some (Ret [bs "<S>"; bs "</S>"]) /\ demo87 conf87t (bs "I s") (bs "s") 2 = Some (Ret [bs "</S>"; bs "<S>"]).
Proof.
  split; [exact training87|]. split; [exact world87|]. split; [exact log_id|].
  split. { assert (match spell87 conf87t with Ret _ => true | _ => false end = true) as Er by (vm_compute; reflexivity). destruct (spell87 conf87t) as [sp| | |] eqn:E; [clear Er|discriminate Er..]. eapply (from87_ok conf87t (ops87 conf87t)); [vm_compute; reflexivity|vm_compute; reflexivity|exact E]. }
  split. { split; [cbn; lia|]. split; [vm_compute; reflexivity|]. split; [exists (bs "</S>"), [bs "<S>"; bs "i"; bs "am"]; split; [reflexivity|vm_compute; discriminate]|].
    intros w [<-|[<-|[<-|[<-|[]]]]]; (split; [match goal with |- NoDup ?t => let v := eval vm_compute in t in change t with v end; repeat apply NoDup_cons; try apply NoDup_nil; cbn; intuition discriminate|vm_compute; reflexivity]). }
  split; [exact alpha_quarter|]. split; [apply (proj2 (tokenize_iff _ _ _ _)); vm_compute; reflexivity|]. split; [intros w [<-|[<-|[]]]; vm_compute; intuition discriminate|]. split; vm_compute; reflexivity.
Qed.
Print Assumptions C87_symbols_refuted.
