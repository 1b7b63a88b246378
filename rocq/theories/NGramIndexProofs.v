(** Proofs for C71-C73: tokens, building, size of the index. *)
From Coq Require Import String ZifyBool Permutation Sorting.Sorted Lia.
From Verif Require Import Base BaseLemmas GoMap Store StoreSpec StoreProofs2 Postings PostingsSpec PostingsDrive P_PostingsLemmas Merger MergerSpec
  Text TextProofs TextProofs2 Analysis AnalysisSpec AnalysisProofs AnalysisProofs2 P_AnalysisLemmas P_Analysis
  Index IndexSpec IndexProofs IndexProofs2 P_IndexLemmas SuggestSpec Mph NGramIndex NGramIndexSpec.
Local Open Scope Z_scope.

(** ** Tokens *)
Lemma tokenizer_grams lowr d text : 1 <= t_n d <= 8 -> FilterTokenize (ToLower lowr) (NGramTokenize (t_n d)) (NormalizerFilter (t_has d) (t_pad d)) text = Ret (grams lowr d text).
Proof.
  intros Hn. unfold FilterTokenize, grams, substrings. rewrite prepared_text. set (l := prepared lowr text).
  assert (NGramTokenize (t_n d) (enc l) = Ret (if (Z.to_nat (t_n d) <=? length (chars (enc l)))%nat then first_occurrences (windows (Z.to_nat (t_n d)) (chars (enc l))) else if (length (enc l) <? Z.to_nat (t_n d))%nat then [] else [enc l])) as E.
  { replace (t_n d) with (Z.of_nat (Z.to_nat (t_n d))) at 1 by lia. destruct (Nat.leb_spec (Z.to_nat (t_n d)) (length (chars (enc l)))) as [H|H]; [apply tokenize_windows; lia|apply tokenize_short; lia]. }
  rewrite E. cbn [bind]. f_equal. apply map_ext_in. intros t Ht. destruct (ngram_enc_tokens _ _ _ Hn E) as [_ Hin]. destruct (Hin t Ht) as (k & m & ->). unfold padded. apply normalize_char_ok, enc_char_ok.
Qed.
Lemma suggest_grams lowr d text : 1 <= t_n d <= 8 -> SuggestTokenize (ToLower lowr) d text = Ret (entry_grams lowr d text).
Proof. intros Hn. unfold SuggestTokenize, WrapTokenize. apply tokenizer_grams. exact Hn. Qed.
Lemma auto_grams lowr d text : 1 <= t_n d <= 8 -> AutocompleteTokenize (ToLower lowr) d text = Ret (prefix_grams lowr d text).
Proof. intros Hn. unfold AutocompleteTokenize, WrapTokenize. rewrite tokenizer_grams by exact Hn. unfold prefix_grams. rewrite app_nil_r. reflexivity. Qed.

(** ** The documents of a dictionary *)
Definition docs_from (lowr : Z -> Z) (d : tokconf) (i : Z) (words : list bytes) : list (Z * list term) := map (fun p => (i + Z.of_nat (fst p), entry_grams lowr d (snd p))) (combine (seq 0 (length words)) words).
Definition docs_of (lowr : Z -> Z) (d : tokconf) (words : list bytes) : list (Z * list term) := docs_from lowr d 0 words.
Lemma docs_from_cons lowr d i w words : docs_from lowr d i (w :: words) = (i, entry_grams lowr d w) :: docs_from lowr d (i + 1) words.
Proof.
  unfold docs_from. cbn [length seq combine map fst snd]. f_equal; [f_equal; lia|]. rewrite <- seq_shift. generalize (seq 0 (length words)). intros l. revert l. clear. induction words as [|w words IH]; intros l; [rewrite !combine_nil; reflexivity|].
  destruct l as [|x l]; [reflexivity|]. cbn [map combine fst snd]. f_equal; [f_equal; lia|]. apply IH.
Qed.
Lemma docs_from_in lowr d words : forall i x ts, In (x, ts) (docs_from lowr d i words) <-> exists j w, nth_error words j = Some w /\ x = i + Z.of_nat j /\ ts = entry_grams lowr d w.
Proof.
  induction words as [|w words IH]; intros i x ts; [split; [intros []|intros (j & w & H & _); destruct j; discriminate]|]. rewrite docs_from_cons. cbn [In]. rewrite IH. split.
  - intros [E|(j & w' & H & -> & ->)]; [injection E as <- <-; exists O, w; split; [reflexivity|split; [lia|reflexivity]]|exists (S j), w'; split; [exact H|split; [lia|reflexivity]]].
  - intros (j & w' & H & -> & ->). destruct j as [|j]; [left; injection H as ->; f_equal; lia|right; exists j, w'; split; [exact H|split; [lia|reflexivity]]].
Qed.
Lemma docs_len lowr d words i : zlen (docs_from lowr d i words) = zlen words.
Proof. unfold docs_from, zlen. rewrite map_length, combine_length, seq_length. lia. Qed.
Lemma docs_sorted lowr d words : forall i, StronglySorted Z.lt (map fst (docs_from lowr d i words)).
Proof.
  induction words as [|w words IH]; intros i; [constructor|]. rewrite docs_from_cons. cbn [map fst]. constructor; [apply IH|]. apply Forall_forall. intros x Hx. apply in_map_iff in Hx. destruct Hx as ((y & ts) & <- & Hy).
  apply docs_from_in in Hy. destruct Hy as (j & w' & _ & -> & _). cbn [fst]. lia.
Qed.
Lemma docs_good lowr d words : dictionary_ok lowr d words -> docs_ok (docs_of lowr d words) /\ starts_ok (docs_of lowr d words) /\ Forall (fun x => zlen (snd x) + 1 < 2 ^ 26) (docs_of lowr d words) /\ zlen (docs_of lowr d words) < 2 ^ 32.
Proof.
  intros (Hn & Hz & (w0 & ws0 & Ew & Hne) & Hw). unfold docs_of. split; [|split; [|split]].
  - split; [apply docs_sorted|]. split.
    + apply Forall_forall. intros x Hx. apply in_map_iff in Hx. destruct Hx as ((y & ts) & <- & Hy). apply docs_from_in in Hy. destruct Hy as (j & w & Hj & -> & _). cbn [fst]. assert (j < length words)%nat by (apply nth_error_Some; rewrite Hj; discriminate). unfold is_u32, zlen in *. lia.
    + apply Forall_forall. intros (x, ts) Hx. apply docs_from_in in Hx. destruct Hx as (j & w & Hj & _ & ->). cbn [snd]. apply Hw. eapply nth_error_In. exact Hj.
  - rewrite Ew, docs_from_cons. cbn [starts_ok snd]. exact Hne.
  - apply Forall_forall. intros (x, ts) Hx. apply docs_from_in in Hx. destruct Hx as (j & w & Hj & _ & ->). cbn [snd]. apply Hw. eapply nth_error_In. exact Hj.
  - rewrite docs_len. exact Hz.
Qed.
(** ** Iterating the dictionary adds these documents *)
Lemma iterate_adds lowr d : 1 <= t_n d <= 8 -> forall words i w, 0 <= i -> i + zlen words <= 2 ^ 32 ->
  forall w', Index.add_all w (docs_from lowr d i words) = Ret w' -> DictIterate_from (index_step (ToLower lowr) d) i words (Ret w) = (None, Ret w').
Proof.
  intros Hn. induction words as [|x words IH]; intros i w Hi Hz w' H; [cbn in *; congruence|]. rewrite docs_from_cons in H. cbn [Index.add_all] in H. rewrite zlen_cons in Hz. pose proof (zlen_nonneg words).
  cbn [DictIterate_from]. rewrite wrap32_small by (unfold is_u32; lia). unfold index_step at 1. cbn [bind]. rewrite suggest_grams by exact Hn. cbn [bind].
  destruct (AddDocument w i (entry_grams lowr d x)) as [w1|e| |]; cbn [bind] in H; try discriminate. apply IH; [lia|lia|exact H].
Qed.
(** ** The index and its size *)
Lemma build_tables_len ds : forall tabs tabs', build_tables ds tabs = Ret tabs' -> length tabs' = length tabs.
Proof.
  induction ds as [|x ds IH]; intros tabs tabs' H; cbn [build_tables] in H; [injection H as <-; reflexivity|]. destruct (index tabs (d_indice x)) as [t| | |]; cbn [bind] in H; try discriminate.
  assert (forall A n (y : A) l, length (set_nth_opt n y l) = length l) as Hset by (intros A n y; induction n; intros [|z l]; cbn [set_nth_opt length]; auto).
  destruct (d_size x =? 0); apply IH in H; rewrite H; apply Hset.
Qed.
Lemma read_len g open dn hn ix hb h : IndexRead g open dn hn = Ret ix -> open hn = Some hb -> gob_dec g hb = Some h -> zlen ix = Z.of_nat (Z.to_nat (h_indices h)).
Proof.
  unfold IndexRead. intros H E1 E2. rewrite E1, E2 in H. destruct (negb _); [discriminate|]. destruct (open dn) as [docs|]; [|discriminate].
  destruct (build_tables _ _) as [tabs| | |] eqn:E; cbn [bind] in H; try discriminate. injection H as <-. apply build_tables_len in E. rewrite repeat_length in E. unfold zlen. rewrite map_length, E. reflexivity.
Qed.
(* the largest number of tokens, plus one *)
Definition ix_size (docs : list (Z * list term)) : Z := fold_left (fun m x => Z.max m (zlen (snd x) + 1)) docs 0.
Lemma fold_max_bound (docs : list (Z * list term)) : forall m, m <= fold_left (fun m x => Z.max m (zlen (snd x) + 1)) docs m /\ forall x, In x docs -> zlen (snd x) + 1 <= fold_left (fun m x => Z.max m (zlen (snd x) + 1)) docs m.
Proof.
  induction docs as [|y docs IH]; intros m; cbn [fold_left]; [split; [lia|intros x []]|]. destruct (IH (Z.max m (zlen (snd y) + 1))) as [H1 H2]. split; [lia|]. intros x [<-|Hx]; [lia|apply H2; exact Hx].
Qed.
Lemma fold_max_some (docs : list (Z * list term)) : forall m, fold_left (fun m x => Z.max m (zlen (snd x) + 1)) docs m = m \/ exists x, In x docs /\ fold_left (fun m x => Z.max m (zlen (snd x) + 1)) docs m = zlen (snd x) + 1.
Proof.
  induction docs as [|y docs IH]; intros m; cbn [fold_left]; [left; reflexivity|]. destruct (IH (Z.max m (zlen (snd y) + 1))) as [->|(x & Hx & ->)]; [|right; exists x; split; [right; exact Hx|reflexivity]].
  destruct (Z.max_spec m (zlen (snd y) + 1)) as [[_ ->]|[_ ->]]; [right; exists y; split; [left; reflexivity|reflexivity]|left; reflexivity].
Qed.

Section Build.
Context (rb : roaring) (g : gobcodec) (ord : Z -> index_map -> index_map) (dn hn : string) (docs : list (Z * list term)).
Hypothesis Hrb : roaring_ok rb.
Hypothesis Hrw : roaring_written rb.
Hypothesis Hg : gob_ok g.
Hypothesis Ho : order_ok ord.
Hypothesis Hd : docs_ok docs.
Hypothesis Hs : starts_ok docs.
Hypothesis Hl : Forall (fun d => zlen (snd d) + 1 < 2 ^ 26) docs.
Hypothesis Hn : zlen docs < 2 ^ 32.
Hypothesis Hne : dn <> hn.
Let Hl' : Forall (fun d => zlen (snd d) + 1 < 2 ^ 32) docs.
Proof. eapply Forall_impl; [|exact Hl]. cbn beta. intros; lia. Qed.
Definition ix_ok (ix : list (option inverted)) : Prop := index_of rb ix docs /\ zlen ix = ix_size docs.
Lemma built : exists w ops, Index.add_all [] docs = Ret w /\ Commit rb g ord dn hn 0 w = Ret ops /\ with_flushes 0 ops ops /\
  ((forall b, ram_open (ram_run NewRAMDirectory ops) dn = Some b -> zlen b < 2 ^ 32) -> exists ix, IndexRead g (ram_open (ram_run NewRAMDirectory ops)) dn hn = Ret ix /\ ix_ok ix) /\
  (forall ops', with_flushes 0 ops ops' -> (forall b, fs_open (fs_run NewFSDirectory ops') dn = Some b -> zlen b < 2 ^ 32) -> exists ix, IndexRead g (fs_input (fs_run NewFSDirectory ops')) dn hn = Ret ix /\ ix_ok ix).
Proof.
  destruct (written docs rb g ord dn hn 0 Hrb Hrw Ho (docs_ok_any docs Hd Hn) Hs Hl') as (w & ws & ds & p & Ew & HW & Hwl & Ec & Hcne & Ecm).
  destruct (add_all_ok docs [] [] WI_start) as (w2 & Ew2 & _ & Hlen). { right. destruct docs; [exact I|exact Hs]. }
  rewrite Ew in Ew2. injection Ew2 as <-. change (zlen (@nil (option index_map))) with 0 in Hlen. fold (ix_size docs) in Hlen.
  set (hd := mkHeader IndexVersion (wrap32 (zlen w)) ds) in *. destruct (Hg hd) as [Hdec Hgn].
  assert (forall ix open, IndexRead g open dn hn = Ret ix -> open hn = Some (gob_enc g hd) -> zlen ix = ix_size docs) as Hix.
  { intros ix open E Eo. rewrite (read_len g open dn hn ix _ _ E Eo Hdec). unfold hd. cbn [h_indices]. pose proof (zlen_nonneg w). rewrite wrap32_small by (unfold is_u32; lia). lia. }
  exists w. eexists. split; [exact Ew|]. split; [exact Ecm|]. split; [|split].
  - split; [|intros; apply Nat.le_0_l]. unfold commit_ops. cbn [filter is_flush negb]. f_equal. rewrite filter_app. cbn [filter is_flush negb]. f_equal. clear. induction ws as [|x ws IH]; [reflexivity|]. cbn [map filter is_flush negb]. f_equal. exact IH.
  - intros Hsz.
    destruct (c24_ram rb g ord dn hn [] docs Hrb Hrw Hg Ho Hd Hs Hl' Hn Hne) as (w2 & ops2 & Ew2 & Eo2 & H2); [intros [] | intros [] |]. rewrite Ew in Ew2. injection Ew2 as <-. cbn [count_creates] in Eo2. rewrite Ecm in Eo2. injection Eo2 as <-. cbn [app] in H2.
    destruct (H2 Hsz) as (ix & Er & Hh). exists ix. split; [exact Er|]. split; [exact Hh|]. apply (Hix ix _ Er).
    unfold commit_ops. change (OCreate dn :: map (OWrite 0) ws ++ [OCreate hn; OWrite 1 (gob_enc g hd); OClose 1; OClose 0]) with ((OCreate dn :: map (OWrite 0) ws) ++ OCreate hn :: [OWrite 1 (gob_enc g hd); OClose 1; OClose 0]).
    rewrite (ram_fresh _ _ hn 1).
    + cbn [writes_to]. rewrite Nat.eqb_refl, app_nil_r. reflexivity.
    + cbn [count_creates]. rewrite creates_map. reflexivity.
    + intros Hi. cbn [In] in Hi. rewrite in_map_iff in Hi. destruct Hi as [Hi|(x & H & _)]; [congruence|discriminate].
    + intros Hi. cbn [In] in Hi. destruct Hi as [H|[H|[H|[]]]]; discriminate.
  - intros ops' Hfl Hsz.
    destruct (c24_fs rb g ord dn hn [] docs Hrb Hrw Hg Ho Hd Hs Hl' Hn Hne) as (w2 & ops2 & Ew2 & Eo2 & H2). rewrite Ew in Ew2. injection Ew2 as <-. cbn [count_creates] in Eo2. rewrite Ecm in Eo2. injection Eo2 as <-.
    destruct (H2 ops' Hfl Hsz) as (ix & Er & Hh). cbn [app] in Er. exists ix. split; [exact Er|]. split; [exact Hh|]. apply (Hix ix _ Er).
    pose proof (header_file dn hn [] ws _ ops' Hne Hfl) as Hhf. cbn [app] in Hhf. unfold fs_input. rewrite Hhf. destruct (gob_enc g hd) eqn:E; [congruence|reflexivity].
Qed.
End Build.
Lemma names_differ name : documentListFile name <> headerFile name.
Proof. unfold documentListFile, headerFile. induction name as [|c name IH]; [discriminate|]. cbn [append]. intros H. injection H as H. exact (IH H). Qed.
Section Dictionary.
Context (rb : roaring) (g : gobcodec) (ord : Z -> index_map -> index_map) (name : string) (lowr : Z -> Z) (d : tokconf) (words : list bytes).
Hypothesis Hrb : roaring_ok rb.
Hypothesis Hrw : roaring_written rb.
Hypothesis Hg : gob_ok g.
Hypothesis Ho : order_ok ord.
Hypothesis Hdict : dictionary_ok lowr d words.
Notation docs := (docs_of lowr d words).
Notation dn := (documentListFile name).
Notation hn := (headerFile name).
Lemma dict_built : exists ops, IndexDictionary rb g ord dn hn 0 (ToLower lowr) d words = Ret ops /\ with_flushes 0 ops ops /\
  ((forall b, ram_open (ram_run NewRAMDirectory ops) dn = Some b -> zlen b < 2 ^ 32) -> exists ix, RAMBuild rb g ord name (ToLower lowr) d words = Ret ix /\ ix_ok rb docs ix) /\
  (forall ops', with_flushes 0 ops ops' -> (forall b, fs_open (fs_run NewFSDirectory ops') dn = Some b -> zlen b < 2 ^ 32) -> exists ix, FSBuild g name (fs_run NewFSDirectory ops') = Ret ix /\ ix_ok rb docs ix).
Proof.
  destruct (docs_good _ _ _ Hdict) as (Hd & Hs & Hl & Hn). pose proof Hdict as (Hn8 & Hz & _).
  destruct (built rb g ord dn hn docs Hrb Hrw Hg Ho Hd Hs Hl Hn (names_differ name)) as (w & ops & Ew & Eo & Hf & H1 & H2).
  assert (IndexDictionary rb g ord dn hn 0 (ToLower lowr) d words = Ret ops) as Ei.
  { unfold IndexDictionary, DictIterate. rewrite (iterate_adds lowr d Hn8 words 0 [] ltac:(lia) ltac:(lia) w Ew). cbn [bind]. exact Eo. }
  exists ops. split; [exact Ei|]. split; [exact Hf|]. split.
  - intros Hsz. destruct (H1 Hsz) as (ix & Er & Hix). exists ix. split; [|exact Hix]. unfold RAMBuild. rewrite Ei. cbn [bind]. exact Er.
  - exact H2.
Qed.
Lemma dict_index ix : index_built rb g ord name lowr d words ix -> ix_ok rb docs ix.
Proof.
  intros (ops & Ei & H). destruct dict_built as (ops2 & Ei2 & _ & H1 & H2). rewrite Ei in Ei2. injection Ei2 as <-. destruct H as [[Er Hsz]|(ops' & Hf & Er & Hsz)].
  - destruct (H1 Hsz) as (ix2 & E & Hix). rewrite Er in E. injection E as <-. exact Hix.
  - destruct (H2 ops' Hf Hsz) as (ix2 & E & Hix). rewrite Er in E. injection E as <-. exact Hix.
Qed.
End Dictionary.
