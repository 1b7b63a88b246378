(** Proofs for C94: building the index of a dictionary whose entries may repeat n-grams. *)
From Coq Require Import String ZifyBool Permutation Sorting.Sorted Lia.
From Verif Require Import Base BaseLemmas GoMap Store StoreSpec StoreProofs2 Postings PostingsSpec PostingsDrive P_PostingsLemmas Merger MergerSpec
  Text TextProofs TextProofs2 Analysis AnalysisSpec AnalysisProofs AnalysisProofs2 P_AnalysisLemmas P_Analysis
  Index IndexSpec IndexProofs IndexProofs2 P_IndexLemmas SuggestSpec SuggestAnySpec Mph NGramIndex NGramIndexSpec NGramIndexProofs NGramIndexAnySpec.
Local Open Scope Z_scope.

Lemma token_times_le t (ts : list term) : (token_times t ts <= List.length ts)%nat.
Proof. unfold token_times. induction ts as [|x l IH]; [cbn; lia|]. cbn [filter List.length]. destruct (beqb t x); cbn [List.length]; lia. Qed.
Lemma occurrences_total lowr d words c t : forall i, zlen (occurrences (docs_from lowr d i words) c t) <= total_grams lowr d words.
Proof.
  induction words as [|w words IH]; intros i; [cbn; lia|]. rewrite docs_from_cons. unfold occurrences. cbn [flat_map]. fold (occurrences (docs_from lowr d (i + 1) words) c t). rewrite zlen_app. cbn [total_grams fold_right fst snd]. fold (total_grams lowr d words).
  specialize (IH (i + 1)). pose proof (token_times_le t (entry_grams lowr d w)). destruct (zlen (entry_grams lowr d w) =? c); unfold zlen in *; rewrite ?repeat_length; cbn [List.length]; lia.
Qed.
Lemma docs_good_any lowr d words : dictionary_any lowr d words -> docs_any (docs_of lowr d words) /\ starts_ok (docs_of lowr d words) /\ Forall (fun x => zlen (snd x) + 1 < 2 ^ 26) (docs_of lowr d words) /\ zlen (docs_of lowr d words) < 2 ^ 32.
Proof.
  intros (Hn & Hz & Ht & (w0 & ws0 & Ew & Hne) & Hw). unfold docs_of. split; [|split; [|split]].
  - split; [apply docs_sorted|]. split.
    + apply Forall_forall. intros x Hx. apply in_map_iff in Hx. destruct Hx as ((y & ts) & <- & Hy). apply docs_from_in in Hy. destruct Hy as (j & w & Hj & -> & _). cbn [fst]. assert (j < List.length words)%nat by (apply nth_error_Some; rewrite Hj; discriminate). unfold is_u32, zlen in *. lia.
    + intros c t. pose proof (occurrences_total lowr d words c t 0). lia.
  - rewrite Ew, docs_from_cons. cbn [starts_ok snd]. exact Hne.
  - apply Forall_forall. intros (x, ts) Hx. apply docs_from_in in Hx. destruct Hx as (j & w & Hj & _ & ->). cbn [snd]. apply Hw. eapply nth_error_In. exact Hj.
  - rewrite docs_len. exact Hz.
Qed.
Section BuildAny.
Context (rb : roaring) (g : gobcodec) (ord : Z -> index_map -> index_map) (dn hn : string) (docs : list (Z * list term)).
Hypothesis Hrb : roaring_ok rb.
Hypothesis Hrw : roaring_written rb.
Hypothesis Hg : gob_ok g.
Hypothesis Ho : order_ok ord.
Hypothesis Hd : docs_any docs.
Hypothesis Hs : starts_ok docs.
Hypothesis Hl : Forall (fun d => zlen (snd d) + 1 < 2 ^ 26) docs.
Hypothesis Hne : dn <> hn.
Let Hl' : Forall (fun d => zlen (snd d) + 1 < 2 ^ 32) docs.
Proof. eapply Forall_impl; [|exact Hl]. cbn beta. intros; lia. Qed.
Definition ix_any (ix : list (option inverted)) : Prop := index_any rb ix docs /\ zlen ix = ix_size docs.
Lemma built_any : exists w ops, Index.add_all [] docs = Ret w /\ Commit rb g ord dn hn 0 w = Ret ops /\ with_flushes 0 ops ops /\
  ((forall b, ram_open (ram_run NewRAMDirectory ops) dn = Some b -> zlen b < 2 ^ 32) -> exists ix, IndexRead g (ram_open (ram_run NewRAMDirectory ops)) dn hn = Ret ix /\ ix_any ix) /\
  (forall ops', with_flushes 0 ops ops' -> (forall b, fs_open (fs_run NewFSDirectory ops') dn = Some b -> zlen b < 2 ^ 32) -> exists ix, IndexRead g (fs_input (fs_run NewFSDirectory ops')) dn hn = Ret ix /\ ix_any ix).
Proof.
  destruct (written docs rb g ord dn hn 0 Hrb Hrw Ho Hd Hs Hl') as (w & ws & ds & p & Ew & HW & Hwl & Ec & Hcne & Ecm).
  destruct (add_all_ok docs [] [] WI_start) as (w2 & Ew2 & _ & Hlen). { right. destruct docs; [exact I|exact Hs]. }
  rewrite Ew in Ew2. injection Ew2 as <-. change (zlen (@nil (option index_map))) with 0 in Hlen. fold (ix_size docs) in Hlen.
  set (hd := mkHeader IndexVersion (wrap32 (zlen w)) ds) in *. destruct (Hg hd) as [Hdec Hgn].
  assert (forall ix open, IndexRead g open dn hn = Ret ix -> open hn = Some (gob_enc g hd) -> zlen ix = ix_size docs) as Hix.
  { intros ix open E Eo. rewrite (read_len g open dn hn ix _ _ E Eo Hdec). unfold hd. cbn [h_indices]. pose proof (zlen_nonneg w). rewrite wrap32_small by (unfold is_u32; lia). lia. }
  exists w. eexists. split; [exact Ew|]. split; [exact Ecm|]. split; [|split].
  - split; [|intros; apply Nat.le_0_l]. unfold commit_ops. cbn [filter is_flush negb]. f_equal. rewrite filter_app. cbn [filter is_flush negb]. f_equal. clear. induction ws as [|x ws IH]; [reflexivity|]. cbn [map filter is_flush negb]. f_equal. exact IH.
  - intros Hsz.
    destruct (c24_ram_any rb g ord dn hn [] docs Hrb Hrw Hg Ho Hd Hs Hl' Hne) as (w2 & ops2 & Ew2 & Eo2 & H2); [intros [] | intros [] |]. rewrite Ew in Ew2. injection Ew2 as <-. cbn [count_creates] in Eo2. rewrite Ecm in Eo2. injection Eo2 as <-. cbn [app] in H2.
    destruct (H2 Hsz) as (ix & Er & Hh). exists ix. split; [exact Er|]. split; [exact Hh|]. apply (Hix ix _ Er).
    unfold commit_ops. change (OCreate dn :: map (OWrite 0) ws ++ [OCreate hn; OWrite 1 (gob_enc g hd); OClose 1; OClose 0]) with ((OCreate dn :: map (OWrite 0) ws) ++ OCreate hn :: [OWrite 1 (gob_enc g hd); OClose 1; OClose 0]).
    rewrite (ram_fresh _ _ hn 1).
    + cbn [writes_to]. rewrite Nat.eqb_refl, app_nil_r. reflexivity.
    + cbn [count_creates]. rewrite creates_map. reflexivity.
    + intros Hi. cbn [In] in Hi. rewrite in_map_iff in Hi. destruct Hi as [Hi|(x & H & _)]; [congruence|discriminate].
    + intros Hi. cbn [In] in Hi. destruct Hi as [H|[H|[H|[]]]]; discriminate.
  - intros ops' Hfl Hsz.
    destruct (c24_fs_any rb g ord dn hn [] docs Hrb Hrw Hg Ho Hd Hs Hl' Hne) as (w2 & ops2 & Ew2 & Eo2 & H2). rewrite Ew in Ew2. injection Ew2 as <-. cbn [count_creates] in Eo2. rewrite Ecm in Eo2. injection Eo2 as <-.
    destruct (H2 ops' Hfl Hsz) as (ix & Er & Hh). cbn [app] in Er. exists ix. split; [exact Er|]. split; [exact Hh|]. apply (Hix ix _ Er).
    pose proof (header_file dn hn [] ws _ ops' Hne Hfl) as Hhf. cbn [app] in Hhf. unfold fs_input. rewrite Hhf. destruct (gob_enc g hd) eqn:E; [congruence|reflexivity].
Qed.
End BuildAny.
Section DictionaryAny.
Context (rb : roaring) (g : gobcodec) (ord : Z -> index_map -> index_map) (name : string) (lowr : Z -> Z) (d : tokconf) (words : list bytes).
Hypothesis Hrb : roaring_ok rb.
Hypothesis Hrw : roaring_written rb.
Hypothesis Hg : gob_ok g.
Hypothesis Ho : order_ok ord.
Hypothesis Hdict : dictionary_any lowr d words.
Notation docs := (docs_of lowr d words).
Notation dn := (documentListFile name).
Notation hn := (headerFile name).
Lemma dict_built_any : exists ops, IndexDictionary rb g ord dn hn 0 (ToLower lowr) d words = Ret ops /\ with_flushes 0 ops ops /\
  ((forall b, ram_open (ram_run NewRAMDirectory ops) dn = Some b -> zlen b < 2 ^ 32) -> exists ix, RAMBuild rb g ord name (ToLower lowr) d words = Ret ix /\ ix_any rb docs ix) /\
  (forall ops', with_flushes 0 ops ops' -> (forall b, fs_open (fs_run NewFSDirectory ops') dn = Some b -> zlen b < 2 ^ 32) -> exists ix, FSBuild g name (fs_run NewFSDirectory ops') = Ret ix /\ ix_any rb docs ix).
Proof.
  destruct (docs_good_any _ _ _ Hdict) as (Hd & Hs & Hl & Hn). pose proof Hdict as (Hn8 & Hz & _).
  destruct (built_any rb g ord dn hn docs Hrb Hrw Hg Ho Hd Hs Hl (names_differ name)) as (w & ops & Ew & Eo & Hf & H1 & H2).
  assert (IndexDictionary rb g ord dn hn 0 (ToLower lowr) d words = Ret ops) as Ei.
  { unfold IndexDictionary, DictIterate. rewrite (iterate_adds lowr d Hn8 words 0 [] ltac:(lia) ltac:(lia) w Ew). cbn [bind]. exact Eo. }
  exists ops. split; [exact Ei|]. split; [exact Hf|]. split.
  - intros Hsz. destruct (H1 Hsz) as (ix & Er & Hix). exists ix. split; [|exact Hix]. unfold RAMBuild. rewrite Ei. cbn [bind]. exact Er.
  - exact H2.
Qed.
Lemma dict_index_any ix : index_built rb g ord name lowr d words ix -> ix_any rb docs ix.
Proof.
  intros (ops & Ei & H). destruct dict_built_any as (ops2 & Ei2 & _ & H1 & H2). rewrite Ei in Ei2. injection Ei2 as <-. destruct H as [[Er Hsz]|(ops' & Hf & Er & Hsz)].
  - destruct (H1 Hsz) as (ix2 & E & Hix). rewrite Er in E. injection E as <-. exact Hix.
  - destruct (H2 ops' Hf Hsz) as (ix2 & E & Hix). rewrite Er in E. injection E as <-. exact Hix.
Qed.
End DictionaryAny.
