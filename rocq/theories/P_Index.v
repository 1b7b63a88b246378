(** Properties C24-C27 (pkg/index: writer, reader, searcher). *)
From Coq Require Import String ZifyBool.
From Verif Require Import Base BaseLemmas GoMap Store StoreSpec Postings PostingsSpec PostingsDrive P_PostingsLemmas
  Merger MergerSpec P_MergerLemmas Index IndexSpec IndexProofs IndexProofs2 P_IndexLemmas.
Local Open Scope Z_scope.

(** C24, file-system directory: whatever was in the directory before (history h1),
    however the writer's maps are iterated and bufio flushes, the index read after a
    commit answers every size and term with exactly the ids of the documents of that
    size that contain the term, in ascending order. *)
Theorem C24_index_roundtrip_fs : forall rb g ord dn hn h1 docs,
  roaring_ok rb -> roaring_written rb -> gob_ok g -> order_ok ord ->
  docs_ok docs -> starts_ok docs -> Forall (fun d => zlen (snd d) + 1 < 2 ^ 32) docs -> zlen docs < 2 ^ 32 -> dn <> hn ->
  exists w ops, add_all [] docs = Ret w /\ Commit rb g ord dn hn (count_creates h1) w = Ret ops /\
  forall ops', with_flushes (count_creates h1) ops ops' ->
    let d := fs_run NewFSDirectory (h1 ++ ops') in
    (forall b, fs_open d dn = Some b -> zlen b < 2 ^ 32) ->
    exists ix, IndexRead g (fs_input d) dn hn = Ret ix /\ forall c t, index_holds rb ix c t (posting_of docs c t).
Proof. intros. apply c24_fs; assumption. Qed.
Print Assumptions C24_index_roundtrip_fs.

(** C24, RAM directory, for file names not used before (see C05). *)
Theorem C24_index_roundtrip_ram : forall rb g ord dn hn h1 docs,
  roaring_ok rb -> roaring_written rb -> gob_ok g -> order_ok ord ->
  docs_ok docs -> starts_ok docs -> Forall (fun d => zlen (snd d) + 1 < 2 ^ 32) docs -> zlen docs < 2 ^ 32 -> dn <> hn ->
  no_create dn h1 -> no_create hn h1 ->
  exists w ops, add_all [] docs = Ret w /\ Commit rb g ord dn hn (count_creates h1) w = Ret ops /\
  let d := ram_run NewRAMDirectory (h1 ++ ops) in
  (forall b, ram_open d dn = Some b -> zlen b < 2 ^ 32) ->
  exists ix, IndexRead g (ram_open d) dn hn = Ret ix /\ forall c t, index_holds rb ix c t (posting_of docs c t).
Proof. intros. apply c24_ram; assumption. Qed.
Print Assumptions C24_index_roundtrip_ram.

(** C24 needs distinct tokens: a document whose token list repeats a token is listed
    twice for it (the n-gram tokenizer can produce such lists, see C29). *)
Theorem C24_repeated_token_refuted : forall rb g ord, gob_ok g -> order_ok ord ->
  exists docs w ops ix iv it r,
    docs = [(5, [bs "a"; bs "a"])] /\ posting_of docs 2 (bs "a") = [5] /\
    add_all [] docs = Ret w /\ Commit rb g ord "d" "h" 0 w = Ret ops /\
    IndexRead g (ram_open (ram_run NewRAMDirectory ops)) "d" "h" = Ret ix /\
    IndicesGet ix 2 = Some iv /\ IndexGet iv (bs "a") = Ret (Some (2, r)) /\ openPosting rb r 2 = Ret it /\
    iter_run it [CGet; CNext; CLen] = [AVal (Ret 5); AVal (Ret 5); ALen 2].
Proof.
  intros rb g ord Hg Ho. exists [(5, [bs "a"; bs "a"])], [None; None; Some [(bs "a", [5; 5])]].
  assert (ord 2 [(bs "a", [5; 5])] = [(bs "a", [5; 5])]) as Eo.
  { pose proof (Ho 2 [(bs "a", [5; 5])]) as H. apply Permutation_length_1_inv in H. exact H. }
  eexists. eexists. eexists. eexists. eexists.
  split; [reflexivity|]. split; [reflexivity|]. split; [reflexivity|]. split.
  { unfold Commit. cbn [commit_indices]. change (0 + 1 + 1) with 2. rewrite Eo. vm_compute (commit_index _ _ _ _). cbn [bind app map]. reflexivity. }
  split.
  { unfold IndexRead. match goal with |- context [ram_open ?d "h"] => assert (ram_open d "h" = Some (gob_enc g (mkHeader IndexVersion 3 [mkDesc (bs "a") 2 2 0 2])) /\ ram_open d "d" = Some [5; 0]) as [-> ->] end.
    { split; vm_compute; rewrite ?app_nil_r; reflexivity. }
    destruct (Hg (mkHeader IndexVersion 3 [mkDesc (bs "a") 2 2 0 2])) as [-> _]. vm_compute. reflexivity. }
  split; [vm_compute; reflexivity|]. split; [vm_compute; reflexivity|]. split; [vm_compute; reflexivity|]. vm_compute. reflexivity.
Qed.
Print Assumptions C24_repeated_token_refuted.

(** C24 fails for the empty collection on the file system: the empty document list
    cannot be mapped, so reading the committed index is an error. *)
Theorem C24_empty_index_refuted : forall rb g ord, gob_ok g ->
  exists ops e, Commit rb g ord "d" "h" 0 [] = Ret ops /\ add_all [] [] = Ret [] /\
    IndexRead g (fs_input (fs_run NewFSDirectory ops)) "d" "h" = Fail e.
Proof.
  intros rb g ord Hg. eexists. exists (ErrOther 13). split; [reflexivity|]. split; [reflexivity|].
  set (hb := gob_enc g (mkHeader IndexVersion 0 [])).
  assert (with_flushes (count_creates []) (commit_ops "d" "h" (count_creates []) [] hb) (commit_ops "d" "h" 0 [] hb)) as Hfl.
  { split; [reflexivity|]. intros j n Hi. cbn in Hi. intuition discriminate. }
  pose proof (docs_file "d" "h" [] [] hb _ ltac:(discriminate) Hfl) as Hd. pose proof (header_file "d" "h" [] [] hb _ ltac:(discriminate) Hfl) as Hh.
  unfold IndexRead, fs_input. cbn [app concat] in Hd, Hh.
  match goal with |- context [fs_run NewFSDirectory ?o] => change o with (commit_ops "d" "h" 0 [] hb) end.
  rewrite Hh, Hd. destruct (Hg (mkHeader IndexVersion 0 [])) as [Hdec Hne]. fold hb in Hdec, Hne.
  destruct hb as [|b hb']; [congruence|]. rewrite Hdec. reflexivity.
Qed.
Print Assumptions C24_empty_index_refuted.

(** C25: the property "any document can be added" is false: a first document without
    tokens panics (make with length 1 and capacity 0). *)
Theorem C25_add_any_document_refuted : exists docs, add_all [] docs = Panic.
Proof. exists [(0, [])]. reflexivity. Qed.
Print Assumptions C25_add_any_document_refuted.
(** Exactly the sequences that start with a document without tokens panic; after the
    first document any token list, repeated tokens included, is accepted, and a
    document without tokens is in no posting list. *)
Theorem C25_add_document_panics_iff : forall docs,
  (exists w, add_all [] docs = Ret w) /\ ~ (exists id ds, docs = (id, []) :: ds) \/
  add_all [] docs = Panic /\ exists id ds, docs = (id, []) :: ds.
Proof. exact add_all_total. Qed.
Print Assumptions C25_add_document_panics_iff.
Theorem C25_no_tokens_never_found : forall docs1 id docs2 c t,
  posting_of (docs1 ++ (id, []) :: docs2) c t = posting_of (docs1 ++ docs2) c t.
Proof. exact no_tokens_unfound. Qed.
Print Assumptions C25_no_tokens_never_found.

(** C26: searching terms in an index where each term has the list P t gives the
    candidates contained in the lists of at least T of the terms (repeated terms count
    repeatedly), with their exact number of occurrences, until the collector stops it;
    an error of the collector comes back wrapped. *)
Theorem C26_search_correct : forall {St} (collect : St -> Z -> option err * St) srt rb ix c iv P terms T s,
  sorter_ok srt -> IndicesGet ix c = Some iv -> (forall t, In t terms -> index_holds rb ix c t (P t)) ->
  zlen terms <= 65535 -> 1 <= T ->
  exists cs, is_answer (map P terms) T cs /\
    Search rb (CPMerge collect srt) iv terms T s =
      wrapped (if T <? zlen (filter (fun t => match P t with [] => false | _ => true end) terms)
               then wrapped (feed collect cs s) else feed collect cs s).
Proof.
  intros St collect srt rb ix c iv P terms T s H1 H2 H3 H4 H5. apply c26; auto.
  intros t Ht. specialize (H3 t Ht). unfold index_holds in H3. rewrite H2 in H3. exact H3.
Qed.
Print Assumptions C26_search_correct.
(** Together with C24, in terms of the documents: for distinct query terms, x is a
    candidate with overlap n iff x is the id of a document of the searched size which
    contains exactly n >= T of them. *)
Theorem C26_search_documents : forall {St} (collect : St -> Z -> option err * St) srt rb ix c iv docs terms T s,
  sorter_ok srt -> docs_ok docs -> IndicesGet ix c = Some iv ->
  (forall t, index_holds rb ix c t (posting_of docs c t)) -> zlen terms <= 65535 -> 1 <= T ->
  exists cs, StronglySorted (fun a b => fst a < fst b) cs /\
    (forall x n, In (x, n) cs <->
       T <= n /\ exists ts, In (x, ts) docs /\ zlen ts = c /\ n = zlen (filter (fun t => existsb (beqb t) ts) terms)) /\
    exists e, (e = feed collect cs s \/ e = wrapped (feed collect cs s)) /\
      Search rb (CPMerge collect srt) iv terms T s = wrapped e.
Proof. intros St collect srt rb ix c iv docs terms T s. apply c26_docs. Qed.
Print Assumptions C26_search_documents.

(** C27: false.  After a crash between flushing the new document list and creating the
    new header, the directory opens without an error as an index in which term "a",
    which only the old document 1 contains, is found in document 2.  This holds for
    every header encoding. *)
Theorem C27_crash_safe_refuted : forall rb g ord, gob_ok g -> order_ok ord ->
  exists old new ops1 ops2 before after ix iv r it,
    old = [(1, [bs "a"])] /\ new = [(2, [bs "b"])] /\
    (exists w, add_all [] old = Ret w /\ Commit rb g ord "d" "h" 0 w = Ret ops1) /\
    (exists w ops, add_all [] new = Ret w /\ Commit rb g ord "d" "h" 2 w = Ret ops /\ with_flushes 2 ops ops2) /\
    ops2 = before ++ after /\
    IndexRead g (fs_input (fs_run NewFSDirectory (ops1 ++ before))) "d" "h" = Ret ix /\
    IndicesGet ix 1 = Some iv /\ IndexGet iv (bs "a") = Ret (Some (1, r)) /\ openPosting rb r 1 = Ret it /\
    iter_run it [CGet; CLen] = [AVal (Ret 2); ALen 1] /\
    posting_of old 1 (bs "a") = [1] /\ posting_of new 1 (bs "a") = [].
Proof. exact c27_refuted. Qed.
Print Assumptions C27_crash_safe_refuted.
(** What holds: into a directory without earlier files of these names, an index opened
    after a crash at any point of the commit answers every lookup as the complete
    index or with an error.  Missing: earlier files, and that opening (not the lookup)
    reports the error. *)
Theorem C27_crash_fresh_directory_partial : forall rb g ord dn hn h1 docs,
  roaring_ok rb -> roaring_written rb -> gob_ok g -> gob_prefix_fails g -> order_ok ord ->
  docs_ok docs -> starts_ok docs -> Forall (fun d => zlen (snd d) + 1 < 2 ^ 32) docs -> zlen docs < 2 ^ 32 -> dn <> hn ->
  no_create dn h1 -> no_create hn h1 ->
  let k := count_creates h1 in
  exists w ops, add_all [] docs = Ret w /\ Commit rb g ord dn hn k w = Ret ops /\
  (zlen (writes_to k ops) < 2 ^ 32 ->
   forall ops' before after, with_flushes k ops ops' -> ops' = before ++ after ->
   match IndexRead g (fs_input (fs_run NewFSDirectory (h1 ++ before))) dn hn with
   | Ret ix => forall c t, holds_or_errs rb ix c t (posting_of docs c t)
   | Fail _ => True
   | _ => False
   end).
Proof. exact c27_partial. Qed.
Print Assumptions C27_crash_fresh_directory_partial.

(** Non-vacuity: the contracts have instances and a concrete collection meets the
    hypotheses. *)
Example C24_nonvacuous_codecs : gob_ok gob1 /\ gob_prefix_fails gob1 /\ roaring_ok rb4 /\ roaring_written rb4.
Proof. split; [exact gob1_ok|]. split; [exact gob1_prefix|]. split; [exact rb4_ok|exact rb4_written]. Qed.
Definition demo_docs : list (Z * list term) :=
  [(1, [bs "ab"; bs "bc"]); (4, []); (5, [bs "bc"; bs "cd"]); (9, [bs "bc"]); (4294967295, [bs "cd"; bs "ab"])].
Example C24_nonvacuous_docs : docs_ok demo_docs /\ starts_ok demo_docs /\ Forall (fun d => zlen (snd d) + 1 < 2 ^ 32) demo_docs.
Proof.
  split; [|split; [discriminate|repeat apply Forall_cons; try apply Forall_nil; reflexivity]].
  split; [|split].
  - repeat apply SSorted_cons; try apply SSorted_nil; repeat apply Forall_cons; try apply Forall_nil; reflexivity.
  - repeat apply Forall_cons; try apply Forall_nil; unfold is_u32; cbn [fst]; lia.
  - repeat apply Forall_cons; try apply Forall_nil; cbn [snd]; repeat apply NoDup_cons; try apply NoDup_nil; cbn; intuition discriminate.
Qed.
Definition demo_index (before : nat) : res (list (option inverted)) :=
  w <- add_all [] demo_docs ;;
  ops <- Commit rb4 gob1 (fun _ m => rev m) "d" "h" 0 w ;;
  IndexRead gob1 (fs_input (fs_run NewFSDirectory (firstn before ops))) "d" "h".
Example C26_nonvacuous :
  (ix <- demo_index 100 ;;
   match IndicesGet ix 2 with
   | Some iv => Ret (Search rb4 (CPMerge simple_collect sort_asc) iv [bs "ab"; bs "zz"; bs "bc"; bs "cd"] 2 [])
   | None => Panic
   end) = Ret (Ret tt, [NewMergeCandidate 1 2; NewMergeCandidate 5 2; NewMergeCandidate 4294967295 2]) /\
  demo_index 3 = Fail (ErrOther 10) /\ demo_index 8 = Fail (ErrOther 13).
Proof. vm_compute. repeat split. Qed.
