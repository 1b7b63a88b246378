(** Property C94: dictionary entries in which an n-gram occurs more than once (the
    tokenizers produce these, C29): what the index keeps of them, what a search of the
    index collects and what Suggest returns (pkg/index, pkg/merger, pkg/suggest). *)
From Coq Require Import String ZifyBool Permutation Sorted Reals Lra Lia.
From Verif Require Import Base BaseLemmas GoMap Store StoreSpec Postings PostingsSpec PostingsDrive P_PostingsLemmas Merger MergerSpec MergerAnySpec P_MergerLemmas Index IndexSpec IndexProofs IndexProofs2 P_IndexLemmas P_Index
  Float64 Metric MetricSpec MetricProofs FloatProofs MetricFloat MetricFloat2 MetricScore P_Metric TopK TopKSpec TopKProofs Suggest SuggestSpec SuggestProofs SuggestProofs2 P_SuggestLemmas P_Suggest SearchAny SuggestAnySpec SuggestAny.
Local Open Scope Z_scope.

(** ** The claim one would like: every entry is returned at most once *)
(** False: entry 0 has the n-gram "a" twice, entry 1 has "a" and "c"; the query has "a" and
    "b", so both entries are equally similar to it.  Suggest is asked for two answers and
    returns entry 0 twice; entry 1 is not returned. *)
Definition demo94_docs : list (Z * list term) := [(0, [bs "a"; bs "a"]); (1, [bs "a"; bs "c"])].
Definition demo94_query : list term := [bs "a"; bs "b"].
Definition sched94 : list choice := P 3 ++ W 0 7 ++ P 3 ++ W 0 2 ++ P 1 ++ [CWork 0; CWork 1] ++ P 1.
Definition demo94 : option proc :=
  run rb4 (fun l => l) (build demo94_docs) demo94_query Jaccard quarter 2 sched94 (start (build demo94_docs) demo94_query Jaccard quarter 2).
Theorem C94_each_once_refuted :
  demo94 = Some (Finished (Ret [mkCand 0 (Score Jaccard 1 2 2); mkCand 0 (Score Jaccard 1 2 2)])) /\
  sim_of Jaccard demo94_query (1, [bs "a"; bs "c"]) = sim_of Jaccard demo94_query (0, [bs "a"; bs "a"]) /\
  In (1, [bs "a"; bs "c"]) demo94_docs /\ fle quarter (Score Jaccard 1 2 2) = true.
Proof. split; [vm_compute; reflexivity|]. split; [reflexivity|]. split; [right; left; reflexivity|vm_compute; reflexivity]. Qed.
Print Assumptions C94_each_once_refuted.

(** ** What holds *)
(** An index of such entries is committed and read back (any directory of files, whatever
    was in it before, any flushes): for every number of n-grams c and n-gram t it has the
    ids of the entries of c n-grams that contain t, each as often as it contains t, or -
    if that is more than 256 ids, when they are stored as a bitmap - once. *)
Theorem C94_index_files : forall rb g ord dn hn h1 docs,
  roaring_ok rb -> roaring_written rb -> gob_ok g -> order_ok ord -> docs_any docs -> starts_ok docs ->
  Forall (fun d => zlen (snd d) + 1 < 2 ^ 32) docs -> dn <> hn ->
  exists w ops, Index.add_all [] docs = Ret w /\ Commit rb g ord dn hn (count_creates h1) w = Ret ops /\
  forall ops', with_flushes (count_creates h1) ops ops' -> let d := fs_run NewFSDirectory (h1 ++ ops') in
    (forall b, fs_open d dn = Some b -> zlen b < 2 ^ 32) ->
    exists ix, IndexRead g (fs_input d) dn hn = Ret ix /\ forall c t, index_holds_any rb ix c t (occurrences docs c t).
Proof. intros rb g ord dn hn h1 docs H1 H2 H3 H4 H5 H6 H7 H8. exact (c24_fs_any rb g ord dn hn h1 docs H1 H2 H3 H4 H5 H6 H7 H8). Qed.
Print Assumptions C94_index_files.
Theorem C94_index_memory_partial : forall rb g ord dn hn h1 docs,
  roaring_ok rb -> roaring_written rb -> gob_ok g -> order_ok ord -> docs_any docs -> starts_ok docs ->
  Forall (fun d => zlen (snd d) + 1 < 2 ^ 32) docs -> dn <> hn -> no_create dn h1 -> no_create hn h1 ->
  exists w ops, Index.add_all [] docs = Ret w /\ Commit rb g ord dn hn (count_creates h1) w = Ret ops /\
  let d := ram_run NewRAMDirectory (h1 ++ ops) in
    (forall b, ram_open d dn = Some b -> zlen b < 2 ^ 32) ->
    exists ix, IndexRead g (ram_open d) dn hn = Ret ix /\ forall c t, index_holds_any rb ix c t (occurrences docs c t).
Proof. intros rb g ord dn hn h1 docs H1 H2 H3 H4 H5 H6 H7 H8. exact (c24_ram_any rb g ord dn hn h1 docs H1 H2 H3 H4 H5 H6 H7 H8). Qed.
Print Assumptions C94_index_memory_partial.
(** After a crash at any point of the commit, the files are refused, or are an index whose
    lists are these or an error. *)
Theorem C94_crash_partial : forall rb g ord dn hn h1 docs, roaring_ok rb -> roaring_written rb -> gob_ok g -> gob_prefix_fails g -> order_ok ord ->
  docs_any docs -> starts_ok docs -> Forall (fun d => zlen (snd d) + 1 < 2 ^ 32) docs -> dn <> hn ->
  no_create dn h1 -> no_create hn h1 ->
  let k := count_creates h1 in
  exists w ops, Index.add_all [] docs = Ret w /\ Commit rb g ord dn hn k w = Ret ops /\
  (zlen (writes_to k ops) < 2 ^ 32 ->
   forall ops' before after, with_flushes k ops ops' -> ops' = before ++ after ->
   match IndexRead g (fs_input (fs_run NewFSDirectory (h1 ++ before))) dn hn with
   | Ret ix => forall c t, holds_or_errs_any rb ix c t (occurrences docs c t)
   | Fail _ => True
   | _ => False
   end).
Proof. exact c27_any. Qed.
Print Assumptions C94_crash_partial.

(** The merger over ascending lists with repeated ids: every id in at least T lists is
    collected with its number of lists; a collected id is in as many lists as said, or
    more; and it is collected at most as often as it is repeated in one of the lists. *)
Theorem C94_merge : forall St (collect : St -> Z -> option err * St) srt rid ls T s, sorter_ok srt ->
  lists_any rid ls -> nonempty ls -> zlen ls <= 65535 -> 1 <= T ->
  exists cs, is_answer_any ls T cs /\
    CPMerge collect srt rid T s = (if T <? zlen ls then wrapped (feed collect cs s) else feed collect cs s).
Proof. intros St. exact cpmerge_any. Qed.
Print Assumptions C94_merge.
(** A search of the index: every entry of c n-grams with at least T of the query's is
    collected with their number; whatever is collected has at least T and at most that
    number, and is an entry; and an entry is collected at most as often as it repeats an n-gram. *)
Theorem C94_search : forall St (collect : St -> Z -> option err * St) srt rb ix c iv docs terms T s,
  sorter_ok srt -> docs_any docs -> IndicesGet ix c = Some iv ->
  (forall t, index_holds_any rb ix c t (occurrences docs c t)) -> zlen terms <= 65535 -> 1 <= T ->
  exists cs,
    (forall x ts, In (x, ts) docs -> zlen ts = c -> T <= overlap_of terms ts -> In (x, overlap_of terms ts) cs) /\
    (forall x m, In (x, m) cs -> T <= m /\ exists ts, In (x, ts) docs /\ zlen ts = c /\ m <= overlap_of terms ts) /\
    (forall x ts n, In (x, ts) docs -> (forall t, token_times t ts <= n)%nat -> (copies x cs <= n)%nat) /\
    exists e, (e = feed collect cs s \/ e = wrapped (feed collect cs s)) /\
      Search rb (CPMerge collect srt) iv terms T s = wrapped e.
Proof.
  intros St collect srt rb ix c iv docs terms T s H1 H2 H3 H4 H5 H6.
  destruct (search_docs_any collect srt rb ix c iv docs terms T s H1 H2 H3 H4 H5 H6) as (cs & (Ha & Hb & Hc) & He). exists cs. auto.
Qed.
Print Assumptions C94_search.

(** Suggest, under every schedule: no error; at most k answers, best first; every answer is
    an entry that is similar enough, and its score is that of at most as many common n-grams as
    there are; entries without a repeated n-gram have exactly their score, once; the others are
    returned at most as often as they repeat an n-gram; and an entry clearly above the
    requested similarity is returned with its score, unless k answers are returned, none
    with a score clearly below its similarity. *)
Theorem C94_suggest_partial : forall rb srt ix docs tokens d alpha k sched r,
  query_ok ix tokens d alpha k -> searchable ix tokens d alpha -> docs_any docs -> index_any rb ix docs -> sorter_ok srt ->
  run rb srt ix tokens d alpha k sched (start ix tokens d alpha k) = Some (Finished r) ->
  exists l, r = Ret l /\ zlen l <= k /\ StronglySorted (fun a b => ~ worse a b) l /\
    (forall c, In c l -> exists doc m, In doc docs /\ c = mkCand (fst doc) (Score d m (zlen tokens) (zlen (snd doc))) /\
       1 <= m <= overlap_of tokens (snd doc) /\ (sim_of d tokens doc >= val alpha * (1 - / 2 ^ 46))%R) /\
    (forall doc c, In doc docs -> NoDup (snd doc) -> In c l -> Key c = fst doc -> c = cand_of d tokens doc) /\
    (forall doc n, In doc docs -> (forall t, token_times t (snd doc) <= n)%nat -> (key_times (fst doc) l <= n)%nat) /\
    (forall doc, In doc docs -> 1 <= zlen (snd doc) -> (d = Overlap -> zlen (snd doc) <= 32767) -> (sim_of d tokens doc >= val alpha * (1 + / 2 ^ 46))%R ->
       In (cand_of d tokens doc) l \/
       (zlen l = k /\ forall c, In c l -> (sim_of d tokens doc <= val (Sc c) * (1 + / 2 ^ 46) + / 2 ^ 50)%R)).
Proof.
  intros rb srt ix docs tokens d alpha k sched r Hq Hs Hd Hi Hso Hr. destruct (any_returns rb srt ix docs tokens d alpha k Hq Hd Hi Hso sched r Hs Hr) as (l & -> & Hg).
  exists l. split; [reflexivity|]. replace (/ 2 ^ 46)%R with delta by (unfold delta; lra). replace (/ 2 ^ 50)%R with eps by (unfold eps; lra).
  pose proof Hg as (sims & L & _ & HL & Hb). pose proof Hb as (Hlen & Hsort & rest & Hp & _). split; [unfold zlen; lia|]. split; [exact Hsort|]. split; [|split; [|split]].
  - intros c Hc. eapply any_sound; eassumption.
  - intros doc c Hin Hn Hc Hk. eapply distinct_exact; try eassumption. apply (Permutation_in _ (Permutation_sym Hp)), in_app_iff. left. exact Hc.
  - intros doc n Hin Ht. eapply copies_in_result; eassumption.
  - intros doc. eapply any_complete; eassumption.
Qed.
Print Assumptions C94_suggest_partial.
(** With fewer than k answers: every entry that passes the filters is among them. *)
Theorem C94_fewer_than_k : forall rb srt ix docs tokens d alpha k sched l doc,
  query_any ix tokens d alpha k -> searchable ix tokens d alpha -> docs_any docs -> index_any rb ix docs -> sorter_ok srt ->
  run rb srt ix tokens d alpha k sched (start ix tokens d alpha k) = Some (Finished (Ret l)) -> zlen l < k ->
  In doc docs -> eligible_any d alpha (fun _ => alpha) tokens doc = true -> In (cand_of d tokens doc) l.
Proof.
  intros rb srt ix docs tokens d alpha k sched l doc Hq Hs Hd Hi Hso Hr Hk Hin He. destruct (any_returns rb srt ix docs tokens d alpha k Hq Hd Hi Hso sched _ Hs Hr) as (l' & E & Hg).
  injection E as <-. destruct Hg as (sims & L & Hsm & (H1 & _) & Hlen & _ & rest & Hp & _).
  pose proof (Permutation_length Hp) as Hl. rewrite app_length in Hl. unfold zlen in Hk. destruct rest as [|x t]; [|cbn [length] in Hl; lia].
  rewrite app_nil_r in Hp. apply (Permutation_in _ Hp). apply H1; [exact Hin|]. clear Hp Hl. unfold eligible_any, eligible in *. cbn zeta in *.
  destruct (Hsm (zlen (snd doc))) as [E|(_ & _ & E & _)]; [rewrite E; exact He|unfold zlen in E; lia].
Qed.
Print Assumptions C94_fewer_than_k.
(** No schedule gets stuck: while the call has not returned, some goroutine can move (and
    there is a bound on the number of moves, C42). *)
Theorem C94_suggest_returns : forall rb srt ix docs tokens d alpha k sched p,
  query_any ix tokens d alpha k -> searchable ix tokens d alpha -> docs_any docs -> index_any rb ix docs -> sorter_ok srt ->
  run rb srt ix tokens d alpha k sched (start ix tokens d alpha k) = Some p ->
  (exists l, p = Finished (Ret l)) \/ (exists s c p', p = Running s /\ exec rb srt ix tokens d alpha k c p = Some p').
Proof.
  intros rb srt ix docs tokens d alpha k sched p Hq Hs Hd Hi Hso Hr. pose proof (any_run rb srt ix docs tokens d alpha k Hq Hd Hi Hso sched p Hs Hr) as HG. destruct p as [s|r|].
  - right. destruct (any_progress rb srt ix docs tokens d alpha k Hq Hd Hi Hso sched s Hs Hr) as (c & p' & E). exists s, c, p'. auto.
  - left. cbn [SuggestGen.Good] in HG. destruct r as [l| | |]; [|destruct HG..]. exists l. reflexivity.
  - destruct HG.
Qed.
Print Assumptions C94_suggest_returns.
(** Also queries with repeated n-grams: no error, at most k answers, best first, each an
    entry of an admissible size with the score of at most its number of common n-grams
    (repeated ones counted), at most as often as it repeats an n-gram. *)
Theorem C94_repeated_query_partial : forall rb srt ix docs tokens d alpha k sched r,
  query_any ix tokens d alpha k -> searchable ix tokens d alpha -> docs_any docs -> index_any rb ix docs -> sorter_ok srt ->
  run rb srt ix tokens d alpha k sched (start ix tokens d alpha k) = Some (Finished r) ->
  exists l, r = Ret l /\ zlen l <= k /\ StronglySorted (fun a b => ~ worse a b) l /\
    (forall c, In c l -> exists doc m, In doc docs /\ c = mkCand (fst doc) (Score d m (zlen tokens) (zlen (snd doc))) /\
       1 <= m <= overlap_of tokens (snd doc) /\ MinY d alpha (zlen tokens) <= zlen (snd doc) <= MaxY d alpha (zlen tokens)) /\
    (forall doc c, In doc docs -> NoDup (snd doc) -> In c l -> Key c = fst doc -> c = cand_of d tokens doc) /\
    (forall doc n, In doc docs -> (forall t, token_times t (snd doc) <= n)%nat -> (key_times (fst doc) l <= n)%nat).
Proof.
  intros rb srt ix docs tokens d alpha k sched r Hq Hs Hd Hi Hso Hr. destruct (any_returns rb srt ix docs tokens d alpha k Hq Hd Hi Hso sched r Hs Hr) as (l & -> & Hg).
  exists l. split; [reflexivity|]. pose proof Hg as (sims & L & _ & HL & Hb). pose proof Hb as (Hlen & Hsort & rest & Hp & _).
  assert (forall c, In c l -> In c L) as Hsub by (intros c Hc; apply (Permutation_in _ (Permutation_sym Hp)), in_app_iff; left; exact Hc).
  split; [unfold zlen; lia|]. split; [exact Hsort|]. split; [|split].
  - intros c Hc. destruct (proj1 (proj2 HL) c (Hsub c Hc)) as (doc & m & H1 & H2 & H3 & H4 & _). exists doc, m. auto.
  - intros doc c Hin Hn Hc Hk. eapply distinct_exact; try eassumption. apply Hsub. exact Hc.
  - intros doc n Hin Ht. eapply copies_in_result; eassumption.
Qed.
Print Assumptions C94_repeated_query_partial.

(** ** The hypotheses are met *)
Lemma build_any docs : docs_any docs -> starts_ok docs -> Forall (fun d => zlen (snd d) + 1 < 2 ^ 32) docs ->
  doclist_fits docs = true -> index_any rb4 (build docs) docs.
Proof.
  intros H1 H2 H3 H5. destruct (C94_index_files rb4 gob1 (fun _ m => m) "d"%string "h"%string [] docs rb4_ok rb4_written gob1_ok (fun _ m => Permutation_refl m) H1 H2 H3 ltac:(discriminate)) as (w & ops & Ew & Eo & H).
  cbn [count_creates] in Eo. destruct (H ops) as (ix & Er & Hix).
  - unfold Commit in Eo. destruct (commit_indices rb4 (fun _ m => m) 0 w 0) as [[[ws ds] n]| | |]; try discriminate. cbn [bind] in Eo. injection Eo as <-. split; [|intros; apply Nat.le_0_l].
    cbn [filter is_flush negb]. f_equal. rewrite filter_app. cbn [filter is_flush negb]. f_equal. clear. induction ws as [|x ws IH]; [reflexivity|]. cbn [map filter is_flush negb]. f_equal. exact IH.
  - intros b. cbn [app]. unfold doclist_fits in H5. rewrite Ew in H5. cbn [bind] in H5. rewrite Eo in H5. intros Eb. rewrite Eb in H5. lia.
  - unfold build. rewrite Ew. cbn [bind]. rewrite Eo. cbn [bind]. cbn [app] in Er. rewrite Er. exact Hix.
Qed.
Lemma occurrences_short docs n c t : (forall d, In d docs -> (length (snd d) <= n)%nat) -> zlen (occurrences docs c t) <= Z.of_nat n * zlen docs.
Proof.
  intros H. induction docs as [|d docs IH]; [cbn; lia|]. unfold occurrences. cbn [flat_map]. fold (occurrences docs c t). rewrite zlen_app, zlen_cons. specialize (IH (fun x Hx => H x (or_intror Hx))).
  assert (zlen (if zlen (snd d) =? c then repeat (fst d) (token_times t (snd d)) else []) <= Z.of_nat n); [|lia].
  destruct (zlen (snd d) =? c); [|cbn; lia]. unfold zlen. rewrite repeat_length. specialize (H d (or_introl eq_refl)).
  assert (token_times t (snd d) <= length (snd d))%nat; [|lia]. unfold token_times. clear. induction (snd d) as [|x l IH]; [cbn; lia|]. cbn [filter length]. destruct (beqb t x); cbn [length]; lia.
Qed.
Example C94_nonvacuous : query_ok (build demo94_docs) demo94_query Jaccard quarter 2 /\ searchable (build demo94_docs) demo94_query Jaccard quarter /\
  docs_any demo94_docs /\ starts_ok demo94_docs /\ index_any rb4 (build demo94_docs) demo94_docs /\ sorter_ok (fun l => l) /\ ~ NoDup (snd (0, [bs "a"; bs "a"])) /\
  exists l, demo94 = Some (Finished (Ret l)) /\ zlen l = 2.
Proof.
  assert (docs_any demo94_docs) as Hd.
  { split; [repeat apply SSorted_cons; try apply SSorted_nil; repeat apply Forall_cons; try apply Forall_nil; reflexivity|]. split; [repeat apply Forall_cons; try apply Forall_nil; unfold is_u32; cbn [fst]; lia|].
    intros c t. assert (zlen (occurrences demo94_docs c t) <= Z.of_nat 2 * zlen demo94_docs) as H; [|change (zlen demo94_docs) with 2 in H; lia].
    apply occurrences_short. intros d [<-|[<-|[]]]; cbn; lia. }
  assert (zlen (build demo94_docs) = 3) as Hn by (vm_compute; reflexivity). unfold query_ok, searchable. rewrite Hn. split; [|split; [vm_compute; reflexivity|split; [exact Hd|split; [discriminate|split; [|split; [exact sorter_id|split; [|eexists; split; [exact (proj1 C94_each_once_refuted)|reflexivity]]]]]]]].
  - split; [exact alpha_quarter|]. split; [repeat apply NoDup_cons; try apply NoDup_nil; cbn; intuition discriminate|]. repeat split; try discriminate.
  - apply build_any; [exact Hd|discriminate|repeat (apply Forall_cons; [reflexivity|]); apply Forall_nil|vm_compute; reflexivity].
  - cbn [snd]. intros H. inversion_clear H. apply H0. left. reflexivity.
Qed.
