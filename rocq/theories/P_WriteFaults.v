(** C103: a write that fails is never taken for success. *)
From Coq Require Import String ZifyBool.
From Verif Require Import Base BaseLemmas GoMap Store StoreSpec StoreProofs2 Compression Postings PostingsSpec PostingsDrive P_PostingsLemmas Merger MergerSpec P_MergerLemmas CountTrie Float64 Decimal NGram Mph NGramStore GoogleNGram Index IndexSpec IndexProofs IndexProofs2 P_IndexLemmas
  Analysis Scanner Http NGramIndex CdbDict CdbDictSpec P_Cdb Paths Config ConfigSpec Indexer IndexerSpec P_Indexer Deploy DeploySpec P_Deploy IndexerKill KillProofs2 P_Kill WriteFaults WriteFaultsProofs WriteFaultsProofs2 WriteFaultsProofs3 WriteFaultsProofs4 FaultyIndexer FaultyProofs.
From Verif Require P_Index Text P_NGramIndex.
Local Open Scope Z_scope.
Local Notation length := List.length.

(** ** Vocabulary *)
(* [new] are the system calls made from w to w' *)
Definition calls_between (w w' : world) (new : list syscall) : Prop := w_calls w' = w_calls w ++ new.
(* nothing is in another file than before *)
Definition untouched_but (ns : list string) (w w' : world) : Prop := forall x, ~ In x ns -> w_files w' x = w_files w x.
(* the file holds a beginning of [b] *)
Definition begins (w : world) (n : string) (b : bytes) : Prop := exists c rest, w_files w n = Some c /\ c ++ rest = b.
(* what the directory read by IndexRead is, the process that wrote being gone *)
Definition left_on_disk (w : world) : fsdir := mkFs (w_files w) [].

(** ** The two files of an index *)
Lemma with_flushes_self k ops ops' : with_flushes k ops ops' -> with_flushes k ops ops.
Proof.
  intros [Hf Hk]. change (fun o => negb (is_flush o)) with nf in Hf. split; [change (fun o => negb (is_flush o)) with nf; rewrite <- Hf; apply filter_twice|].
  intros j n H. rewrite <- Hf in H. apply filter_In in H. destruct H as [_ H]. discriminate H.
Qed.
(* Whatever the files were before (the history h1 of the directory), a commit either reports success, and then every
   system call succeeded and the two files are what they are on a disk that does not
   fail, or reports an error, and then a system call did not succeed. *)
Theorem C103_index_files : forall M pieces rb g ord dn hn h1 w w0,
  pieces_ok pieces -> dn <> hn -> (forall x, w_files w0 x = fs_open (fs_run NewFSDirectory h1) x) ->
  exists ops r w1 new, Commit rb g ord dn hn (count_creates h1) w = Ret ops /\ commit_to M pieces rb g ord dn hn w w0 = (r, w1) /\ calls_between w0 w1 new /\
    ((r = Ret tt /\ Forall succeeded new /\ forall x, x = dn \/ x = hn -> w_files w1 x = fs_open (fs_run NewFSDirectory (h1 ++ ops)) x /\ w_files w1 x <> None) \/
     ((exists e, r = Fail e) /\ Exists (fun c => ~ succeeded c) new)).
Proof.
  intros M pieces rb g ord dn hn h1 w w0 Hp Hne Hx. assert (length (fs_handles (fs_run NewFSDirectory h1)) = count_creates h1) as Hl by (apply (fs_run_inv h1)).
  destruct (commit_total rb g ord dn hn (count_creates h1) w) as (ws & ds & Ec). set (hb := gob_enc g (mkHeader IndexVersion (wrap32 (zlen w)) ds)) in *. eexists. rewrite <- Hl in Ec at 1.
  destruct (commit_faults M pieces Hp rb g ord dn hn w w0 (fs_run NewFSDirectory h1) _ Hne Ec Hx) as (before & after & w1 & r & E & Hf & Hy & Hr). rewrite Hl in Ec, Hf.
  destruct Hr as [(-> & -> & new & En & Hn)|(He & new & En & Hn)]; eexists _, w1, new; (split; [exact Ec|]); (split; [exact E|]); (split; [exact En|]); [left|right; auto].
  split; [reflexivity|]. split; [exact Hn|]. rewrite app_nil_r in Hf.
  assert (with_flushes (count_creates h1) (commit_ops dn hn (count_creates h1) ws hb) (commit_ops dn hn (count_creates h1) ws hb)) as Hself by (exact (with_flushes_self _ _ _ Hf)).
  pose proof (docs_file dn hn h1 ws hb before Hne Hf) as D1. pose proof (header_file dn hn h1 ws hb before Hne Hf) as D2. pose proof (docs_file dn hn h1 ws hb _ Hne Hself) as D3. pose proof (header_file dn hn h1 ws hb _ Hne Hself) as D4.
  intros x [-> | ->]; rewrite Hy, <- fs_run_app; unfold fs_open in *; rewrite ?D1, ?D2, ?D3, ?D4; (split; [reflexivity|discriminate]).
Qed.
Print Assumptions C103_index_files.

(* So an index reported as written can be opened and answers every lookup with the documents given (C24). *)
Theorem C103_index_saved : forall M pieces rb g ord dn hn h1 docs w0,
  pieces_ok pieces -> roaring_ok rb -> roaring_written rb -> gob_ok g -> order_ok ord ->
  docs_ok docs -> starts_ok docs -> Forall (fun d => zlen (snd d) + 1 < 2 ^ 32) docs -> zlen docs < 2 ^ 32 -> dn <> hn ->
  (forall x, w_files w0 x = fs_open (fs_run NewFSDirectory h1) x) ->
  exists w, Index.add_all [] docs = Ret w /\
  forall w1, commit_to M pieces rb g ord dn hn w w0 = (Ret tt, w1) -> (forall b, w_files w1 dn = Some b -> zlen b < 2 ^ 32) ->
    exists ix, IndexRead g (fs_input (left_on_disk w1)) dn hn = Ret ix /\ forall c t, index_holds rb ix c t (posting_of docs c t).
Proof.
  intros M pieces rb g ord dn hn h1 docs w0 Hp Hrb Hrw Hg Ho Hd Hs Hl Hz Hne Hx. destruct (P_Index.C24_index_roundtrip_fs rb g ord dn hn h1 docs Hrb Hrw Hg Ho Hd Hs Hl Hz Hne) as (w & ops & Ha & Ec & Hread).
  exists w. split; [exact Ha|]. intros w1 E Hb. destruct (C103_index_files M pieces rb g ord dn hn h1 w w0 Hp Hne Hx) as (ops2 & r & w2 & new & Ec2 & E2 & _ & [(_ & _ & Hf)|((e & ->) & _)]); [|congruence].
  rewrite E in E2. injection E2 as <- <-. rewrite Ec in Ec2. injection Ec2 as <-.
  assert (with_flushes (count_creates h1) ops ops) as Hself. { destruct (commit_total rb g ord dn hn (count_creates h1) w) as (ws & ds & E3). rewrite Ec in E3. injection E3 as ->. split; [|intros j n H].
    - unfold commit_ops. cbn [filter is_flush negb]. f_equal. rewrite filter_app. cbn [filter is_flush negb]. f_equal. clear. induction ws as [|x ws IH]; [reflexivity|]. cbn [map filter is_flush negb]. f_equal. exact IH.
    - unfold commit_ops in H. cbn [In] in H. rewrite in_app_iff, in_map_iff in H. cbn [In] in H. destruct H as [H|[(x & H & _)|[H|[H|[H|[H|[]]]]]]]; discriminate. }
  destruct (Hread ops Hself) as (ix & Ei & Hi). { intros b Hb1. apply Hb. rewrite (proj1 (Hf dn (or_introl eq_refl))). exact Hb1. }
  exists ix. split; [|exact Hi]. unfold IndexRead, fs_input, fs_open, left_on_disk in *. cbn [fs_files]. rewrite (proj1 (Hf dn (or_introl eq_refl))), (proj1 (Hf hn (or_intror eq_refl))). exact Ei.
Qed.
Print Assumptions C103_index_saved.
(* And what a failed commit leaves where there was no index before is not taken for another index: it does not open, or answers as the
   complete one or with an error (C27; missing: earlier files of these names, for which C27_crash_safe_refuted). *)
Theorem C103_index_leftovers_partial : forall M pieces rb g ord dn hn docs w0,
  pieces_ok pieces -> roaring_ok rb -> roaring_written rb -> gob_ok g -> gob_prefix_fails g -> order_ok ord ->
  docs_ok docs -> starts_ok docs -> Forall (fun d => zlen (snd d) + 1 < 2 ^ 32) docs -> zlen docs < 2 ^ 32 -> dn <> hn ->
  (forall x, w_files w0 x = None) ->
  exists w ops, Index.add_all [] docs = Ret w /\ Commit rb g ord dn hn 0 w = Ret ops /\
  (zlen (writes_to 0 ops) < 2 ^ 32 -> forall r w1, commit_to M pieces rb g ord dn hn w w0 = (r, w1) ->
   match IndexRead g (fs_input (left_on_disk w1)) dn hn with
   | Ret ix => forall c t, holds_or_errs rb ix c t (posting_of docs c t)
   | Fail _ => True
   | _ => False
   end).
Proof.
  intros M pieces rb g ord dn hn docs w0 Hp Hrb Hrw Hg Hgp Ho Hd Hs Hl Hz Hne Hx. destruct (P_Index.C27_crash_fresh_directory_partial rb g ord dn hn [] docs Hrb Hrw Hg Hgp Ho Hd Hs Hl Hz Hne) as (w & ops & Ha & Ec & Hread); [intros []|intros []|].
  cbn [count_creates app] in *. exists w, ops. split; [exact Ha|]. split; [exact Ec|]. intros Hsz r w1 E.
  destruct (commit_faults M pieces Hp rb g ord dn hn w w0 NewFSDirectory ops Hne Ec Hx) as (before & after & w2 & r2 & E2 & Hf & Hy & _). rewrite E in E2. injection E2 as <- <-. cbn [NewFSDirectory fs_handles length] in Hf.
  specialize (Hread Hsz (before ++ after) before after Hf eq_refl). unfold IndexRead, fs_input, fs_open, left_on_disk in *. cbn [fs_files]. rewrite !Hy. exact Hread.
Qed.
Print Assumptions C103_index_leftovers_partial.

(** ** The files of a language model *)
(* The n-gram counts (one file for each order): success, and the files are those of a disk that does not fail, or an
   error, and each file holds a beginning of that or is as before. *)
Theorem C103_ngram_counts : forall M ord names t outs w0,
  NoDup names -> WriteNGrams ord (zlen names) t = Ret outs ->
  exists r w1 new, ngrams_to M ord names t w0 = (r, w1) /\ calls_between w0 w1 new /\ untouched_but names w0 w1 /\
    ((r = Ret tt /\ Forall succeeded new /\ forall i x, nth_error names i = Some x -> w_files w1 x = nth_error outs i) \/
     ((exists e, r = Fail e) /\ Exists (fun c => ~ succeeded c) new /\
      forall i x o, nth_error names i = Some x -> nth_error outs i = Some o -> w_files w1 x = w_files w0 x \/ begins w1 x o)).
Proof.
  intros M ord names t outs w0 Hnd Hw. destruct (ngrams_faults M w0 names Hnd ord t outs Hw) as (r & w1 & E & Hf & [(-> & (new & En & Hn) & Hi)|(He & (new & En & Hn) & Hi)]); eexists _, w1, new; (split; [exact E|]); (split; [exact En|]); (split; [exact Hf|]); [left|right]; auto.
Qed.
Print Assumptions C103_ngram_counts.
(* The binary model (build-lm): the same *)
Theorem C103_model_file : forall M name m t out w0, StoreBinary m t [] = Ret out ->
  exists r w1 new, binary_to M name m t w0 = (r, w1) /\ calls_between w0 w1 new /\ untouched_but [name] w0 w1 /\
    ((r = Ret tt /\ Forall succeeded new /\ w_files w1 name = Some out) \/
     ((exists e, r = Fail e) /\ Exists (fun c => ~ succeeded c) new /\ (w_files w1 name = w_files w0 name \/ begins w1 name out))).
Proof.
  intros M name m t out w0 Hs. destruct (binary_faults M name m t out w0 Hs) as (r & w1 & E & Hf & H). 
  assert (untouched_but [name] w0 w1) as Hu by (intros x Hx; apply Hf; intros ->; apply Hx; left; reflexivity).
  destruct H as [(-> & (new & En & Hn) & Hi)|(He & (new & En & Hn) & Hi)]; eexists _, w1, new; (split; [exact E|]); (split; [exact En|]); (split; [exact Hu|]); [left|right]; auto.
Qed.
Print Assumptions C103_model_file.

(** ** The indexer command *)
Lemma jobs_killed L rb g ord lower chunk fuel O dict ds : forall k b k1 b', index_jobs L rb g ord lower chunk fuel O dict k ds b = (k1, Ret b') -> killed_jobs L rb g ord lower chunk fuel O dict k ds k1.
Proof.
  induction ds as [|d ds IH]; intros k b k1 b' E; cbn [index_jobs] in E; [injection E as <- _; constructor|]. destruct (negb (beqb dict []) && negb (beqb dict (p_name (d_place d)))) eqn:Hs; [apply kill_skip; [exact Hs|exact (IH _ _ _ _ E)]|].
  destruct (index_job L rb g ord lower chunk fuel O k d) as [k' [[]| | |]] eqn:Ej; try discriminate. exact (kill_later L rb g ord lower chunk fuel O dict k d ds k' k1 Hs Ej (IH _ _ _ _ E)).
Qed.
(* Whatever fails, the disk is one that a killed command can leave (C97); an exit with 0 is one of the command on a
   disk that does not fail, every system call succeeded; if one did not succeed, the command reports an
   error and neither signals nor asks the server to reindex; if all succeeded, the result and the notices are those of a disk that does not fail. *)
Theorem C103_command : forall F pieces L rb g ord lower asort chunk fuel O dict pidPath host configPath k k1 evs notes r,
  pieces_ok pieces ->
  faulty_command F pieces L rb g ord lower asort chunk fuel O dict pidPath host configPath k = (k1, evs, notes, r) ->
  killed_command L rb g ord lower asort chunk fuel O dict configPath k k1 /\
  (r = Ret tt -> indexer_command L rb g ord lower asort chunk fuel O dict pidPath host configPath k = (k1, notes, Ret tt)) /\
  (Exists (fun e => ~ went e) evs -> (exists e, r = Fail e) /\ notes = []) /\
  (Forall went evs -> exists k2, indexer_command L rb g ord lower asort chunk fuel O dict pidPath host configPath k = (k2, notes, r)).
Proof.
  intros F pieces L rb g ord lower asort chunk fuel O dict pidPath host configPath k k1 evs notes r Hp. unfold faulty_command, indexer_command, killed_command, faulty_indexer, indexer, killed_indexer.
  destruct (cs <- read_configs k configPath ;; Ret (map (job_of asort) cs)) as [ds|e| |].
  2-4: intros E; injection E as <- <- <- <-; (split; [reflexivity|]); (split; [discriminate|]); (split; [intros H; inversion H|intros _; eexists; reflexivity]).
  destruct (jobs_spec F pieces Hp L rb g ord lower chunk fuel O dict ds k [] false) as (k2 & new & r2 & E2 & [((b & ->) & Ej & Hw)|(Hn & Hk & Hr)]); cbn [app] in E2; rewrite E2.
  - pose proof (jobs_killed _ _ _ _ _ _ _ _ _ _ _ _ _ _ Ej) as Hk. rewrite Ej. intros E.
    assert (k1 = k2 /\ evs = new /\ (let '(k', notes', r') := match b with
       | false => (k2, [], Ret tt)
       | true => let '(n1, r1) := if beqb pidPath [] then ([], Ret tt) else send_signal O k2 pidPath in
           match r1 with Ret _ => let '(n2, r2) := if beqb host [] then ([], Ret tt) else send_request O host in (k2, n1 ++ n2, r2) | r => (k2, n1, r) end end in (k', notes', r') = (k1, notes, r))) as (-> & -> & Hrest).
    { destruct b; [|injection E as <- <- <- <-; auto]. destruct (if beqb pidPath [] then ([], Ret tt) else send_signal O k2 pidPath) as [n1 [[]| | |]]; [|injection E as <- <- <- <-; auto..]. destruct (if beqb host [] then ([], Ret tt) else send_request O host) as [n2 r2]. injection E as <- <- <- <-. auto. }
    split; [exact Hk|]. assert (forall k', k' = k2 -> match b with
       | false => (k', [], Ret tt)
       | true => let '(n1, r1) := if beqb pidPath [] then ([], Ret tt) else send_signal O k' pidPath in
           match r1 with Ret _ => let '(n2, r2) := if beqb host [] then ([], Ret tt) else send_request O host in (k', n1 ++ n2, r2) | r => (k', n1, r) end end = (k2, notes, r)) as Hsame.
    { intros k' ->. destruct b; [|exact Hrest]. destruct (if beqb pidPath [] then ([], Ret tt) else send_signal O k2 pidPath) as [n1 [[]| | |]]; [|exact Hrest..]. destruct (if beqb host [] then ([], Ret tt) else send_request O host) as [n2 r2]. exact Hrest. }
    specialize (Hsame k2 eq_refl). assert (forall (b0 : bool), match Ret b0 with Ret true => let '(n1, r1) := if beqb pidPath [] then ([], Ret tt) else send_signal O k2 pidPath in
           match r1 with Ret _ => let '(n2, r2) := if beqb host [] then ([], Ret tt) else send_request O host in (k2, n1 ++ n2, r2) | r => (k2, n1, r) end | Ret false => (k2, [], Ret tt) | Fail e => (k2, [], Fail e) | Panic => (k2, [], Panic) | NoFuel => (k2, [], NoFuel) end = match b0 with
       | false => (k2, [], Ret tt)
       | true => let '(n1, r1) := if beqb pidPath [] then ([], Ret tt) else send_signal O k2 pidPath in
           match r1 with Ret _ => let '(n2, r2) := if beqb host [] then ([], Ret tt) else send_request O host in (k2, n1 ++ n2, r2) | r => (k2, n1, r) end end) as Hb by (intros [|]; reflexivity).
    split; [intros ->; destruct b; exact Hsame|]. split; [|intros _; exists k2; destruct b; exact Hsame].
    intros Hx. exfalso. apply Exists_exists in Hx. destruct Hx as (x & Hx & Hnx). apply Hnx. exact (proj1 (Forall_forall _ _) Hw x Hx).
  - destruct r2 as [b|e| |]; [exfalso; exact (Hn b eq_refl)|..]; intros E; injection E as <- <- <- <-; (split; [exact Hk|]); (split; [discriminate|]); (destruct Hr as [[(e' & He) Hr]|[Hr1 Hr2]]; [try discriminate He|]).
    + split; [intros _; split; [eauto|reflexivity]|]. intros Hg. exfalso. apply Exists_exists in Hr. destruct Hr as (x & Hx & Hnx). apply Hnx. exact (proj1 (Forall_forall _ _) Hg x Hx).
    + split; [intros _; split; [eauto|reflexivity]|]. intros _. destruct (index_jobs L rb g ord lower chunk fuel O dict k ds false) as [k' r']. cbn [snd] in Hr1. subst r'. eexists. reflexivity.
    + split; [intros Hx; exfalso; apply Exists_exists in Hx; destruct Hx as (x & Hx & Hnx); apply Hnx; exact (proj1 (Forall_forall _ _) Hr2 x Hx)|]. intros _. destruct (index_jobs L rb g ord lower chunk fuel O dict k ds false) as [k' r']. cbn [snd] in Hr1. subst r'. eexists. reflexivity.
    + split; [intros Hx; exfalso; apply Exists_exists in Hx; destruct Hx as (x & Hx & Hnx); apply Hnx; exact (proj1 (Forall_forall _ _) Hr2 x Hx)|]. intros _. destruct (index_jobs L rb g ord lower chunk fuel O dict k ds false) as [k' r']. cbn [snd] in Hr1. subst r'. eexists. reflexivity.
Qed.
Print Assumptions C103_command.
(* After a run that met such failures, the command run again where nothing fails repairs everything. *)
Theorem C103_rerun : forall F pieces L rb g ord lower asort chunk fuel O dict pidPath host configPath k k1 evs notes1 r1,
  pieces_ok pieces -> faulty_command F pieces L rb g ord lower asort chunk fuel O dict pidPath host configPath k = (k1, evs, notes1, r1) ->
  forall L' rb' g' ord' lower' chunk' fuel' O' pidPath' host' cs k2 notes,
  config_says k configPath cs -> coherent asort configPath cs ->
  indexer_command L' rb' g' ord' lower' asort chunk' fuel' O' [] pidPath' host' configPath k = (k2, notes, Ret tt) ->
  exists k3, indexer_command L' rb' g' ord' lower' asort chunk' fuel' O' [] pidPath' host' configPath k1 = (k3, notes, Ret tt) /\ forall p, k3 p = k2 p.
Proof.
  intros F pieces L rb g ord lower asort chunk fuel O dict pidPath host configPath k k1 evs notes1 r1 Hp E L' rb' g' ord' lower' chunk' fuel' O' pidPath' host' cs k2 notes Hs Hco E2.
  destruct (C103_command _ _ _ _ _ _ _ _ _ _ _ _ _ _ _ _ _ _ _ _ Hp E) as [Hk _].
  eapply C97_rerun; [exact Hs|exact Hco| |exact E2]. eapply one_more; [eapply attempt_killed; exact Hk|constructor].
Qed.
Print Assumptions C103_rerun.

(** Non-vacuity: a disk that takes everything, and one that is full after some bytes of one write and then takes writes again. *)
Definition room103 (bad : nat) (n : nat) : Z := if Nat.eqb n bad then 1 else 1000000.
Definition machine103 (bad : nat) : machine := mkMachine (fun _ => true) (room103 bad).
Definition whole103 (b : bytes) : list bytes := [b].
Lemma whole103_ok : pieces_ok whole103. Proof. intros b. apply app_nil_r. Qed.
Definition docs103 : list (Z * list term) := [(1, [bs "ab"; bs "bc"]); (5, [bs "bc"; bs "cd"])].
Definition commit103 (bad : nat) : res unit * world :=
  match Index.add_all [] docs103 with Ret w => commit_to (machine103 bad) whole103 rb4 gob1 (fun _ m => rev m) "d" "h" w no_files | _ => (Panic, no_files) end.
Definition told103 {A} (r : res A) : Z := match r with Ret _ => 0 | Fail _ => 1 | Panic => 2 | NoFuel => 3 end.
Example C103_nonvacuous_commit : map (fun n => (told103 (fst (commit103 n)), length (w_calls (snd (commit103 n))))) [0; 1; 2; 3; 4]%nat = [(0, 4%nat); (0, 4%nat); (1, 3%nat); (1, 4%nat); (0, 4%nat)].
Proof. vm_compute. reflexivity. Qed.
Definition faults103 (bad : nat) : faults := mkFaults (room103 bad) (fun _ _ => None).
Definition run103 (F : faults) := faulty_command F whole103 lib74 rb4 gob1 (fun _ m => rev m) (Text.ToLower P_NGramIndex.demo71_low) (fun l => l) (fun _ => 3%nat) 100 out88 [] (bs "/pid") [] (bs "/d/config.json") (disk93 "DISC").
Example C103_nonvacuous_command : 
  map (fun n => let '(_, evs, notes, r) := run103 (faults103 n) in (told103 r, length evs, length notes)) [2; 3; 4; 9]%nat = [(0, 5%nat, 1%nat); (1, 4%nat, 0%nat); (1, 5%nat, 0%nat); (0, 5%nat, 1%nat)] /\
  (let '(_, evs, notes, r) := run103 (mkFaults (room103 9) (fun _ _ => Some CBroken)) in (told103 r, length evs, length notes)) = (1, 1%nat, 0%nat).
Proof. vm_compute. split; reflexivity. Qed.
