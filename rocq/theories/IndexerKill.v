(** Model of the command "suggest indexer" killed at any point: cmd/suggest/cmd/indexer.go:39-84,
    :99-154, pkg/dictionary/cdb_builder.go, pkg/index/indexer_writer.go:89-167.  Definitions only.

    What is written before a file is closed may be in the file or still in the buffer of the
    process ([with_flushes]); the operating system itself goes on (no power cut).  The
    dictionary file may hold anything until it is closed.  That the header can be created
    is not asked for: more disks than there are. *)
From Coq Require Import String.
From Verif Require Import Base GoMap Store StoreSpec Postings Merger Index IndexSpec Analysis Scanner Http NGramIndex CdbDict Paths Config Indexer Deploy.
Local Open Scope Z_scope.

Section Kill.
Context (L : cdblib) (rb : roaring) (g : gobcodec) (ord : Z -> index_map -> index_map) (lower : bytes -> bytes) (chunk : nat -> nat) (fuel : nat) (O : outside).

(* the two files of the index after some of the operations of Commit: a file that is not created
   yet is as it was (fs_directory.go CreateOutput truncates) *)
Definition after_ops (k : disk) (p : place) (ops : list dop) : disk :=
  let dir := fs_run NewFSDirectory ops in
  let k1 := match fs_open dir dl with Some b => put k (list_path p) (CText b) | None => k end in
  match fs_open dir hd with Some b => put k1 (header_path p) (CText b) | None => k1 end.

(* cmd/suggest/cmd/indexer.go:99-137 (indexJob), see index_job: what is on the disk in its midst *)
Inductive killed_job (k : disk) (d : description) : disk -> Prop :=
(* before a file is created *)
| killed_early : killed_job k d k
(* indexer.go:140-154, cdb_builder.go: the dictionary is being written *)
| killed_dictionary c : d_disc d = true -> k (GetSourcePath (d_place d)) <> None -> o_create O (GetDictionaryFile (d_place d)) = true ->
    killed_job k d (put k (GetDictionaryFile (d_place d)) c)
(* the dictionary is written, and some of the operations of indexer_writer.go:89-167 are done *)
| killed_index recs w ops before after : d_disc d = true -> k (GetSourcePath (d_place d)) <> None -> o_create O (GetDictionaryFile (d_place d)) = true ->
    BuildCDBDictionary L chunk fuel (text_at (put k (GetDictionaryFile (d_place d)) CBroken) (GetSourcePath (d_place d))) = Ret recs ->
    o_dir O (GetIndexPath (d_place d)) = true -> (st <- CdbIterate L (index_step lower (d_conf d)) recs (Ret []) ;; st) = Ret w ->
    o_create O (list_path (d_place d)) = true -> Commit rb g ord dl hd 0 w = Ret ops -> with_flushes 0 ops (before ++ after) ->
    killed_job k d (after_ops (put k (GetDictionaryFile (d_place d)) (CDict recs)) (d_place d) before).

(* cmd/suggest/cmd/indexer.go:49-62, as index_jobs; also between two jobs and after the last *)
Inductive killed_jobs (dict : bytes) : disk -> list description -> disk -> Prop :=
| kill_now k ds : killed_jobs dict k ds k
| kill_skip k d ds k1 : negb (beqb dict []) && negb (beqb dict (p_name (d_place d))) = true -> killed_jobs dict k ds k1 -> killed_jobs dict k (d :: ds) k1
| kill_in k d ds k1 : negb (beqb dict []) && negb (beqb dict (p_name (d_place d))) = false -> killed_job k d k1 -> killed_jobs dict k (d :: ds) k1
| kill_later k d ds k' k1 : negb (beqb dict []) && negb (beqb dict (p_name (d_place d))) = false ->
    index_job L rb g ord lower chunk fuel O k d = (k', Ret tt) -> killed_jobs dict k' ds k1 -> killed_jobs dict k (d :: ds) k1.
(* cmd/suggest/cmd/indexer.go:39-84; the configuration is only read *)
Definition killed_indexer (dict : bytes) (configs : res (list description)) (k k1 : disk) : Prop :=
  match configs with Ret ds => killed_jobs dict k ds k1 | _ => k1 = k end.
End Kill.

(* cmd/suggest/cmd/indexer.go:39-84 with the configuration file, as indexer_command *)
Definition killed_command L rb g ord lower asort chunk fuel O (dict configPath : bytes) (k k1 : disk) : Prop :=
  killed_indexer L rb g ord lower chunk fuel O dict (cs <- read_configs k configPath ;; Ret (map (job_of asort) cs)) k k1.
