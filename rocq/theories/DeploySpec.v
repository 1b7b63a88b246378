(** Specification vocabulary for C93: deployments. *)
From Coq Require Import String.
From Verif Require Import Base Text AnalysisSpec Store Postings Index Analysis NGramIndex NGramIndexSpec NGramIndexAnySpec CdbDictSpec ScannerSpec JsonSpec Paths Config ConfigSpec Indexer IndexerSpec Deploy.
Local Open Scope Z_scope.

(** The file at that path is a JSON text that says the descriptions [cs]. *)
Definition config_says (k : disk) (configPath : bytes) (cs : list IndexDescription) : Prop :=
  exists text j, k configPath = Some (CText text) /\ Forall is_byte text /\ parse text = Some j /\ plain_config j /\ configured (Dir configPath) j = Some cs.
(** Where a description's entries come from, and what they are. *)
Definition source_path (c : IndexDescription) : bytes := GetSourcePath (place_of c).
Definition entries (file : bytes) : list bytes := map without_cr (raw_lines file).
(** The drivers are the documented ones; descriptions with DISC share no file; no source and not
    the configuration itself is a file of one of them. *)
Definition jobs asort (cs : list IndexDescription) : list description := on_disc (map (job_of asort) cs).
Definition coherent asort (configPath : bytes) (cs : list IndexDescription) : Prop :=
  (forall c, In c cs -> i_driver c = bs "DISC" \/ i_driver c = bs "RAM") /\ apart (jobs asort cs) /\
  forall d, In d (jobs asort cs) -> ~ In configPath (files_of d) /\ forall c, In c cs -> ~ In (source_path c) (files_of d).
(** The source is a dictionary for the description: lines below 65536 bytes, entries as C71 or C95 wants
    them, an index below 4 GB; for a dictionary on disc also as C74 wants it.  All of it is UTF-8. *)
Definition source_ok rb g ord lowr asort (fuel : nat) (file : bytes) (c : IndexDescription) : Prop :=
  (forall l, In l (raw_lines file) -> zlen l < 65536) /\ (2 * length file + 1 < fuel)%nat /\
  indexable lowr (tokenizer_of asort c) (entries file) /\ (i_driver c = bs "DISC" -> file_ok file (entries file)) /\
  (forall ops b, IndexDictionary rb g ord ".dl" ".hd" 0 (ToLower lowr) (tokenizer_of asort c) (entries file) = Ret ops ->
     ram_open (ram_run NewRAMDirectory ops) ".dl" = Some b \/ fs_open (fs_run NewFSDirectory ops) ".dl" = Some b -> zlen b < 2 ^ 32) /\
  (forall w, In w (entries file) -> Forall is_byte w /\ well_formed w).
(** The description that counts under a name is the last one. *)
Definition last_named (cs : list IndexDescription) (name : bytes) (c : IndexDescription) : Prop :=
  exists before after, cs = before ++ c :: after /\ i_name c = name /\ forall c', In c' after -> i_name c' <> name.
