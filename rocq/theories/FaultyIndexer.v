(** Model of the command "suggest indexer" on a disk that fails: cmd/suggest/cmd/indexer.go:39-84
    and :99-154 as in Indexer.v, with pkg/index/indexer_writer.go:89-167 writing through
    WriteFaults.v.  Definitions only.

    The dictionary file is written by the library cdb: whether that succeeds, and if not what it
    leaves in the file, is decided by the machine ([f_dict]; the library is trusted to report a
    write that fails).  The system calls of all the jobs of a run are numbered
    together.  Reading does not fail. *)
From Coq Require Import String.
From Verif Require Import Base GoMap Store Postings Merger Index Analysis Scanner Http NGramIndex CdbDict Paths Config Indexer Deploy IndexerKill WriteFaults.
Local Open Scope Z_scope.

(* [f_room]: as [room], over the run; [f_dict n path]: None, the dictionary is written; Some c, writing it fails and leaves c *)
Record faults := mkFaults { f_room : nat -> Z; f_dict : nat -> bytes -> option content }.
Inductive event := ESys (path : bytes) (c : syscall) | EDict (path : bytes) (ok : bool).
(* the path of one of the two files of the index *)
Definition path_in (p : place) (n : string) : bytes := if String.eqb n dl then list_path p else header_path p.
Definition call_name (c : syscall) : string := match c with COpen n _ => n | CWrite n _ _ => n end.

Section Faulty.
Context (F : faults) (pieces : bytes -> list bytes) (L : cdblib) (rb : roaring) (g : gobcodec) (ord : Z -> index_map -> index_map) (lower : bytes -> bytes) (chunk : nat -> nat) (fuel : nat) (O : outside).

(* indexer_writer.go:89-167 into the directory of the index *)
Definition machine_at (evs : list event) (p : place) : machine :=
  mkMachine (fun n => o_create O (path_in p n)) (fun n => f_room F (List.length evs + n)).
Definition merged (k : disk) (p : place) (w : world) : disk :=
  let k1 := match w_files w dl with Some b => put k (list_path p) (CText b) | None => k end in
  match w_files w hd with Some b => put k1 (header_path p) (CText b) | None => k1 end.
Definition commit_on (k : disk) (evs : list event) (p : place) (ws : windices) : disk * list event * res unit :=
  let '(r, w) := commit_to (machine_at evs p) pieces rb g ord dl hd ws (mkWorld (fun _ => None) [] []) in
  (merged k p w, evs ++ map (fun c => ESys (path_in p (call_name c)) c) (w_calls w), r).

(* cmd/suggest/cmd/indexer.go:99-137, as index_job *)
Definition faulty_job (k : disk) (evs : list event) (d : description) : disk * list event * res unit :=
  let p := d_place d in
  if negb (d_disc d) then (k, evs, Ret tt)
  else match k (GetSourcePath p) with
  | None => (k, evs, Fail (ErrWrapped (ErrOther 1)))
  | Some _ =>
  if negb (o_create O (GetDictionaryFile p)) then (k, evs ++ [EDict (GetDictionaryFile p) false], Fail (ErrWrapped (ErrOther 2)))
  else
  let k1 := put k (GetDictionaryFile p) CBroken in
  match BuildCDBDictionary L chunk fuel (text_at k1 (GetSourcePath p)) with
  | Fail e => (k1, evs, Fail (ErrWrapped e))
  | Panic => (k1, evs, Panic)
  | NoFuel => (k1, evs, NoFuel)
  | Ret recs =>
  match f_dict F (List.length evs) (GetDictionaryFile p) with
  | Some c => (put k (GetDictionaryFile p) c, evs ++ [EDict (GetDictionaryFile p) false], Fail (ErrWrapped (ErrOther 6)))
  | None =>
  let k2 := put k (GetDictionaryFile p) (CDict recs) in
  let evs2 := evs ++ [EDict (GetDictionaryFile p) true] in
  if negb (o_dir O (GetIndexPath p)) then (k2, evs2, Fail (ErrWrapped (ErrOther 3)))
  else match (st <- CdbIterate L (index_step lower (d_conf d)) recs (Ret []) ;; st) with
  | Fail e => (k2, evs2, Fail e)
  | Panic => (k2, evs2, Panic)
  | NoFuel => (k2, evs2, NoFuel)
  | Ret w => commit_on k2 evs2 p w
  end end end end.

(* cmd/suggest/cmd/indexer.go:49-62 *)
Fixpoint faulty_jobs (dict : bytes) (k : disk) (evs : list event) (ds : list description) (reIndexed : bool) : disk * list event * res bool :=
  match ds with
  | [] => (k, evs, Ret reIndexed)
  | d :: ds' =>
      if negb (beqb dict []) && negb (beqb dict (p_name (d_place d))) then faulty_jobs dict k evs ds' reIndexed
      else match faulty_job k evs d with
           | (k', evs', Ret _) => faulty_jobs dict k' evs' ds' true
           | (k', evs', Fail e) => (k', evs', Fail e)
           | (k', evs', Panic) => (k', evs', Panic)
           | (k', evs', NoFuel) => (k', evs', NoFuel)
           end
  end.
(* cmd/suggest/cmd/indexer.go:39-84 *)
Definition faulty_indexer (dict pidPath host : bytes) (configs : res (list description)) (k : disk) : disk * list event * list notice * res unit :=
  match configs with
  | Fail e => (k, [], [], Fail (ErrWrapped e))
  | Panic => (k, [], [], Panic)
  | NoFuel => (k, [], [], NoFuel)
  | Ret ds =>
      match faulty_jobs dict k [] ds false with
      | (k', evs, Fail e) => (k', evs, [], Fail e)
      | (k', evs, Panic) => (k', evs, [], Panic)
      | (k', evs, NoFuel) => (k', evs, [], NoFuel)
      | (k', evs, Ret false) => (k', evs, [], Ret tt)
      | (k', evs, Ret true) =>
          let '(n1, r1) := if beqb pidPath [] then ([], Ret tt) else send_signal O k' pidPath in
          match r1 with
          | Ret _ => let '(n2, r2) := if beqb host [] then ([], Ret tt) else send_request O host in (k', evs, n1 ++ n2, r2)
          | r => (k', evs, n1, r)
          end
      end
  end.
End Faulty.

(* with the configuration file, as indexer_command *)
Definition faulty_command F pieces L rb g ord lower asort chunk fuel O (dict pidPath host configPath : bytes) (k : disk) : disk * list event * list notice * res unit :=
  faulty_indexer F pieces L rb g ord lower chunk fuel O dict pidPath host (cs <- read_configs k configPath ;; Ret (map (job_of asort) cs)) k.
