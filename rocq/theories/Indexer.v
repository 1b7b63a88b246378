(** Model of the command "suggest indexer": cmd/suggest/cmd/indexer.go:35-85, 99-154 and
    :193-233, over a file system.  Definitions only.

    Simplified: a file is text (also the two files of an index), or a dictionary, taken as its
    records, or broken (what a failed writer leaves); a broken file or dictionary read as text
    is empty, which is what it is at the moment it matters: a source that is its own
    dictionary file was emptied before it is read.  The order in which the operating system
    stores the writes is the subject of C26.  bytes.TrimSpace trims ASCII white space only. *)
From Coq Require Import String.
From Verif Require Import Base GoMap Store Postings Merger Index Analysis Scanner Http NGramIndex CdbDict Paths.
Local Open Scope Z_scope.

Inductive content := CText (b : bytes) | CDict (recs : list record) | CBroken.
Notation disk := (bytes -> option content).
Definition put (k : disk) (p : bytes) (c : content) : disk := fun x => if beqb x p then Some c else k x.
Definition text_at (k : disk) (p : bytes) : bytes := match k p with Some (CText b) => b | _ => [] end.

(* config.go:25-35: a description as ReadConfigs gives it; [d_disc]: driver DISC *)
Record description := mkDesc { d_place : place; d_disc : bool; d_conf : tokconf }.
(* what is outside: whether a file can be created (os.OpenFile with O_CREATE|O_TRUNC), whether a
   path is a directory (os.Stat), kill(2) and http.Post (the response's body) *)
Record outside := mkOut { o_create : bytes -> bool; o_dir : bytes -> bool; o_kill : Z -> option err; o_post : bytes -> res bytes }.
(* a signal or a request that was sent *)
Inductive notice := Signalled (pid : Z) | Posted (url : bytes).

(* bytes.TrimSpace *)
Definition is_space (c : Z) : bool := (c =? 32) || ((9 <=? c) && (c <=? 13)).
Fixpoint space_left (s : bytes) : bytes := match s with c :: t => if is_space c then space_left t else s | [] => [] end.
Definition TrimSpace (s : bytes) : bytes := rev (space_left (rev (space_left s))).

Section Indexer.
Context (L : cdblib) (rb : roaring) (g : gobcodec) (ord : Z -> index_map -> index_map) (lower : bytes -> bytes) (chunk : nat -> nat) (fuel : nat) (O : outside).
(* the files of an index have names of their own, whatever its name is *)
Definition dl : string := documentListFile "".
Definition hd : string := headerFile "".

(* cmd/suggest/cmd/indexer.go:99-137, with :140-190, helpers.go:52-94, pkg/suggest/indexer.go:14-45 and indexer_writer.go:66-167 *)
Definition index_job (k : disk) (d : description) : disk * res unit :=
  let p := d_place d in
  if negb (d_disc d) then (k, Ret tt)
  else match k (GetSourcePath p) with
  | None => (k, Fail (ErrWrapped (ErrOther 1)))
  | Some _ =>
  if negb (o_create O (GetDictionaryFile p)) then (k, Fail (ErrWrapped (ErrOther 2)))
  else
  let k1 := put k (GetDictionaryFile p) CBroken in
  match BuildCDBDictionary L chunk fuel (text_at k1 (GetSourcePath p)) with
  | Fail e => (k1, Fail (ErrWrapped e))
  | Panic => (k1, Panic)
  | NoFuel => (k1, NoFuel)
  | Ret recs =>
  let k2 := put k (GetDictionaryFile p) (CDict recs) in
  if negb (o_dir O (GetIndexPath p)) then (k2, Fail (ErrWrapped (ErrOther 3)))
  else match (st <- CdbIterate L (index_step lower (d_conf d)) recs (Ret []) ;; st) with
  | Fail e => (k2, Fail e)
  | Panic => (k2, Panic)
  | NoFuel => (k2, NoFuel)
  | Ret w =>
  if negb (o_create O (list_path p)) then (k2, Fail (ErrOther 4))
  else match Commit rb g ord dl hd 0 w with
  | Fail e => (put k2 (list_path p) CBroken, Fail e)
  | Panic => (put k2 (list_path p) CBroken, Panic)
  | NoFuel => (put k2 (list_path p) CBroken, NoFuel)
  | Ret ops =>
  if negb (o_create O (header_path p)) then (put k2 (list_path p) CBroken, Fail (ErrOther 5))
  else let dir := fs_run NewFSDirectory ops in
    let file n := match fs_open dir n with Some b => CText b | None => CBroken end in
    (put (put k2 (list_path p) (file dl)) (header_path p) (file hd), Ret tt)
  end end end end.

(* cmd/suggest/cmd/indexer.go:49-62; the result: whether there was a job *)
Fixpoint index_jobs (dict : bytes) (k : disk) (ds : list description) (reIndexed : bool) : disk * res bool :=
  match ds with
  | [] => (k, Ret reIndexed)
  | d :: ds' =>
      if negb (beqb dict []) && negb (beqb dict (p_name (d_place d))) then index_jobs dict k ds' reIndexed
      else match index_job k d with
           | (k', Ret _) => index_jobs dict k' ds' true
           | (k', Fail e) => (k', Fail e)
           | (k', Panic) => (k', Panic)
           | (k', NoFuel) => (k', NoFuel)
           end
  end.
(* cmd/suggest/cmd/indexer.go:193-211 *)
Definition send_signal (k : disk) (pidPath : bytes) : list notice * res unit :=
  match k pidPath with
  | None => ([], Fail (ErrWrapped (ErrOther 6)))
  | Some _ =>
      match ParseInt (TrimSpace (text_at k pidPath)) with
      | Ret pid => match o_kill O pid with None => ([Signalled pid], Ret tt) | Some e => ([], Fail (ErrWrapped e)) end
      | Fail e => ([], Fail (ErrWrapped e))
      | Panic => ([], Panic)
      | NoFuel => ([], NoFuel)
      end
  end.
(* cmd/suggest/cmd/indexer.go:214-233; without an answer it is not known whether the request arrived *)
Definition send_request (url : bytes) : list notice * res unit :=
  ([Posted url], match o_post O url with
                 | Ret body => if beqb body (bs "OK") then Ret tt else Fail (ErrOther 7)
                 | Fail e => Fail (ErrWrapped e)
                 | Panic => Panic
                 | NoFuel => NoFuel
                 end).
(* cmd/suggest/cmd/indexer.go:39-84; [configs]: readConfigs (:88-96) *)
Definition indexer (dict pidPath host : bytes) (configs : res (list description)) (k : disk) : disk * list notice * res unit :=
  match configs with
  | Fail e => (k, [], Fail (ErrWrapped e))
  | Panic => (k, [], Panic)
  | NoFuel => (k, [], NoFuel)
  | Ret ds =>
      match index_jobs dict k ds false with
      | (k', Fail e) => (k', [], Fail e)
      | (k', Panic) => (k', [], Panic)
      | (k', NoFuel) => (k', [], NoFuel)
      | (k', Ret false) => (k', [], Ret tt)
      | (k', Ret true) =>
          let '(n1, r1) := if beqb pidPath [] then ([], Ret tt) else send_signal k' pidPath in
          match r1 with
          | Ret _ => let '(n2, r2) := if beqb host [] then ([], Ret tt) else send_request host in (k', n1 ++ n2, r2)
          | r => (k', n1, r)
          end
      end
  end.
End Indexer.
(* app.go:100-102: what the server writes into the PID file *)
Definition pid_file (pid : Z) : content := CText (Decimal.dec pid).
(* service.go:35-83 with driver DISC: the dictionary and the index as they are opened;
   utils/mmap_reader.go: an empty file cannot be mapped *)
Definition open_disc (g : gobcodec) (k : disk) (d : description) : res (list record * list (option inverted)) :=
  let p := d_place d in
  match k (GetDictionaryFile p) with
  | Some (CDict recs) =>
      let input n := match (if String.eqb n dl then text_at k (list_path p) else text_at k (header_path p)) with [] => None | b => Some b end in
      ix <- IndexRead g input dl hd ;; Ret (recs, ix)
  | _ => Fail (ErrWrapped (ErrOther 8))
  end.
