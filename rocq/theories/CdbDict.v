(** Model of pkg/dictionary/cdb_dictionary.go, helpers.go (cdb part), the disc part of
    cmd/suggest/cmd/indexer.go and the searches of a service over such a dictionary.
    Definitions only.

    The cdb library (github.com/alldroll/cdb) is not in the repository: it appears as
    functions of the records written so far; what is assumed of them is [cdb_ok] in
    CdbDictSpec.v.  Creating, closing and mapping the file do not fail here. *)
From Coq Require Import String.
From Verif Require Import Base GoMap Store Postings Merger Index Float64 Metric Heap TopK Suggest Autocomplete Analysis Mph Scanner NGramIndex.
Local Open Scope Z_scope.

Notation record := (bytes * bytes)%type.
(* Writer.Put of one more record (None: no error), Reader.Get (None: nil), and Read of the
   section of a key or a value into a slice of its size *)
Record cdblib := mkCdb { cdb_put : list record -> record -> option err; cdb_get : list record -> bytes -> res (option bytes); cdb_read : bytes -> res bytes }.

(* binary.LittleEndian.Uint32; shorter slices panic *)
Definition Uint32 (b : bytes) : res Z :=
  match b with
  | b0 :: b1 :: b2 :: b3 :: _ => Ret (b0 + 2 ^ 8 * b1 + 2 ^ 16 * b2 + 2 ^ 24 * b3)
  | _ => Panic
  end.

(* cmd/suggest/cmd/indexer.go:161-174 dictionaryReader.Iterate; docID is a uint32 *)
Fixpoint lines_iterate {S} (f : S -> Z -> bytes -> res S) (docID : Z) (lines : list bytes) (s : S) : res S :=
  match lines with
  | [] => Ret s
  | w :: ws => s' <- f s docID w ;; lines_iterate f (wrap32 (docID + 1)) ws s'
  end.
Definition ReaderIterate {S} (chunk : nat -> nat) (fuel : nat) (file : bytes) (f : S -> Z -> bytes -> res S) (s : S) : res S :=
  let '(lines, e) := scan_all ScanLines chunk fuel (NewScanner file) in
  s' <- lines_iterate f 0 lines s ;; _ <- e ;; Ret s'.

Section Cdb.
Context (L : cdblib).
(* helpers.go:74-82: the function given to Iterate *)
Definition put_step (recs : list record) (key : Z) (word : bytes) : res (list record) :=
  match cdb_put L recs (le32 key, word) with
  | None => Ret (recs ++ [(le32 key, word)])
  | Some e => Fail (ErrWrapped e)
  end.
(* helpers.go:54-95, over the lines of a file *)
Definition BuildCDBDictionary (chunk : nat -> nat) (fuel : nat) (file : bytes) : res (list record) :=
  match ReaderIterate chunk fuel file put_step [] with
  | Fail e => Fail (ErrWrapped e)
  | r => r
  end.
(* cdb_dictionary.go:31-45 *)
Definition CdbGet (recs : list record) (key : Z) : res bytes :=
  v <- cdb_get L recs (le32 key) ;; Ret (match v with Some v => v | None => NilValue end).
(* :48-50 *)
Definition CdbSize (recs : list record) : Z := zlen recs.
(* :53-96; the library's iterator gives the records in the order they were put, and is nil if there are none *)
Fixpoint CdbIterate {S} (f : S -> Z -> bytes -> option err * S) (recs : list record) (s : S) : res S :=
  match recs with
  | [] => Ret s
  | (k, v) :: rs =>
      key <- cdb_read L k ;;
      value <- cdb_read L v ;;
      id <- Uint32 key ;;
      match f s id value with
      | (Some e, _) => Fail e
      | (None, s') => CdbIterate f rs s'
      end
  end.
(* pkg/suggest/indexer.go:14-45 over a cdb dictionary *)
Definition IndexCdb (rb : roaring) (g : gobcodec) (ord : Z -> index_map -> index_map) (name : string) (lower : bytes -> bytes) (d : tokconf) (recs : list record) : res (list dop) :=
  st <- CdbIterate (index_step lower d) recs (Ret []) ;; w <- st ;; Commit rb g ord (documentListFile name) (headerFile name) 0 w.
(* cmd/suggest/cmd/indexer.go:99-154 indexJob, driver DISC: the dictionary's records and the operations on the index directory *)
Definition indexJob (rb : roaring) (g : gobcodec) (ord : Z -> index_map -> index_map) (name : string) (lower : bytes -> bytes) (d : tokconf)
    (chunk : nat -> nat) (fuel : nat) (file : bytes) : res (list record * list dop) :=
  match BuildCDBDictionary chunk fuel file with
  | Ret recs => ops <- IndexCdb rb g ord name lower d recs ;; Ret (recs, ops)
  | Fail e => Fail (ErrWrapped e)
  | Panic => Panic
  | NoFuel => NoFuel
  end.

(* service.go:126-138, 161-172: the texts of the candidates *)
Fixpoint retrieve (get : Z -> res bytes) (sc : cand -> f64) (cs : list cand) : res (list (f64 * bytes)) :=
  match cs with
  | [] => Ret []
  | c :: t => v <- get (Key c) ;; rest <- retrieve get sc t ;; Ret ((sc c, v) :: rest)
  end.
Section Search.
Context (rb : roaring) (srt : list iter -> list iter) (ix : list (option inverted)) (recs : list record) (lower : bytes -> bytes) (d : tokconf).
(* service.go:105-139 *)
Definition DiscSuggest (query : bytes) (similarity : f64) (m : metric) (topK : Z) (sched : list choice) : option (res (list (f64 * bytes))) :=
  match SuggestTokenize lower d query with
  | Ret tokens =>
      match run rb srt ix tokens m similarity topK sched (start ix tokens m similarity topK) with
      | Some (Finished r) => Some (cs <- r ;; retrieve (CdbGet recs) Sc cs)
      | Some Crashed => Some Panic
      | _ => None
      end
  | Fail e => Some (Fail e) | Panic => Some Panic | NoFuel => None
  end.
(* service.go:142-173 *)
Definition DiscAutocomplete (query : bytes) (limit : Z) (sched : list achoice) : option (res (list (f64 * bytes))) :=
  match AutocompleteTokenize lower d query with
  | Ret terms =>
      match arun rb srt ix terms limit sched (astart terms limit) with
      | Some (AFinished r) => Some (cs <- r ;; retrieve (CdbGet recs) (fun _ => of_int 0) cs)
      | Some ACrashed => Some Panic
      | _ => None
      end
  | Fail e => Some (Fail e) | Panic => Some Panic | NoFuel => None
  end.
End Search.
End Cdb.
