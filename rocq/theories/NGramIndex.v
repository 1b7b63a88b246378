(** Model of pkg/suggest: indexer.go, ngram_index_builder.go, ngram_index.go and the searches
    of service.go.  Definitions only. *)
From Coq Require Import String.
From Verif Require Import Base GoMap Store Postings Merger Index Float64 Metric Heap TopK Suggest Autocomplete Analysis Mph.
Local Open Scope Z_scope.

(** ** Building *)
(* indexer.go:29-31, the function given to Iterate.  A panic ends the program: once the
   state is not a value it stays what it is. *)
Definition index_step (lower : bytes -> bytes) (d : tokconf) (st : res windices) (key : Z) (value : bytes) : option err * res windices :=
  match (w <- st ;; ts <- SuggestTokenize lower d value ;; AddDocument w key ts) with
  | Fail e => (Some e, Fail e)
  | r => (None, r)
  end.
(* pkg/suggest/indexer.go:14-45, as the operations on the directory; NewEncoder never fails.  [h]: handles created before *)
Definition IndexDictionary (rb : roaring) (g : gobcodec) (ord : Z -> index_map -> index_map) (dn hn : string) (h : nat)
    (lower : bytes -> bytes) (d : tokconf) (words : list bytes) : res (list dop) :=
  match DictIterate (index_step lower d) words (Ret []) with
  | (Some e, _) => Fail e
  | (None, st) => w <- st ;; Commit rb g ord dn hn h w
  end.
(* config.go:73-81 *)
Definition headerFile (name : string) : string := append name ".hd".
Definition documentListFile (name : string) : string := append name ".dl".
(* ngram_index_builder.go:27-35, 60-83: index the dictionary in a new RAM directory, then read it *)
Definition RAMBuild (rb : roaring) (g : gobcodec) (ord : Z -> index_map -> index_map) (name : string)
    (lower : bytes -> bytes) (d : tokconf) (words : list bytes) : res (list (option inverted)) :=
  ops <- IndexDictionary rb g ord (documentListFile name) (headerFile name) 0 lower d words ;;
  IndexRead g (ram_open (ram_run NewRAMDirectory ops)) (documentListFile name) (headerFile name).
(* :38-46, 60-83: read what was indexed into the directory [dir] *)
Definition FSBuild (g : gobcodec) (name : string) (dir : fsdir) : res (list (option inverted)) :=
  IndexRead g (fs_input dir) (documentListFile name) (headerFile name).

(** ** Searching; None: the search has not returned yet *)
Section Search.
Context (rb : roaring) (srt : list iter -> list iter) (ix : list (option inverted)) (words : list bytes) (lower : bytes -> bytes) (d : tokconf).
(* service.go:115-138, suggester.go:46-51 *)
Definition ServiceSuggest (query : bytes) (similarity : f64) (m : metric) (topK : Z) (sched : list choice) : option (res (list (f64 * bytes))) :=
  match SuggestTokenize lower d query with
  | Ret tokens =>
      match run rb srt ix tokens m similarity topK sched (start ix tokens m similarity topK) with
      | Some (Finished r) => Some (cs <- r ;; Ret (map (fun c => (Sc c, DictGet words (Key c))) cs))
      | Some Crashed => Some Panic
      | _ => None
      end
  | Fail e => Some (Fail e) | Panic => Some Panic | NoFuel => None
  end.
(* service.go:152-172, autocomplete.go:40-41 *)
Definition ServiceAutocomplete (query : bytes) (limit : Z) (sched : list achoice) : option (res (list (f64 * bytes))) :=
  match AutocompleteTokenize lower d query with
  | Ret terms =>
      match arun rb srt ix terms limit sched (astart terms limit) with
      | Some (AFinished r) => Some (cs <- r ;; Ret (map (fun c => (of_int 0, DictGet words (Key c))) cs))
      | Some ACrashed => Some Panic
      | _ => None
      end
  | Fail e => Some (Fail e) | Panic => Some Panic | NoFuel => None
  end.
End Search.
