(** Model of a deployment: the configuration file, the command "suggest indexer" and the server
    that reads the same file.  cmd/suggest/cmd/indexer.go:35-96, pkg/suggest/config.go:84-110,
    pkg/suggest/tokenizer.go:9-34, internal/suggest/api/app.go:110-124,
    pkg/suggest/service.go:35-91 and the handlers over what was opened.  Definitions only.

    Simplified: the two files of an index in memory are named ".dl" and ".hd" whatever the name
    of the index is (they live in a directory of their own); a file that is not text (a
    dictionary, or what a failed writer left) is no configuration. *)
From Coq Require Import String.
From Verif Require Import Base GoMap Float64 Metric Store Postings Merger Index Analysis Suggest Autocomplete NGramIndex CdbDict Scanner Paths Config Indexer Http Json.
From Verif Require Handlers.
Local Open Scope Z_scope.

(* os.Open and ioutil.ReadAll: config.go:85-97 *)
Definition read_text (k : disk) (p : bytes) : res bytes := match k p with Some (CText b) => Ret b | _ => Fail (ErrOther 81) end.
Section Deploy.
Context (L : cdblib) (rb : roaring) (g : gobcodec) (ord : Z -> index_map -> index_map) (lower : bytes -> bytes) (asort : list alphabet -> list alphabet)
  (chunk : nat -> nat) (fuel : nat) (O : outside).
(* tokenizer.go:9-34 *)
Definition tokenizer_of (c : IndexDescription) : tokconf :=
  mkTok (i_ngram c) (Has (CreateAlphabet asort (i_alphabet c))) (i_pad c) (fst (i_wrap c)) (snd (i_wrap c)).
Definition place_of (c : IndexDescription) : place := mkPlace (i_name c) (i_source c) (i_output c) (i_base c).
(* indexer.go:97: a description with another driver than DISC is left alone *)
Definition job_of (c : IndexDescription) : description := mkDesc (place_of c) (beqb (i_driver c) (bs "DISC")) (tokenizer_of c).
(* config.go:84-110 *)
Definition read_configs (k : disk) (configPath : bytes) : res (list IndexDescription) := ReadConfigs configPath (read_text k configPath).
(* indexer.go:35-96 *)
Definition indexer_command (dict pidPath host configPath : bytes) (k : disk) : disk * list notice * res unit :=
  indexer L rb g ord lower chunk fuel O dict pidPath host (cs <- read_configs k configPath ;; Ret (map job_of cs)) k.

(* what the service holds under a name *)
Inductive opened := InMemory (ix : list (option inverted)) (words : list bytes) | OnDisc (ix : list (option inverted)) (recs : list record).
Record entry := mkEntry { e_opened : opened; e_conf : tokconf }.
(* service.go:35-75 with helpers.go:25-48 and ngram_index_builder.go:27-83 *)
Definition open_index (k : disk) (c : IndexDescription) : res entry :=
  if beqb (i_driver c) (bs "RAM") then
    match k (GetSourcePath (place_of c)) with
    | None => Fail (ErrWrapped (ErrOther 82))
    | Some _ =>
        let words := OpenRAMDictionary chunk fuel (text_at k (GetSourcePath (place_of c))) in
        match RAMBuild rb g ord "" lower (tokenizer_of c) words with
        | Ret ix => Ret (mkEntry (InMemory ix words) (tokenizer_of c))
        | Fail e => Fail (ErrWrapped e)
        | Panic => Panic
        | NoFuel => NoFuel
        end
    end
  else
    match open_disc g k (job_of c) with
    | Ret (recs, ix) => Ret (mkEntry (OnDisc ix recs) (tokenizer_of c))
    | Fail e => Fail (ErrWrapped e)
    | Panic => Panic
    | NoFuel => NoFuel
    end.
(* app.go:117-121 with service.go:78-91: what was there under the name is replaced *)
Fixpoint add_all_indexes (k : disk) (cs : list IndexDescription) (service : list (bytes * entry)) : res (list (bytes * entry)) :=
  match cs with
  | [] => Ret service
  | c :: cs' => e <- open_index k c ;; add_all_indexes k cs' (mset beqb service (i_name c) e)
  end.
(* app.go:110-124 *)
Definition configure_service (k : disk) (configPath : bytes) (service : list (bytes * entry)) : res (list (bytes * entry)) :=
  cs <- read_configs k configPath ;; add_all_indexes k cs service.
End Deploy.

Section Answers.
Context (L : cdblib) (rb : roaring) (srt : list iter -> list iter) (lower : bytes -> bytes) (pf : bytes -> option f64) (bf : bool) (ftext : f64 -> bytes) (etext : err -> bytes)
  (service : list (bytes * entry)).
(* service.go:105-139: the values are looked up in the dictionary that was opened *)
Definition served_suggest (dict : bytes) (c : config) (sched : list choice) : option (res (list (f64 * bytes))) :=
  match mget beqb service dict with
  | None => Some (Fail (ErrOther 71))
  | Some (mkEntry (InMemory ix words) d) => ServiceSuggest rb srt ix words lower d (c_query c) (c_similarity c) (c_metric c) (c_topK c) sched
  | Some (mkEntry (OnDisc ix recs) d) => DiscSuggest L rb srt ix recs lower d (c_query c) (c_similarity c) (c_metric c) (c_topK c) sched
  end.
(* service.go:142-173 *)
Definition served_autocomplete (dict query : bytes) (limit : Z) (sched : list achoice) : option (res (list (f64 * bytes))) :=
  match mget beqb service dict with
  | None => Some (Fail (ErrOther 71))
  | Some (mkEntry (InMemory ix words) d) => ServiceAutocomplete rb srt ix words lower d query limit sched
  | Some (mkEntry (OnDisc ix recs) d) => DiscAutocomplete L rb srt ix recs lower d query limit sched
  end.
(* suggest_handler.go:43-76 *)
Definition suggest_request (dict query topK_val metric_val similarity_val : bytes) (sched : list choice) : option Handlers.outcome :=
  match buildSearchConfig pf query topK_val metric_val similarity_val with
  | Ret c => Handlers.when_done (Handlers.respond etext (MarshalItems bf ftext)) (served_suggest dict c sched)
  | Fail e => Some (Handlers.http_error etext e 400)
  | _ => Some Handlers.Lost
  end.
(* autocomplete_handler.go:18-52 *)
Definition autocomplete_request (dict query topK_val : bytes) (sched : list achoice) : option Handlers.outcome :=
  match autocomplete_limit topK_val with
  | Ret limit => Handlers.when_done (Handlers.respond etext (MarshalItems bf ftext)) (served_autocomplete dict query limit sched)
  | Fail e => Some (Handlers.http_error etext e 400)
  | _ => Some Handlers.Lost
  end.
End Answers.
