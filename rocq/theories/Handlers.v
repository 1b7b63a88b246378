(** Model of the HTTP handlers: internal/suggest/api and internal/spellchecker/api.
    Definitions only.

    A request is given by the values the router and the form parser extract from it.  Writing
    the response to the connection is assumed to succeed (the error branch of w.Write then
    sends nothing a client could still read). *)
From Coq Require Import String.
From Verif Require Import Base GoMap Float64 Metric Text Analysis Postings Index Merger TopK Suggest Autocomplete NGramIndex Http Json.
Local Open Scope Z_scope.

Record response := mkResp { r_status : Z; r_type : bytes; r_body : bytes }.
(* Lost: the handler, or a goroutine it started, panicked; nothing is sent.  The answer of a
   handler is None while it is still running. *)
Inductive outcome := Sent (r : response) | Lost.

Section Handlers.
(* pf: strconv.ParseFloat; ftext, bf: see Json.v; etext: the texts of error values *)
Context (pf : bytes -> option f64) (bf : bool) (ftext : f64 -> bytes) (etext : err -> bytes).

(* net/http.Error: the text and a newline *)
Definition http_error (e : err) (code : Z) : outcome := Sent (mkResp code (bs "text/plain; charset=utf-8") (etext e ++ [10])).
(* suggest_handler.go:57-75, autocomplete_handler.go:33-51, predict_handler.go:40-58: from the
   result of the search to the response *)
Definition respond {A} (marshal : A -> res bytes) (r : res A) : outcome :=
  match r with
  | Ret items =>
      match marshal items with
      | Ret data => Sent (mkResp 200 (bs "application/json") data)
      | Fail e => http_error e 500
      | _ => Lost
      end
  | Fail e => http_error e 500
  | _ => Lost
  end.
Definition when_done {A} (f : A -> outcome) (o : option A) : option outcome := match o with Some r => Some (f r) | None => None end.

(* what the service holds under a name (service.go:19-24): the two maps together, as C44
   proves them to be installed; the description is in the index's tokenizers *)
Record loaded := mkLoaded { l_index : list (option inverted); l_words : list bytes; l_conf : tokconf }.
Context (rb : roaring) (srt : list iter -> list iter) (lower : bytes -> bytes) (service : list (bytes * loaded)).
(* service.go:105-139 *)
Definition SvcSuggest (dict : bytes) (c : config) (sched : list choice) : option (res (list (f64 * bytes))) :=
  match mget beqb service dict with
  | None => Some (Fail (ErrOther 71))
  | Some l => ServiceSuggest rb srt (l_index l) (l_words l) lower (l_conf l) (c_query c) (c_similarity c) (c_metric c) (c_topK c) sched
  end.
(* service.go:142-173 *)
Definition SvcAutocomplete (dict query : bytes) (limit : Z) (sched : list achoice) : option (res (list (f64 * bytes))) :=
  match mget beqb service dict with
  | None => Some (Fail (ErrOther 71))
  | Some l => ServiceAutocomplete rb srt (l_index l) (l_words l) lower (l_conf l) query limit sched
  end.
(* service.go:94-102, the range over the map in the order [ord] *)
Definition GetDictionaries (ord : list (bytes * loaded) -> list (bytes * loaded)) : list bytes := map fst (ord service).

(* suggest_handler.go:43-76 *)
Definition suggest_handle (dict query topK_val metric_val similarity_val : bytes) (sched : list choice) : option outcome :=
  match buildSearchConfig pf query topK_val metric_val similarity_val with
  | Ret c => when_done (respond (MarshalItems bf ftext)) (SvcSuggest dict c sched)
  | Fail e => Some (http_error e 400)
  | _ => Some Lost
  end.
(* autocomplete_handler.go:18-52 *)
Definition autocomplete_handle (dict query topK_val : bytes) (sched : list achoice) : option outcome :=
  match autocomplete_limit topK_val with
  | Ret limit => when_done (respond (MarshalItems bf ftext)) (SvcAutocomplete dict query limit sched)
  | Fail e => Some (http_error e 400)
  | _ => Some Lost
  end.
(* dict_handler.go:16-30 *)
Definition dict_handle (ord : list (bytes * loaded) -> list (bytes * loaded)) : outcome := respond (MarshalStrings bf) (Ret (GetDictionaries ord)).
(* predict_handler.go:19-59; [predict] is SpellChecker.Predict (Spell.v) *)
Definition predict_handle (predict : bytes -> Z -> f64 -> option (res (list bytes))) (query topK_val similarity_val : bytes) : option outcome :=
  match predict_params pf topK_val similarity_val with
  | Ret (topK, similarity) => when_done (respond (MarshalStrings bf)) (predict query topK similarity)
  | Fail e => Some (http_error e 400)
  | _ => Some Lost
  end.
(* home_handler.go:13-30 of both programs *)
Definition home_handle (project : bytes) : outcome := respond (fun v => MarshalHome bf project v) (Ret (bs "v1")).
(* reindex_handler.go:11-23; [job]: what the reindex job returned *)
Definition reindex_handle (job : option err) : outcome :=
  match job with Some e => http_error e 500 | None => Sent (mkResp 200 (bs "text/plain") (bs "OK")) end.
End Handlers.
(* cmd/suggest/cmd/indexer.go:213-233, after the response was read *)
Definition reindex_accepted (r : response) : bool := beqb (r_body r) (bs "OK").
