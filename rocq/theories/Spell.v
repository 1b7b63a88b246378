(** Model of pkg/spellchecker: collector.go, scorer.go, spellchecker.go.  Definitions only.

    Autocomplete's goroutines (pkg/suggest/autocomplete.go) are those of Autocomplete.v with
    the language model's collectors in place of the first-k ones: the state of a collector is
    its queue.  As there, the scheduler picks the goroutine that moves. *)
From Verif Require Import Base GoMap Store Postings Merger Index Float64 Metric Heap TopK Suggest NGram GoogleNGram.
Local Open Scope Z_scope.

(** ** scorer.go *)
(* scorer.go:15-41; a nil next gives the dummy scorer *)
Definition newScorer (flog : f64 -> f64) (next : option scorerNext) : Z -> res f64 :=
  match next with None => fun _ => Ret UnknownWordScore | Some s => ScoreNext flog s end.

(** ** collector.go:61-78 Collect; the state is the collector's queue.  The scorer is never nil: newScorer's
    result is not, and Autocomplete does not call SetScorer *)
Definition lm_collect (score : Z -> res f64) (s : res queue) (item : Z) : option err * res queue :=
  (None, q <- s ;; x <- score (Merger.Position item) ;; Add q (Merger.Position item) x).

Inductive lwst :=
| LSearch (size : Z)               (* started *)
| LLock (size : Z) (q : queue)     (* searched; waits for the lock *)
| LCollect (size : Z) (q : queue)  (* holds the lock *)
| LUnlock (size : Z)               (* holds the lock, collected *)
| LDone (size : Z)                 (* returned nil *)
| LFail (size : Z) (e : err).      (* returned an error *)
Inductive lpst := LLoop (size : Z) | LWait.
Record lst := mkL { l_prod : lpst; l_ws : list lwst; l_q : queue; l_locked : bool }.
Inductive lproc := LRunning (s : lst) | LFinished (r : res (list cand)) | LCrashed.
Inductive lchoice := LProd | LWork (i : nat).

Section Autocomplete.
Context (rb : roaring) (srt : list iter -> list iter).
Context (ix : list (option inverted)) (terms : list term) (score : Z -> res f64) (topK : Z).

(* autocomplete.go:41-45; collector.go:18-24: NewTopKQueue panics for a negative topK *)
Definition lstart : lproc :=
  match NewTopKQueue topK with
  | Ret q => LRunning (mkL (LLoop (zlen terms)) [] q false)
  | _ => LCrashed
  end.
(* autocomplete.go:57-59, collector.go:34-39 *)
Definition lsearch (iv : inverted) : res queue :=
  match Search rb (CPMerge (lm_collect score) srt) iv terms (zlen terms) (NewTopKQueue topK) with
  | (Ret _, r) => r
  | (Fail e, Ret _) => Fail (ErrWrapped e)
  | (Fail _, _) => Panic
  | (Panic, _) => Panic
  | (NoFuel, _) => NoFuel
  end.
Definition lset (s : lst) (i : nat) (w : lwst) : lst := mkL (l_prod s) (set_nth_opt i w (l_ws s)) (l_q s) (l_locked s).
Definition lexec_worker (s : lst) (i : nat) (w : lwst) : option lproc :=
  match w with
  | LSearch b =>
      match IndicesGet ix b with
      | None => Some LCrashed
      | Some iv =>
          match lsearch iv with
          | Ret q => Some (LRunning (lset s i (LLock b q)))
          | Fail e => Some (LRunning (lset s i (LFail b e)))
          | _ => Some LCrashed
          end
      end
  | LLock b q =>                                            (* autocomplete.go:61 *)
      if l_locked s then None else Some (LRunning (mkL (l_prod s) (set_nth_opt i (LCollect b q) (l_ws s)) (l_q s) true))
  | LCollect b q =>                                         (* :64-66, collector.go:42-54 *)
      match Merge (l_q s) q with
      | Ret g => Some (LRunning (mkL (l_prod s) (set_nth_opt i (LUnlock b) (l_ws s)) g (l_locked s)))
      | _ => Some LCrashed
      end
  | LUnlock b => Some (LRunning (mkL (l_prod s) (set_nth_opt i (LDone b) (l_ws s)) (l_q s) false))
  | LDone _ | LFail _ _ => None
  end.
Definition lgone (w : lwst) : bool := match w with LDone _ | LFail _ _ => true | _ => false end.
Fixpoint lfirst_error (ws : list lwst) : option err :=
  match ws with
  | [] => None
  | LFail _ e :: _ => Some e
  | _ :: t => lfirst_error t
  end.
Definition lexec_prod (s : lst) : option lproc :=
  match l_prod s with
  | LLoop b =>                                              (* autocomplete.go:47-56 *)
      if b <? zlen ix then
        Some (LRunning (mkL (LLoop (b + 1)) (match IndicesGet ix b with None => l_ws s | Some _ => l_ws s ++ [LSearch b] end) (l_q s) (l_locked s)))
      else Some (LRunning (mkL LWait (l_ws s) (l_q s) (l_locked s)))
  | LWait =>                                                (* :72-76 *)
      if forallb lgone (l_ws s)
      then Some (LFinished (match lfirst_error (l_ws s) with Some e => Fail e | None => Ret (fst (GetCandidates (l_q s))) end))
      else None
  end.
Definition lexec (c : lchoice) (p : lproc) : option lproc :=
  match p with
  | LRunning s =>
      match c with
      | LProd => lexec_prod s
      | LWork i => match nth_error (l_ws s) i with Some w => lexec_worker s i w | None => None end
      end
  | _ => None
  end.
Fixpoint lrun (sched : list lchoice) (p : lproc) : option lproc :=
  match sched with
  | [] => Some p
  | c :: t => match lexec c p with Some p' => lrun t p' | None => None end
  end.
End Autocomplete.

(** ** spellchecker.go *)
(* :134-151 merge *)
Fixpoint merge (a b : list cand) : list cand :=
  match b with
  | [] => a
  | y :: b' => merge (if existsb (fun x => Key x =? Key y) a then a else a ++ [y]) b'
  end.
(* :110-124 retrieveValues; [value] is dict.Get *)
Fixpoint retrieveValues (value : Z -> res bytes) (l : list cand) : res (list bytes) :=
  match l with
  | [] => Ret []
  | c :: t => v <- value (Key c) ;; vs <- retrieveValues value t ;; Ret (v :: vs)
  end.
(* :95-107 scorerNext; [get] is the model's GetWordID *)
Definition scorer_next (get : bytes -> res Z) (lm : languageModel) (seq : list bytes) : res (option scorerNext) :=
  ids <- get_all get seq ;;
  if 0 <? zlen ids then LMNext lm ids else Ret None.
(** A spellchecker: the index and its two tokenizers for a word, the model, the words'
    tokenizer and the dictionary (:17-37). *)
Record spellchecker := mkSpell {
  sp_index : list (option inverted); sp_suggest : bytes -> res (list term); sp_complete : bytes -> res (list term);
  sp_get : bytes -> res Z; sp_model : languageModel; sp_tokenize : bytes -> res (list bytes); sp_value : Z -> res bytes }.
Section Predict.
Context (flog : f64 -> f64) (rb : roaring) (srt : list iter -> list iter).
(* sort.SliceStable of the candidates with "the key of a is greater than the key of b" as less *)
Context (stable : (cand -> f64) -> list cand -> list cand).
(* the keys; ScoreNext of every candidate, which panics if one does *)
Fixpoint keys_of (score : Z -> res f64) (l : list cand) : res unit :=
  match l with [] => Ret tt | c :: t => _ <- score (Key c) ;; keys_of score t end.
Definition key_of (score : Z -> res f64) (c : cand) : f64 := match score (Key c) with Ret x => x | _ => S754_nan end.
(* :127-131 *)
Definition sortCandidates (score : Z -> res f64) (l : list cand) : res (list cand) :=
  _ <- keys_of score l ;; Ret (stable (key_of score) l).
(** The outcome of the searches under a schedule: None while they have not ended. *)
Definition completed (sched : list lchoice) (sp : spellchecker) (terms : list term) (score : Z -> res f64) (topK : Z) : option (res (list cand)) :=
  match lrun rb srt (sp_index sp) terms score topK sched (lstart terms topK) with
  | Some (LFinished r) => Some r
  | Some LCrashed => Some Panic
  | _ => None
  end.
Definition suggested (sched : list choice) (sp : spellchecker) (tokens : list term) (similarity : f64) (topK : Z) : option (res (list cand)) :=
  match run rb srt (sp_index sp) tokens Cosine similarity topK sched (start (sp_index sp) tokens Cosine similarity topK) with
  | Some (Finished r) => Some r
  | Some Crashed => Some Panic
  | _ => None
  end.
(* :78-92 what is done with the completions *)
Definition finish_prediction (sp : spellchecker) (next : option scorerNext) (topK : Z) (candidates : list cand) : res (list bytes) :=
  candidates <- (match next with Some _ => sortCandidates (newScorer flog next) candidates | None => Ret candidates end) ;;
  candidates <- (if topK <? zlen candidates then slice candidates 0 (topK + 1) else Ret candidates) ;;
  retrieveValues (sp_value sp) candidates.
(* :40-92.  [sched] and [sched'] are the schedules of the two searches *)
Definition Predict (sched : list lchoice) (sched' : list choice) (sp : spellchecker) (query : bytes) (topK : Z) (similarity : f64) : option (res (list bytes)) :=
  match sp_tokenize sp query with
  | Ret tokens =>
      match rev tokens with
      | [] => Some (Ret [])
      | word :: seq =>
          match scorer_next (sp_get sp) (sp_model sp) (rev seq) with
          | Ret next =>
              match sp_complete sp word with
              | Ret terms =>
                  match completed sched sp terms (newScorer flog next) topK with
                  | Some (Ret candidates) =>
                      if zlen candidates <? topK then
                        match sp_suggest sp word with
                        | Ret tokens' =>
                            match suggested sched' sp tokens' similarity topK with
                            | Some (Ret fuzzy) => Some (finish_prediction sp next topK (merge candidates fuzzy))
                            | Some (Fail e) => Some (Fail e)
                            | Some Panic => Some Panic
                            | Some NoFuel => Some NoFuel
                            | None => None
                            end
                        | _ => Some Panic
                        end
                      else Some (finish_prediction sp next topK candidates)
                  | Some (Fail e) => Some (Fail e)
                  | Some Panic => Some Panic
                  | Some NoFuel => Some NoFuel
                  | None => None
                  end
              | _ => Some Panic
              end
          | Fail e => Some (Fail e)
          | Panic => Some Panic
          | NoFuel => Some NoFuel
          end
      end
  | _ => Some Panic
  end.
End Predict.
