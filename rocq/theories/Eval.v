(** Model of the three "eval" commands, which answer the lines of standard input:
    cmd/suggest/cmd/eval.go:31-105, cmd/spellchecker/cmd/eval.go:35-80 and
    cmd/language-model/cmd/eval.go:19-67.  Definitions only.

    Simplified: what is printed is taken as a list of prompts and answers, an answer being the
    values that are formatted (without the time that is printed with them); a call that never
    returns leaves the session without a status. *)
From Verif Require Import Base GoMap Text Analysis Store Postings Merger Index Float64 Metric TopK Suggest NGram GoogleNGram LMText Spell Scanner Http NGramIndex Handlers.
Local Open Scope Z_scope.

Inductive event (A : Type) := Prompt | Answer (a : A).
Arguments Prompt {A}.
Arguments Answer {A}.

Section Session.
(* [prep]: what is asked for a line, if anything; [ask i q]: the i-th question *)
Context {Q A : Type} (prep : bytes -> res (option Q)) (ask : nat -> Q -> option (res A)) (chunk : nat -> nat).
(* suggest eval.go:45-77, spellchecker eval.go:55-79, language-model eval.go:47-66 *)
Fixpoint session (fuel : nat) (i : nat) (s : scanner) : list (event A) * option (res unit) :=
  match fuel with
  | O => ([], Some NoFuel)
  | S f =>
      match step ScanLines chunk s with
      | Token t s' =>
          match prep t with
          | Ret None => let '(o, r) := session f i s' in (Prompt :: o, r)
          | Ret (Some q) =>
              match ask i q with
              | Some (Ret a) => let '(o, r) := session f (S i) s' in (Answer a :: Prompt :: o, r)
              | Some (Fail e) => ([], Some (Fail e))
              | Some Panic => ([], Some Panic)
              | Some NoFuel => ([], Some NoFuel)
              | None => ([], None)
              end
          | Fail e => ([], Some (Fail e))
          | Panic => ([], Some Panic)
          | NoFuel => ([], Some NoFuel)
          end
      | More s' => session f i s'
      | Done => ([], Some (Ret tt))
      | Stop e => ([], Some (Fail e))
      | Panics => ([], Some Panic)
      end
  end.
Definition evaluate (fuel : nat) (stdin : bytes) : list (event A) * option (res unit) :=
  let '(o, r) := session fuel 0 (NewScanner stdin) in (Prompt :: o, r).
End Session.

(* unicode.IsSpace *)
Definition IsSpace (r : Z) : bool :=
  (9 <=? r) && (r <=? 13) || (r =? 32) || (r =? 133) || (r =? 160) || (r =? 5760) || (8192 <=? r) && (r <=? 8202)
  || (r =? 8232) || (r =? 8233) || (r =? 8239) || (r =? 8287) || (r =? 12288).
Fixpoint drop_space (l : list (Z * bytes)) : list (Z * bytes) :=
  match l with (r, b) :: t => if IsSpace r then drop_space t else l | [] => [] end.
(* strings.TrimSpace *)
Definition TrimSpace (s : bytes) : bytes := concat (map snd (rev (drop_space (rev (drop_space (runes s)))))).

(* suggest eval.go:46-51 *)
Definition suggest_prep (line : bytes) : res (option bytes) :=
  let query := TrimSpace line in if zlen query =? 0 then Ret None else Ret (Some query).
(* spellchecker eval.go:58-63 *)
Definition spell_prep (line : bytes) : res (option bytes) := if zlen line =? 0 then Ret None else Ret (Some line).
(* language-model eval.go:48-53 *)
Definition lm_prep (lowr : Z -> Z) (has : Z -> bool) (line : bytes) : res (option (list bytes)) :=
  sentence <- LMTokenize lowr has line ;; if zlen sentence =? 0 then Ret None else Ret (Some sentence).

(* suggest eval.go:81-105: the descriptions with the name are added in order; [load]: what
   AddIndexByDescription installs *)
Section Configure.
Context {D : Type} (name_of : D -> bytes) (load : D -> res loaded).
Fixpoint add_named (dict : bytes) (ds : list D) (service : list (bytes * loaded)) : res (list (bytes * loaded)) :=
  match ds with
  | [] => Ret service
  | d :: ds' =>
      if negb (beqb (name_of d) dict) then add_named dict ds' service
      else l <- load d ;; add_named dict ds' (mset beqb service (name_of d) l)
  end.
Definition configureService (dict : bytes) (configs : res (list D)) : res (list (bytes * loaded)) :=
  match configs with
  | Ret ds => service <- add_named dict ds [] ;; if negb (zlen (map fst service) =? 1) then Fail (ErrOther 81) else Ret service
  | Fail e => Fail (ErrWrapped e)
  | Panic => Panic
  | NoFuel => NoFuel
  end.
End Configure.

Section Commands.
Context (rb : roaring) (srt : list iter -> list iter) (lowr : Z -> Z) (chunk : nat -> nat) (fuel : nat).
(* suggest eval.go:53-65; [scheds i]: the schedule of the i-th search *)
Definition suggest_ask (service : list (bytes * loaded)) (dict : bytes) (topK : Z) (similarity : f64) (scheds : nat -> list choice) (i : nat) (query : bytes) : option (res (list (f64 * bytes))) :=
  match NewSearchConfig query topK Cosine similarity with
  | Ret c => SvcSuggest rb srt (ToLower lowr) service dict c (scheds i)
  | Fail e => Some (Fail e)
  | Panic => Some Panic
  | NoFuel => Some NoFuel
  end.
Definition suggest_eval {D} (name_of : D -> bytes) (load : D -> res loaded) (dict : bytes) (configs : res (list D)) (topK : Z) (similarity : f64) (scheds : nat -> list choice) (stdin : bytes)
  : list (event (list (f64 * bytes))) * option (res unit) :=
  match configureService name_of load dict configs with
  | Ret service => evaluate suggest_prep (suggest_ask service dict topK similarity scheds) chunk fuel stdin
  | Fail e => ([], Some (Fail e))
  | Panic => ([], Some Panic)
  | NoFuel => ([], Some NoFuel)
  end.
(* spellchecker eval.go:26-29, :55-79 *)
Definition spell_eval (flog : f64 -> f64) (stable : (cand -> f64) -> list cand -> list cand) (sp : spellchecker) (scheds : nat -> list lchoice) (scheds' : nat -> list choice) (stdin : bytes) :=
  evaluate spell_prep (fun i sentence => Predict flog rb srt stable (scheds i) (scheds' i) sp sentence 5 f_half) chunk fuel stdin.
(* language-model eval.go:44-66 *)
Definition lm_eval (flog : f64 -> f64) (has : Z -> bool) (l : lmodel) (stdin : bytes) :=
  evaluate (lm_prep lowr has) (fun _ sentence => match GoogleNGram.ScoreSentence flog l sentence with
                                                 | Ret x => Some (Ret (sentence, x)) | Fail e => Some (Fail e) | Panic => Some Panic | NoFuel => Some NoFuel end) chunk fuel stdin.
End Commands.
