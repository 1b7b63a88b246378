(** Model of the commands of a language model over a file system:
    cmd/language-model/cmd/ngram-count.go:17-77, build-lm.go:14-33, eval.go:19-67 with
    pkg/lm/binary.go:17-113, and cmd/spellchecker/cmd/eval.go:14-80 with
    internal/spellchecker/dep/spellchecker.go:13-51.  Definitions only.

    Simplified: as in Indexer.v a file is text, a dictionary (its records) or broken; the
    dictionary's words are looked up in the list of its values (see C74). *)
From Coq Require Import String.
From Verif Require Import Base GoMap Float64 Store Postings Merger Index Text Analysis LMText Scanner CountTrie NGram Mph NGramStore GoogleNGram LMPipeline CdbDict SpellBuild Spell Paths Config Indexer Deploy TopK Suggest Eval.
Local Open Scope Z_scope.

(* utils/mmap_reader.go:24-45, store/fs_directory.go:59-79: a file that is not there cannot be
   opened, an empty one cannot be mapped *)
Definition open_input (k : disk) (p : bytes) : option bytes := match text_at k p with [] => None | b => Some b end.
(* the longest prefix of the files that can be opened *)
Fixpoint open_inputs (k : disk) (ps : list bytes) : list bytes :=
  match ps with [] => [] | p :: ps' => match open_input k p with Some b => b :: open_inputs k ps' | None => [] end end.
(* fmt.Errorf with %w *)
Definition wrapped {A} (r : res A) : res A := match r with Fail e => Fail (ErrWrapped e) | r => r end.
(* lm/config.go:14-24 *)
Definition model_place (c : ModelConfig) : place := mkPlace (m_name c) (m_source c) (m_output c) (m_base c).
Definition ngram_paths (c : ModelConfig) : list bytes := map (fun i => ngram_path (model_place c) (Z.of_nat i)) (seq 1 (Z.to_nat (m_order c))).
Fixpoint put_all (k : disk) (ps : list bytes) (cs : list content) : disk :=
  match ps, cs with p :: ps', c :: cs' => put_all (put k p c) ps' cs' | _, _ => k end.

Section Commands.
Context (lowr : Z -> Z) (asort : list alphabet -> list alphabet) (tord : list Z -> list (Z * node) -> list (Z * node)) (bsrt : list (list Z) -> list (list Z))
  (L : cdblib) (chunk : nat -> nat) (fuel mfuel : nat) (O : outside).
(* lm/config.go:27-29, :32-34 *)
Definition words_alphabet (c : ModelConfig) : Z -> bool := Has (CreateAlphabet asort (m_alphabet c)).
Definition separators_alphabet (c : ModelConfig) : Z -> bool := Has (CreateAlphabet asort (m_separators c)).
(* lm/config.go:65-90 *)
Definition read_config (k : disk) (configPath : bytes) : res ModelConfig := ReadConfig configPath (read_text k configPath).
(* ngram_writer.go:40-49: every file is created, and so emptied, before anything is written *)
Fixpoint create_all (k : disk) (ps : list bytes) : disk * bool :=
  match ps with
  | [] => (k, true)
  | p :: ps' => if o_create O p then create_all (put k p (CText [])) ps' else (k, false)
  end.
(* ngram-count.go:39-77; what a writer that failed leaves is broken *)
Definition count_model (k : disk) (c : ModelConfig) : disk * res unit :=
  let p := model_place c in
  match k (GetSourcePath p) with
  | None => (k, Fail (ErrWrapped (ErrOther 91)))
  | Some _ =>
  match buildNGramsCount lowr (words_alphabet c) (separators_alphabet c) (m_start c) (m_end c) (m_order c) chunk fuel (text_at k (GetSourcePath p)) with
  | Fail e => (k, Fail e)
  | Panic => (k, Panic)
  | NoFuel => (k, NoFuel)
  | Ret trie =>
  if negb (o_dir O (GetIndexPath p)) then (k, Fail (ErrWrapped (ErrOther 92)))
  else let '(k1, created) := create_all k (ngram_paths c) in
  if negb created then (k1, Fail (ErrWrapped (ErrOther 93)))
  else match WriteNGrams tord (m_order c) trie with
  | Ret files => (put_all k (ngram_paths c) (map CText files), Ret tt)
  | Fail e => (put_all k (ngram_paths c) (map (fun _ => CBroken) (ngram_paths c)), Fail (ErrWrapped e))
  | Panic => (put_all k (ngram_paths c) (map (fun _ => CBroken) (ngram_paths c)), Panic)
  | NoFuel => (put_all k (ngram_paths c) (map (fun _ => CBroken) (ngram_paths c)), NoFuel)
  end end end.
(* binary.go:17-57, :100-129: the 1-grams are opened, the dictionary is written and opened, the
   table is built, the n-grams are read one file after the other, the binary is written *)
Definition build_model (k : disk) (c : ModelConfig) : disk * res unit :=
  let p := model_place c in
  if negb (o_dir O (GetIndexPath p)) then (k, Fail (ErrWrapped (ErrOther 92)))
  else match open_input k (ngram_path p 1) with
  | None => (k, Fail (ErrWrapped (ErrOther 94)))
  | Some ones =>
  if negb (o_create O (GetDictionaryFile p)) then (k, Fail (ErrWrapped (ErrOther 95)))
  else let k1 := put k (GetDictionaryFile p) CBroken in
  match (words <- dictionaryWords chunk fuel ones ;; recs <- WriteDictionary L words ;; Ret (words, recs)) with
  | Fail e => (k1, Fail e)
  | Panic => (k1, Panic)
  | NoFuel => (k1, NoFuel)
  | Ret (words, recs) =>
  let k2 := put k (GetDictionaryFile p) (CDict recs) in
  match BuildMph mfuel bsrt words with
  | Fail e => (k2, Fail (ErrWrapped e))
  | Panic => (k2, Panic)
  | NoFuel => (k2, NoFuel)
  | Ret table =>
  match ReadNGrams (IndexerGet words table) chunk fuel (m_order c) (open_inputs k (ngram_paths c)) with
  | Fail e => (k2, Fail (ErrWrapped e))
  | Panic => (k2, Panic)
  | NoFuel => (k2, NoFuel)
  | Ret model =>
  if negb (o_create O (binary_path p)) then (k2, Fail (ErrWrapped (ErrOther 96)))
  else match StoreBinary model table [] with
  | Ret out => (put k2 (binary_path p) (CText out), Ret tt)
  | Fail e => (put k2 (binary_path p) CBroken, Fail (ErrWrapped e))
  | Panic => (put k2 (binary_path p) CBroken, Panic)
  | NoFuel => (put k2 (binary_path p) CBroken, NoFuel)
  end end end end end.
(* a command that reads its configuration first *)
Definition configured_command (f : disk -> ModelConfig -> disk * res unit) (configPath : bytes) (k : disk) : disk * res unit :=
  match read_config k configPath with
  | Ret c => f k c
  | Fail e => (k, Fail (ErrWrapped e))
  | Panic => (k, Panic)
  | NoFuel => (k, NoFuel)
  end.
(* ngram-count.go:17-36; build-lm.go:14-33 *)
Definition ngram_count_command : bytes -> disk -> disk * res unit := configured_command count_model.
Definition build_lm_command : bytes -> disk -> disk * res unit := configured_command build_model.

(* binary.go:60-97: the two files a model is loaded from *)
Definition open_model (k : disk) (c : ModelConfig) : res (list record * bytes) :=
  let p := model_place c in
  if negb (o_dir O (GetIndexPath p)) then Fail (ErrWrapped (ErrOther 92))
  else match k (GetDictionaryFile p) with
  | Some (CDict recs) => match open_input k (binary_path p) with Some b => Ret (recs, b) | None => Fail (ErrWrapped (ErrOther 97)) end
  | _ => Fail (ErrOther 98)
  end.
Definition load_model (k : disk) (c : ModelConfig) : res lmodel :=
  '(recs, b) <- open_model k c ;; RetrieveLMFromBinary (m_order c) (m_start c) (m_end c) (map snd recs) b.
(* cmd/language-model/cmd/eval.go:23-66 *)
Definition lm_eval_command (flog : f64 -> f64) (configPath : bytes) (k : disk) (stdin : bytes) : list (event (list bytes * f64)) * option (res unit) :=
  match (c <- wrapped (read_config k configPath) ;; l <- load_model k c ;; Ret (c, l)) with
  | Ret (c, l) => lm_eval lowr chunk fuel flog (words_alphabet c) l stdin
  | Fail e => ([], Some (Fail e))
  | Panic => ([], Some Panic)
  | NoFuel => ([], Some NoFuel)
  end.
End Commands.

(* cmd/spellchecker/cmd/eval.go:15-24 *)
Definition words_description : IndexDescription :=
  mkIndexDescription (bs "RAM") (bs "words") 3 [] [] [bs "english"; bs "russian"; bs "numbers"; bs "$^'"] (bs "$") (bs "^", bs "$") [].
Section Spellchecker.
Context (lowr : Z -> Z) (asort : list alphabet -> list alphabet) (L : cdblib) (rb : roaring) (g : gobcodec) (ord : Z -> index_map -> index_map) (O : outside).
(* dep/spellchecker.go:13-51 *)
Definition load_spellchecker (k : disk) (c : ModelConfig) : res spellchecker :=
  '(recs, b) <- open_model O k c ;;
  BuildSpellChecker L rb g ord "words" lowr (words_alphabet asort c) (m_start c) (m_end c) (m_order c) (tokenizer_of asort words_description) recs b.
(* cmd/spellchecker/cmd/eval.go:38-80 *)
Definition spell_eval_command (srt : list iter -> list iter) (chunk : nat -> nat) (fuel : nat) (flog : f64 -> f64) (stable : (cand -> f64) -> list cand -> list cand) (scheds : nat -> list lchoice) (scheds' : nat -> list choice)
    (configPath : bytes) (k : disk) (stdin : bytes) : list (event (list bytes)) * option (res unit) :=
  match (c <- wrapped (read_config k configPath) ;; load_spellchecker k c) with
  | Ret sp => spell_eval rb srt chunk fuel flog stable sp scheds scheds' stdin
  | Fail e => ([], Some (Fail e))
  | Panic => ([], Some Panic)
  | NoFuel => ([], Some NoFuel)
  end.
End Spellchecker.
