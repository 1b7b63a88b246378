(** Model of internal/spellchecker/dep/spellchecker.go:13-51 and of the dictionary that
    pkg/lm/binary.go:100-113 writes for it.  Definitions only.

    Simplified: the language model looks its words up in the list of the dictionary's values
    (the records' keys are their positions, see C74); files are what was written to them. *)
From Coq Require Import String.
From Verif Require Import Base GoMap Store Postings Index Float64 Text Analysis LMText Suggest NGram Mph GoogleNGram NGramIndex CdbDict Spell.
Local Open Scope Z_scope.

(* dictionary/helpers.go:54-95 over the words of the 1-gram file (lm/binary.go:100-198) *)
Definition WriteDictionary (L : cdblib) (words : list bytes) : res (list record) :=
  match lines_iterate (put_step L) 0 words [] with
  | Fail e => Fail (ErrWrapped e)
  | r => r
  end.
(* ngram_index_builder.go:27-35, 60-83 over a cdb dictionary *)
Definition RAMBuildCdb (L : cdblib) (rb : roaring) (g : gobcodec) (ord : Z -> index_map -> index_map) (name : string)
    (lower : bytes -> bytes) (d : tokconf) (recs : list record) : res (list (option inverted)) :=
  ops <- IndexCdb L rb g ord name lower d recs ;;
  IndexRead g (ram_open (ram_run NewRAMDirectory ops)) (documentListFile name) (headerFile name).
(* dep/spellchecker.go:13-51; spellchecker.go:24-37.  [lowr], [has]: the tokenizer of the
   model's words (lm/config.go:27-29); [d]: the index description's *)
Definition BuildSpellChecker (L : cdblib) (rb : roaring) (g : gobcodec) (ord : Z -> index_map -> index_map) (name : string)
    (lowr : Z -> Z) (has : Z -> bool) (first last : bytes) (order : Z) (d : tokconf) (recs : list record) (binary : bytes) : res spellchecker :=
  l <- RetrieveLMFromBinary order first last (map snd recs) binary ;;
  ix <- RAMBuildCdb L rb g ord name (ToLower lowr) d recs ;;
  Ret (mkSpell ix (SuggestTokenize (ToLower lowr) d) (AutocompleteTokenize (ToLower lowr) d) (GetWordID l) (l_lm l) (LMTokenize lowr has) (CdbGet L recs)).
