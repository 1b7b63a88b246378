(** Model of cmd/language-model: ngram-count.go, build-lm.go, eval.go.  Definitions only.
    Not modelled: flags, the reading of the configuration, opening files, the printing. *)
From Verif Require Import Base Float64 Text Analysis LMText Scanner CountTrie NGram GoogleNGram.
Local Open Scope Z_scope.

Fixpoint map_res {A B} (f : A -> res B) (l : list A) : res (list B) :=
  match l with [] => Ret [] | a :: t => b <- f a ;; bs <- map_res f t ;; Ret (b :: bs) end.

Section Pipeline.
(* the configuration (config.go:15-24): the alphabets of the words and of the separators, the symbols, the order *)
Context (lowr : Z -> Z) (has sep : Z -> bool) (first last : bytes) (order : Z).
(* ngram-count.go:39-63.  Retrieve gives the tokens of each scanned sentence; the word
   tokenizer's result is never nil, so Build sees all of them *)
Definition buildNGramsCount (chunk : nat -> nat) (fuel : nat) (text : bytes) : res trie :=
  sentences <- map_res (LMTokenize lowr has) (fst (scan_all (scanSentence sep) chunk fuel (NewScanner text))) ;;
  Ret (Build first last sentences order).
(* ngram-count.go:17-36, 63-77 *)
Definition ngram_count (ord : list Z -> list (Z * node) -> list (Z * node)) (chunk : nat -> nat) (fuel : nat) (text : bytes) : res (list bytes) :=
  t <- buildNGramsCount chunk fuel text ;; WriteNGrams ord order t.
(* build-lm.go:14-33 *)
Definition build_lm (srt : list (list Z) -> list (list Z)) (chunk : nat -> nat) (fuel mfuel : nat) (files : list bytes) : res (list bytes * bytes) :=
  StoreBinaryLMFromGoogleFormat srt chunk fuel mfuel order files.
(* eval.go:24-38 *)
Definition eval_load (words : list bytes) (binary : bytes) : res lmodel := RetrieveLMFromBinary order first last words binary.
(* eval.go:44-62, one line; None: no words, nothing is printed *)
Definition eval_line (flog : f64 -> f64) (l : lmodel) (line : bytes) : res (option f64) :=
  sentence <- LMTokenize lowr has line ;;
  if zlen sentence =? 0 then Ret None else score <- ScoreSentence flog l sentence ;; Ret (Some score).
End Pipeline.
