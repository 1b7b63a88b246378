(** Specification vocabulary for C98. *)
From Coq Require Import String Permutation.
From Verif Require Import Base Float64 Text JsonSpec AnalysisSpec NGram NGramSpec CountTrieSpec GoogleNGram GoogleProofs P_NGram TrainedSpec LMPipelineSpec Paths Config ConfigSpec Indexer LMDeploy.
Local Open Scope Z_scope.

(** The file says that the model is [c]. *)
Definition model_says (k : disk) (configPath : bytes) (c : ModelConfig) : Prop :=
  exists text j, k configPath = Some (CText text) /\ Forall is_byte text /\ parse text = Some j /\ plain_config j /\ model_described (Dir configPath) j = Some c.
(** The files of a model, and that they can be written. *)
Definition files_of_model (c : ModelConfig) : list bytes := model_files (model_place c) (Z.to_nat (m_order c)).
Definition model_writable (O : outside) (c : ModelConfig) : Prop :=
  o_dir O (GetIndexPath (model_place c)) = true /\ forall f, In f (files_of_model c) -> o_create O f = true.
(** A text a model can be trained on: words without space, tab and newline, separators without
    U+FFFD, symbols that are words, an order of 1 to 255, sentences [sentences], lines of n-grams
    below 65536 bytes, at least one word and fewer than 2^28. *)
Record trainable (lowr : Z -> Z) (has sep : Z -> bool) (first last : bytes) (order : Z) (text : bytes) (sentences : list (list bytes)) : Prop := {
  tn_sep : sep RuneError = false; tn_words : has 32 = false /\ has 9 = false /\ has 10 = false;
  tn_first : first <> [] /\ plain first; tn_last : last <> [] /\ plain last; tn_order : 1 <= order <= 255;
  tn_text : text_sentences lowr has sep text sentences;
  tn_short : exists L, (forall w, In w (first :: last :: concat sentences) -> zlen w <= L) /\ order * (L + 1) + 21 < 65536;
  tn_some : exists s, In s sentences /\ s <> []; tn_size : wrapped_words sentences < 2 ^ 28 }.
(** The file of the n-grams of [n] words: a line for each that occurs, with the number of its
    occurrences: the words with a space between them, a tab, the number, a newline. *)
Definition counts_file (first last : bytes) (sentences : list (list bytes)) (n : Z) (text : bytes) : Prop :=
  exists es : list (list bytes * Z), NoDup (map fst es) /\ (forall g c, In (g, c) es <-> zlen g = n /\ c = occurrences_in first last sentences g /\ 0 < c) /\
    text = flat_map (fun e => ngram_line (fst e) (snd e)) es.
(** The dictionary file of these words stays below 4 GB. *)
Definition words_fit (first last : bytes) (sentences : list (list bytes)) : Prop :=
  forall ws, NoDup ws -> (forall w, In w ws <-> 0 < occurrences_in first last sentences [w]) -> 2048 + fold_right (fun w n => 28 + zlen w + n) 0 ws < 2 ^ 32.
(** The score of a sentence: the sum, from the left, of the back-off scores of its runs of
    [order] words between the two symbols (as in C70). *)
Definition sentence_score (flog : f64 -> f64) (first last : bytes) (order : Z) (sentences : list (list bytes)) (s : list bytes) : f64 :=
  fold_left (fun a g => fadd a (backoff flog discount UnknownWordScore (wrapped_words sentences) (fun i => occurrences_in first last sentences (firstn i g)) (Z.to_nat order)))
            (word_runs (Z.to_nat order) (first :: s ++ [last])) (of_int 0).
