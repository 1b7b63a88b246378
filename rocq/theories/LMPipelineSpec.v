(** Specification vocabulary for C70. *)
From Verif Require Import Base Float64 Text AnalysisSpec ScannerSpec NGram NGramSpec.
Local Open Scope Z_scope.

(** The words of a text: the maximal runs of alphabet characters of the lower-cased text. *)
Definition text_words (lowr : Z -> Z) (has : Z -> bool) (text : bytes) (ws : list bytes) : Prop :=
  exists rs, words_of has (runes (Trim (ToLower lowr text))) rs /\ ws = map (fun w => concat (map snd w)) rs.
(** The sentences of a text: the words of the pieces between separators, up to the first
    piece that does not fit into the scanner's buffer. *)
Definition text_sentences (lowr : Z -> Z) (has sep : Z -> bool) (text : bytes) (ss : list (list bytes)) : Prop :=
  Forall2 (fun p s => text_words lowr has (fst p) s) (while piece_fits (pieces sep text)) ss.
(** The runs of n consecutive words. *)
Definition word_runs {A} (n : nat) (s : list A) : list (list A) := map (fun i => firstn n (skipn i s)) (seq 0 (length s + 1 - n)).
(** The back-off score of an n-gram whose prefix of length i occurs [occ i] times in a corpus
    of [c0] words: the longest prefix that occurs relative to the next shorter one, with a
    discount per dropped word. *)
Fixpoint longest (occ : nat -> Z) (n : nat) : nat := match n with O => O | S m => if 0 <? occ n then n else longest occ m end.
Definition backoff (flog : f64 -> f64) (discount : nat -> f64) (unknown : f64) (c0 : Z) (occ : nat -> Z) (n : nat) : f64 :=
  match longest occ n with
  | O => unknown
  | j => flog (fdiv (fmul (discount (n - j)%nat) (of_int (occ j))) (of_int (if (j =? 1)%nat then c0 else occ (j - 1)%nat)))
  end.
