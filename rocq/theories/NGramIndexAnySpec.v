(** Specification vocabulary for C94 and C95: dictionaries whose entries may repeat n-grams. *)
From Verif Require Import Base Text AnalysisSpec Analysis Index IndexSpec NGramIndexSpec.
Local Open Scope Z_scope.

(** how many n-grams the entries have together *)
Definition total_grams (lowr : Z -> Z) (d : tokconf) (words : list bytes) : Z := fold_right (fun w n => zlen (entry_grams lowr d w) + n) 0 words.
(** Any dictionary: below 2^32 entries and n-grams, below 2^26 n-grams per entry, the first entry
    not without any. *)
Definition dictionary_any (lowr : Z -> Z) (d : tokconf) (words : list bytes) : Prop :=
  1 <= t_n d <= 8 /\ zlen words < 2 ^ 32 /\ total_grams lowr d words < 2 ^ 32 /\
  (exists w ws, words = w :: ws /\ entry_grams lowr d w <> []) /\ (forall w, In w words -> zlen (entry_grams lowr d w) + 1 < 2 ^ 26).
(** Dictionaries an index is built for: distinct n-grams in each entry, or any. *)
Definition indexable (lowr : Z -> Z) (d : tokconf) (words : list bytes) : Prop := dictionary_ok lowr d words \/ dictionary_any lowr d words.
(** how often an entry has its most frequent n-gram *)
Definition repeats (ts : list bytes) : nat := fold_right (fun t n => Nat.max (token_times t ts) n) 0%nat ts.
