(** Specification vocabulary for C100. *)
From Verif Require Import Base Text AnalysisSpec Analysis Index IndexSpec NGramIndexSpec.
Local Open Scope Z_scope.

(** the number of n-grams of the entry that has most *)
Definition longest (lowr : Z -> Z) (d : tokconf) (words : list bytes) : Z := fold_right (fun w n => Z.max (zlen (entry_grams lowr d w)) n) 0 words.
