(** Specification vocabulary for C69. *)
From Verif Require Import Base.
Local Open Scope Z_scope.

(** The number of words of the sentences that are not empty, each with its start and end
    symbol. *)
Definition wrapped_words (sentences : list (list bytes)) : Z :=
  fold_right (fun s a => (match s with [] => 0 | _ => zlen s + 2 end) + a) 0 sentences.
