(** Model of pkg/lm/tokenizer.go.  Definitions only. *)
From Verif Require Import Base Text Analysis.

(* tokenizer.go:26-31; [lowr] is unicode.ToLower, [has] the alphabet of the words *)
Definition LMTokenize (lowr : Z -> Z) (has : Z -> bool) (text : bytes) : res (list bytes) :=
  WordTokenize has (Trim (ToLower lowr text)).
