(** Specification vocabulary for C89. *)
From Coq Require Import List.
From Verif Require Import Base Text Scanner ScannerSpec Eval.
Local Open Scope Z_scope.

(** The answers among what was printed, and the number of prompts. *)
Fixpoint answers {A} (o : list (event A)) : list A :=
  match o with [] => [] | Prompt :: t => answers t | Answer a :: t => a :: answers t end.
Definition prompts {A} (o : list (event A)) : nat := length (filter (fun x => match x with Prompt => true | Answer _ => false end) o).
(** The lines that come in: those before the first of 65536 bytes or more. *)
Definition lines_in (stdin : bytes) : list bytes := map without_cr (while line_fits (raw_lines stdin)).
(** The questions of some lines: blank ones have none. *)
Fixpoint questions {Q} (asks : bytes -> option Q) (lines : list bytes) : list Q :=
  match lines with [] => [] | l :: t => match asks l with None => questions asks t | Some q => q :: questions asks t end end.
(** The code points with Unicode's property White_Space. *)
Definition white_space : list Z := [9; 10; 11; 12; 13; 32; 133; 160; 5760; 8192; 8193; 8194; 8195; 8196; 8197; 8198; 8199; 8200; 8201; 8202; 8232; 8233; 8239; 8287; 12288].
(** Trimmed of white space: nothing but white space is cut off, and no more can be. *)
Definition trimmed (s t : bytes) : Prop :=
  exists a m b, runes s = a ++ m ++ b /\ t = concat (map snd m) /\ (forall x, In x (a ++ b) -> In (fst x) white_space) /\
  (forall x l, m = x :: l -> ~ In (fst x) white_space) /\ (forall x l, m = l ++ [x] -> ~ In (fst x) white_space).
(** The question of a line of suggest eval and of spellchecker eval. *)
Definition asks_suggest (line : bytes) : option bytes := match TrimSpace line with [] => None | q => Some q end.
Definition asks_spell (line : bytes) : option bytes := match line with [] => None | q => Some q end.
