(** Specification of tokenization, in terms of characters.  [chars] splits a string
    as Go's range does: valid UTF-8 sequences, and every other byte on its own. *)
From Verif Require Import Base GoMap Text.

(** the substrings of n consecutive characters, in order *)
Definition windows (n : nat) (cs : list bytes) : list bytes :=
  map (fun i => concat (firstn n (skipn i cs))) (seq 0 (length cs - n + 1)).
(** the first occurrences of the elements of l, in order *)
Definition first_occurrences (l : list bytes) : list bytes :=
  map (fun i => nth i l []) (filter (fun i => negb (existsb (beqb (nth i l [])) (firstn i l))) (seq 0 (length l))).

(** [words_of has rs ws]: ws are the maximal runs of characters with [has] in rs. *)
Inductive words_of (has : Z -> bool) : list (Z * bytes) -> list (list (Z * bytes)) -> Prop :=
| wo_end : words_of has [] []
| wo_sep c cs ws : has (fst c) = false -> words_of has cs ws -> words_of has (c :: cs) ws
| wo_word w cs ws : w <> [] -> Forall (fun c => has (fst c) = true) w ->
    (forall c cs', cs = c :: cs' -> has (fst c) = false) -> words_of has cs ws -> words_of has (w ++ cs) (w :: ws).

(** a byte string without invalid sequences: every decoded character is a valid one *)
Definition well_formed (s : bytes) : Prop := Forall (fun rb => ~ (fst rb = RuneError /\ length (snd rb) = 1%nat)) (runes s).
