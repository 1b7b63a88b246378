(** Specification vocabulary for C60 and C68. *)
From Verif Require Import Base Text.
Local Open Scope Z_scope.

(** The maximal prefix of entries that satisfy [f]. *)
Fixpoint while {A} (f : A -> bool) (l : list A) : list A :=
  match l with [] => [] | x :: t => if f x then x :: while f t else [] end.

(** A text cut at its newlines; the last piece may be unterminated, and counts only when
    it is not empty. *)
Fixpoint cut_lines (t : bytes) (cur : bytes) : list bytes :=
  match t with
  | [] => match cur with [] => [] | _ => [cur] end
  | c :: t' => if c =? 10 then cur :: cut_lines t' [] else cut_lines t' (cur ++ [c])
  end.
Definition raw_lines (t : bytes) : list bytes := cut_lines t [].
(** A line as the user sees it: one carriage return before the newline is not part of it. *)
Definition without_cr (l : bytes) : bytes :=
  match rev l with 13 :: t => rev t | _ => l end.
(** At most 65535 bytes before the newline. *)
Definition line_fits (l : bytes) : bool := zlen l <? 65536.

(** A text cut at the separator characters: each piece with the width of the separator that
    ends it (1 for the last one, which nothing ends). *)
Fixpoint cut_text (sep : Z -> bool) (rs : list (Z * bytes)) (cur : bytes) : list (bytes * Z) :=
  match rs with
  | [] => [(cur, 1)]
  | (r, b) :: rs' => if sep r then (cur, zlen b) :: cut_text sep rs' [] else cut_text sep rs' (cur ++ b)
  end.
(** The non-empty pieces: the maximal separator-free parts of the text. *)
Definition pieces (sep : Z -> bool) (t : bytes) : list (bytes * Z) :=
  filter (fun p => negb (zlen (fst p) =? 0)) (cut_text sep (runes t) []).
(** Piece and separator fill at most 65536 bytes. *)
Definition piece_fits (p : bytes * Z) : bool := zlen (fst p) + snd p <=? 65536.
