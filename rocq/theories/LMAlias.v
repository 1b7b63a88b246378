(** Model of the slices language_model.go and scorer_next.go work on: backing arrays,
    capacities, append.  Definitions only.  The values computed are those of NGram.v. *)
From Verif Require Import Base Float64 NGram.

(** ** Go slices of word ids *)
(** The arrays allocated so far. *)
Notation memory := (list (list Z)).
Record gslice := mkSlice { s_arr : nat; s_off : nat; s_len : nat; s_cap : nat }.
Definition array (m : memory) (a : nat) : list Z := nth a m [].
(** The elements of a slice. *)
Definition contents (m : memory) (s : gslice) : list Z := firstn (s_len s) (skipn (s_off s) (array m (s_arr s))).
(** Writing into an array from a position on. *)
Definition write_at (l : list Z) (i : nat) (xs : list Z) : list Z := firstn i l ++ xs ++ skipn (i + length xs) l.
Fixpoint set_array (m : memory) (a : nat) (l : list Z) : memory :=
  match m, a with
  | [], _ => []
  | _ :: m', O => l :: m'
  | x :: m', S a' => x :: set_array m' a' l
  end.
(* the built-in append: in place while the capacity lasts, else a new array with whatever
   spare room the run time gives it ([grow]) *)
Definition go_append (grow : nat) (m : memory) (s : gslice) (xs : list Z) : memory * gslice :=
  if (s_len s + length xs <=? s_cap s)%nat
  then (set_array m (s_arr s) (write_at (array m (s_arr s)) (s_off s + s_len s) xs),
        mkSlice (s_arr s) (s_off s) (s_len s + length xs) (s_cap s))
  else (m ++ [contents m s ++ xs ++ repeat 0%Z grow],
        mkSlice (length m) 0 (s_len s + length xs) (s_len s + length xs + grow)).
(* a slice literal, or make: a new array without spare room *)
Definition new_slice (m : memory) (xs : list Z) : memory * gslice := (m ++ [xs], mkSlice (length m) 0 (length xs) (length xs)).
(* make([]T, 0, n) *)
Definition make_cap (m : memory) (n : nat) : memory * gslice := (m ++ [repeat 0%Z n], mkSlice (length m) 0 0 n).
(* s[i:j] *)
Definition reslice (s : gslice) (i j : nat) : gslice := mkSlice (s_arr s) (s_off s + i) (j - i) (s_cap s - i).

Section LM.
Context (flog : f64 -> f64).
(* how much spare room each new array gets: any function of the allocation's number *)
Context (grow : nat -> nat).
Definition append_ (m : memory) (s : gslice) (xs : list Z) : memory * gslice := go_append (grow (length m)) m s xs.

(* language_model.go:129-132 *)
Definition rightWrapSentence (lm : languageModel) (m : memory) (s : gslice) : memory * gslice := append_ m s [lm_end lm].
(* :124-127 *)
Definition leftWrapSentence (lm : languageModel) (m : memory) (s : gslice) : memory * gslice :=
  let '(m', l) := new_slice m [lm_start lm] in append_ m' l (contents m' s).
(* :119-122 *)
Definition wrapSentence (lm : languageModel) (m : memory) (s : gslice) : memory * gslice :=
  let '(m, s) := rightWrapSentence lm m s in leftWrapSentence lm m s.
(* generator.go:9-23 *)
Definition split_slices (s : gslice) (order : Z) : list gslice :=
  if (Z.of_nat (s_len s) <? order)%Z then []
  else map (fun i => reslice s i (i + Z.to_nat order)) (seq 0 (Z.to_nat (Z.of_nat (s_len s) - order + 1))).
(* language_model.go:83-92 *)
Definition ScoreWordIDs_mem (lm : languageModel) (m : memory) (s : gslice) : res f64 * memory :=
  let '(m, w) := wrapSentence lm m s in
  (fold_left (fun acc g => score <- acc ;; x <- Score flog (lm_model lm) (contents m g) ;; Ret (fadd score x))
             (split_slices w (lm_order lm)) (Ret (of_int 0)), m).
(* :55-70 MapIntoListOfWordIDs with [get] for the indexer; the ids' slice is made with the
   sentence's length as its capacity *)
Fixpoint map_ids (get : bytes -> res Z) (m : memory) (s : gslice) (sentence : list bytes) : res gslice * memory :=
  match sentence with
  | [] => (Ret s, m)
  | t :: ts =>
      match get t with
      | Ret id => let '(m, s) := append_ m s [id] in map_ids get m s ts
      | Fail e => (Fail e, m)
      | Panic => (Panic, m)
      | NoFuel => (NoFuel, m)
      end
  end.
Definition MapIntoListOfWordIDs (get : bytes -> res Z) (m : memory) (sentence : list bytes) : res gslice * memory :=
  let '(m, s) := make_cap m (length sentence) in map_ids get m s sentence.
(* :72-81 *)
Definition ScoreSentence (get : bytes -> res Z) (lm : languageModel) (m : memory) (sentence : list bytes) : res f64 * memory :=
  match MapIntoListOfWordIDs get m sentence with
  | (Ret s, m) => ScoreWordIDs_mem lm m s
  | (Fail e, m) => (Fail e, m)
  | (Panic, m) => (Panic, m)
  | (NoFuel, m) => (NoFuel, m)
  end.
(* :99-112; the slicing is in range *)
Definition LMNext_mem (lm : languageModel) (m : memory) (s : gslice) : res (option scorerNext) * memory :=
  let n := lm_order lm in
  let z := Z.of_nat (s_len s) in
  let '(m, s) :=
    (if (z + 1 <? n)%Z then leftWrapSentence lm m s
     else if (n <? z)%Z then (m, reslice s (Z.to_nat (z - n + 1)) (s_len s))
     else if (z =? n)%Z then (m, reslice s 0 (Z.to_nat (n - 1)))
     else (m, s)) in
  (Next (lm_model lm) (contents m s), m).
(* ngram_model.go:75-88 and scorer_next.go:15-23: the scorer's counts, made with the
   capacity of the context and filled to it; ScoreNext appends one more *)
Definition scorer_counts (m : memory) (counts : list Z) : memory * gslice :=
  let '(m, s) := make_cap m (length counts) in
  fold_left (fun a c => let '(m, s) := a in append_ m s [c]) counts (m, s).
Definition ScoreNext_counts (m : memory) (s : gslice) (count : Z) : list Z * memory :=
  let '(m, s) := append_ m s [count] in (contents m s, m).
End LM.
