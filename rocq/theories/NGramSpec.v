(** Specification vocabulary for C48-C51, C63: counts of n-grams in files. *)
From Verif Require Import Base.
Local Open Scope Z_scope.

(** A file: lines of (n-gram, count), words as numbers. *)
Notation ngfile := (list (list Z * Z)).
Definition same_gram (a b : list Z) : bool := if list_eq_dec Z.eq_dec a b then true else false.
(** The sum of the counts of the lines with that n-gram. *)
Definition count_in (f : ngfile) (g : list Z) : Z := fold_right (fun l a => (if same_gram (fst l) g then snd l else 0) + a) 0 f.
Definition count_all (f : ngfile) : Z := fold_right (fun l a => snd l + a) 0 f.
(** The count of an n-gram in a list of files: file k (from 0) has the (k+1)-grams. *)
Definition count_of (files : list ngfile) (g : list Z) : Z := count_in (nth (List.length g - 1) files []) g.

(** Files a model can be read from: every line of file k has k+1 words; words and counts
    are uint32; no file has more than 2^32 - 3 distinct n-grams. *)
Definition files_ok (files : list ngfile) : Prop :=
  forall k f, nth_error files k = Some f ->
    (forall g c, In (g, c) f -> List.length g = S k /\ Forall is_u32 g /\ is_u32 c)
    /\ zlen (nodup (list_eq_dec Z.eq_dec) (map fst f)) <= 2 ^ 32 - 3.
(** Every n-gram's prefix is in the file of the order below. *)
Definition prefix_closed (files : list ngfile) : Prop :=
  forall k f f', nth_error files k = Some f -> nth_error files (S k) = Some f' ->
    forall g w c, In (g ++ [w], c) f' -> In g (map fst f).

(** Stored (context, word, count) triples, in increasing order of context, then word. *)
From Coq Require Import Sorting.Sorted.
Notation triple := (Z * Z * Z)%type.
Definition node_of (t : triple) : Z * Z := (fst (fst t) * 2 ^ 32 + snd (fst t), snd t).
Definition triples_ok (l : list triple) : Prop :=
  StronglySorted (fun a b => fst (fst a) < fst (fst b) \/ fst (fst a) = fst (fst b) /\ snd (fst a) < snd (fst b)) l
  /\ Forall (fun t => is_u32 (fst (fst t)) /\ is_u32 (snd (fst t)) /\ is_u32 (snd t)) l.
(** 2^32 - 3: "there is no such node" *)
Definition no_offset : Z := 4294967293.
