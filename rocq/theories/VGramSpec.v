(** What the frequency trie promises, independently of how it is stored: the grams added
    so far are a list of strings; a gram passes through a path if its characters start
    with the characters of the path.  *)
From Verif Require Import Base GoMap Text AnalysisSpec VGram.
Local Open Scope Z_scope.

(* the characters of a string, as range decodes them *)
Definition characters (s : bytes) : list Z := map fst (runes s).
(* valid UTF-8 *)
Definition valid_text (s : bytes) : Prop := Forall is_byte s /\ well_formed s.
(* [l] starts with [p] *)
Definition starts (p l : list Z) : bool := beqb p (firstn (length p) l).
(* how many grams start with the characters [p]; how many are exactly [p] *)
Definition passing (p : list Z) (grams : list bytes) : Z := zlen (filter (fun g => starts p (characters g)) grams).
Definition ending (p : list Z) (grams : list bytes) : Z := zlen (filter (fun g => beqb p (characters g)) grams).
(* byte index of the last character of a well-formed string with these characters *)
Definition last_index (p : list Z) : Z := zlen (concat (map encode_rune (removelast p))).

(* sorting the children by frequency: any order, as long as it is sorted *)
Definition sorts_by_frequency (srt : list Z -> list (Z * Z) -> list (Z * Z)) : Prop :=
  forall path l, Permutation l (srt path l) /\
    forall i j a b, (i < j)%nat -> nth_error (srt path l) i = Some a -> nth_error (srt path l) j = Some b -> snd a <= snd b.

(* frequencies added up *)
Definition total (l : list (Z * Z)) : Z := fold_right (fun cf acc => snd cf + acc) 0 l.

(* range over a map: any order *)
Definition any_order (ord : bytes -> list (Z * list (bytes * node)) -> list (Z * list (bytes * node))) : Prop :=
  forall key l, Permutation l (ord key l).

(** What pruning with threshold [T] does at one node.  A node is given by its frequency,
    its marker (if it has one) and its children, each a character and a frequency. *)
Record view := View { v_frequency : Z; v_marker : option Z; v_children : list (Z * Z) }.
(* what can be seen of a node of the trie *)
Definition to_view (x : node) : view :=
  View (nfreq x) (nmarker x) (child_freqs (children x)).
Definition pruned_view (T : Z) (v v' : view) : Prop :=
  v_frequency v' = v_frequency v /\
  match v_marker v with
  | None => v_marker v' = None /\ v_children v' = v_children v
  | Some m =>
      if v_frequency v <=? T
      then v_marker v' = Some (v_frequency v) /\ v_children v' = []
      else exists removed,
             v_marker v' = Some (m + total removed) /\
             Permutation (v_children v) (removed ++ v_children v') /\
             (removed = [] \/ m + total removed <= T) /\
             (* nothing more could be removed *)
             (forall cf, In cf (v_children v') -> T < m + total removed + snd cf) /\
             (* and no other choice removes more children *)
             (forall other rest, Permutation (v_children v) (other ++ rest) -> m + total other <= T ->
                zlen other <= zlen removed)
  end.

(** The grams of a word: every window of [qmax] characters, and the suffixes of [qmin] to
    [qmax]-1 characters.  [occurs p w]: how often [p] occurs in [w] as a substring. *)
Definition occurs (p w : list Z) : Z :=
  zlen (filter (fun j => beqb p (firstn (length p) (skipn j w))) (List.seq 0 (length w))).
(* in all words together; and the number of characters of all words *)
Definition all_occurs (p : list Z) (words : list bytes) : Z := fold_right (fun w acc => occurs p (characters w) + acc) 0 words.
Definition total_length (words : list bytes) : Z := fold_right (fun w acc => zlen (characters w) + acc) 0 words.
(* what SplitIntoNGrams is assumed to return: every window of k characters, in order *)
Definition windows_of (k : nat) (w : list Z) : list (list Z) :=
  map (fun j => firstn k (skipn j w)) (List.seq 0 (length w + 1 - k)).
Definition splits_into_windows (split : bytes -> Z -> list bytes) : Prop :=
  forall w k, Forall is_byte w -> 0 < k ->
    map characters (split w k) = windows_of (Z.to_nat k) (characters w) /\
    (well_formed w -> Forall valid_text (split w k)).
