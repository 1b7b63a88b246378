(** Model of pkg/vgram/frequency_trie.go and pkg/vgram/gram_dictionary.go.  Definitions only.

    Both files carry the build tag "ignore": they are not compiled into the program.
    A node's children map is an association list; Go's iteration order over it is
    arbitrary, and so are the orders given as parameters ([ord], [srt]).  The nodes of a
    trie are reached through exactly one parent each, so pointers to them are the nodes
    themselves, and comparing two pointers is comparing the two keys (removeChild). *)
From Verif Require Import Base GoMap Text.
Local Open Scope Z_scope.

(* frequency_trie.go:97-105.  The marker is nil or a frequency. *)
Inductive node := Node (children : list (Z * node)) (marker : option Z) (frequency : Z).
Definition children (n : node) : list (Z * node) := let '(Node ch _ _) := n in ch.
Definition nmarker (n : node) : option Z := let '(Node _ m _) := n in m.
Definition nfreq (n : node) : Z := let '(Node _ _ f) := n in f.
(* :111-117 *)
Definition newNode : node := Node [] None 0.
(* :27-30 *)
Record trie := mkTrie { root : node; qMin : Z }.
(* :32-37 *)
Definition NewFrequencyTrie (q : Z) : trie := mkTrie newNode q.

(* range over a string: the characters and the byte index at which each starts *)
Fixpoint indexed (i : Z) (l : list (Z * bytes)) : list (Z * Z) :=
  match l with
  | [] => []
  | (r, b) :: l' => (r, i) :: indexed (i + zlen b) l'
  end.
Definition decoded (s : bytes) : list Z := map fst (runes s).

(* :42-48, the loop of Find: nil as soon as a child is missing *)
Fixpoint find_node (n : node) (p : list Z) : option node :=
  match p with
  | [] => Some n
  | c :: p' => match mget Z.eqb (children n) c with
               | Some ch => find_node ch p'
               | None => None
               end
  end.
(* a value of the interface type Node: nil, or a *node, which may itself be nil *)
Inductive iface := INil | IPtr (p : option node).
Definition is_nil (i : iface) : bool := match i with INil => true | _ => false end.
(* :39-51: cur, of type *node, becomes a non-nil interface value whatever it points to *)
Definition Find (t : trie) (gram : bytes) : iface := IPtr (find_node (root t) (decoded gram)).
(* :132-134, :136-142: a method call on a nil interface, or reading a field through a nil
   pointer, is a run-time panic *)
Definition GetFrequency (i : iface) : res Z :=
  match i with IPtr (Some n) => Ret (nfreq n) | _ => Panic end.
Definition GetMarker (i : iface) : res (option Z) :=
  match i with IPtr (Some n) => Ret (nmarker n) | _ => Panic end.

(* :53-75: one step of the loop counts at the child and may create its marker; after the
   loop the marker of the last node, if any, counts *)
Fixpoint add_node (q : Z) (n : node) (cs : list (Z * Z)) : node :=
  match cs with
  | [] => Node (children n)
               (match nmarker n with Some m => Some (wrap32 (m + 1)) | None => None end)
               (nfreq n)
  | (c, i) :: cs' =>
      let child := match mget Z.eqb (children n) c with Some x => x | None => newNode end in
      let mk := match nmarker child with
                | Some m => Some m
                | None => if q <=? wrap32 (i + 1) then Some 0 else None
                end in
      let child := Node (children child) mk (wrap32 (nfreq child + 1)) in
      Node (mset Z.eqb (children n) c (add_node q child cs')) (nmarker n) (nfreq n)
  end.
Definition Add (t : trie) (gram : bytes) : trie :=
  mkTrie (add_node (qMin t) (root t) (indexed 0 (runes gram))) (qMin t).

(* :77-79, :125-130: the calls of the walker, in order: a child, then its subtree.
   [ord] gives the order in which the children of the node at a key are visited (here: of
   the runs of calls made for each child). *)
Section Walk.
Context (ord : bytes -> list (Z * list (bytes * node)) -> list (Z * list (bytes * node))).
Fixpoint walk (key : bytes) (n : node) : list (bytes * node) :=
  match n with
  | Node ch _ _ =>
      concat (map snd (ord key
        (map (fun p : Z * node =>
                let key' := key ++ encode_rune (fst p) in
                (fst p, (key', snd p) :: walk key' (snd p))) ch)))
  end.
Definition Walk (t : trie) : list (bytes * node) := walk [] (root t).
End Walk.

(* :81-83, :85-95, :150-158, :200-201.  [srt] is getChildren followed by sort.Sort, seen as the order in which the
   (character, frequency) pairs of the children of the node at a path are visited. *)
Section Prune.
Context (srt : list Z -> list (Z * Z) -> list (Z * Z)).
(* :203-213: the loop over the sorted children: which are removed, and the frequency the
   marker ends with *)
Fixpoint select (T : Z) (l : list (Z * Z)) (leaf : Z) : Z * list Z :=
  match l with
  | [] => (leaf, [])
  | (c, f) :: l' =>
      if wrap32 (leaf + f) <=? T
      then let '(leaf', gone) := select T l' (wrap32 (leaf + f)) in (leaf', c :: gone)
      else select T l' leaf
  end.
Definition child_freqs (ch : list (Z * node)) : list (Z * Z) := map (fun p => (fst p, nfreq (snd p))) ch.
(* :144-148, :160-172, :174-215.  Pruning a child reads and writes nothing outside the child's subtree and never
   its frequency, so the model prunes all children first and then drops the removed ones. *)
Fixpoint prune_node (T : Z) (path : list Z) (n : node) : node :=
  match n with
  | Node ch mk fr =>
      let pruned := map (fun p : Z * node => (fst p, prune_node T (path ++ [fst p]) (snd p))) ch in
      match mk with
      | None => Node pruned None fr
      | Some m =>
          if fr <=? T then Node [] (Some fr) fr
          else let '(leaf, gone) := select T (srt path (child_freqs ch)) m in
               Node (filter (fun p => negb (existsb (Z.eqb (fst p)) gone)) pruned) (Some leaf) fr
      end
  end.
Definition Prune (t : trie) (T : Z) : trie := mkTrie (prune_node T [] (root t)) (qMin t).
End Prune.

(* gram_dictionary.go:17-58.  index.SplitIntoNGrams no longer exists in /repo: it is the
   parameter [split]. *)
Section Builder.
Context (split : bytes -> Z -> list bytes).
(* :43-57, the loop from qMax-1 down to qMin over a uint32; NoFuel: it has not ended.
   string(runes[p:]) encodes the characters again. *)
Fixpoint word_loop (fuel : nat) (qmin : Z) (rs : list Z) (q : Z) (acc : list bytes) : res (list bytes) :=
  match fuel with
  | O => NoFuel
  | S fuel' =>
      if qmin <=? q then
        let p := zlen rs - q in
        let acc' := if p <? 0 then acc
                    else acc ++ split (concat (map encode_rune (skipn (Z.to_nat p) rs))) q in
        word_loop fuel' qmin rs (wrap32 (q - 1)) acc'
      else Ret acc
  end.
(* :38-58: the grams added for a word, in order *)
Definition word_grams (fuel : nat) (qmin qmax : Z) (word : bytes) : res (list bytes) :=
  word_loop fuel qmin (decoded word) (wrap32 (qmax - 1)) (split word qmax).
(* :23-36: the empty values are skipped *)
Fixpoint build_words (fuel : nat) (qmin qmax : Z) (t : trie) (words : list bytes) : res trie :=
  match words with
  | [] => Ret t
  | w :: ws =>
      match w with
      | [] => build_words fuel qmin qmax t ws
      | _ => gs <- word_grams fuel qmin qmax w ;; build_words fuel qmin qmax (fold_left Add gs t) ws
      end
  end.
Definition buildFrequencyTrie (fuel : nat) (qmin qmax : Z) (words : list bytes) : res trie :=
  build_words fuel qmin qmax (NewFrequencyTrie qmin) words.
(* :17-21, :60-62 *)
Definition Build (srt : list Z -> list (Z * Z) -> list (Z * Z)) (fuel : nat) (qmin qmax T : Z) (words : list bytes) : res trie :=
  t <- buildFrequencyTrie fuel qmin qmax words ;; Ret (Prune srt t T).
End Builder.
