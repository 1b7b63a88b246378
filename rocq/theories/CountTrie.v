(** Model of pkg/lm/count_trie.go and pkg/lm/ngram_builder.go.  Definitions only.

    A node's children map is an association list; nil and empty maps are the same to
    lookups and iteration.  Go's iteration order over a map is arbitrary: [ord] gives the
    order in which the children of the node at a path are visited. *)
From Verif Require Import Base GoMap.
Local Open Scope Z_scope.

Notation token := bytes.
Notation sentence := (list bytes).

(* count_trie.go:44-50 *)
Inductive node := Node (children : list (Z * node)) (count : Z).
Definition children (n : node) : list (Z * node) := let '(Node ch _) := n in ch.
Definition ncount (n : node) : Z := let '(Node _ c) := n in c.
(* :36-41 *)
Record trie := mkTrie { t_root : node; t_depth : Z; t_table : list (token * Z); t_holder : list token }.
(* :23-33 *)
Definition NewCountTrie : trie := mkTrie (Node [] 0) 0 [] [].
(* :102-112 *)
Definition mapToUint32 (tb : list (token * Z)) (h : list token) (w : token) : Z * list (token * Z) * list token :=
  match mget beqb tb w with
  | Some i => (i, tb, h)
  | None => let i := wrap32 (zlen h) in (i, mset beqb tb w i, h ++ [w])
  end.
(* the calls of mapToUint32 made by Put, in order (they do not depend on the nodes) *)
Fixpoint map_all (tb : list (token * Z)) (h : list token) (s : sentence) : list Z * list (token * Z) * list token :=
  match s with
  | [] => ([], tb, h)
  | w :: s' => let '(i, tb1, h1) := mapToUint32 tb h w in
               let '(is, tb2, h2) := map_all tb1 h1 s' in (i :: is, tb2, h2)
  end.
(* :58-80: the walk down, creating nodes, then count += *)
Fixpoint put_node (n : node) (ws : list Z) (c : Z) : node :=
  match ws with
  | [] => Node (children n) (wrap32 (ncount n + c))
  | w :: ws' =>
      let child := match mget Z.eqb (children n) w with Some x => x | None => Node [] 0 end in
      Node (mset Z.eqb (children n) w (put_node child ws' c)) (ncount n)
  end.
(* :53-81 *)
Definition Put (t : trie) (s : sentence) (c : Z) : trie :=
  let '(ws, tb, h) := map_all (t_table t) (t_holder t) s in
  mkTrie (put_node (t_root t) ws c) (Z.max (t_depth t) (zlen s)) tb h.

Section Walk.
Context (ord : list Z -> list (Z * node) -> list (Z * node)).
Context {S : Type} (walker : S -> sentence -> Z -> option err * S).

(* :115-121 *)
Definition mapFromUint32 (h : list token) (i : Z) : res token :=
  if wrap32 (zlen h) <=? i then Fail (ErrOther 20) else index h i.
(* path[depth] = token; out of range is a run-time panic *)
Definition set_path (path : sentence) (d : Z) (w : token) : res sentence :=
  if d <? zlen path then Ret (firstn (Z.to_nat d) path ++ w :: skipn (Z.to_nat d + 1) path) else Panic.
(* :124-145.  The path is one slice shared by all levels.  Fuel: the depth. *)
Fixpoint iterate (fuel : nat) (h : list token) (ids : list Z) (depth : Z) (path : sentence) (n : node) (s : S) : res sentence * S :=
  match fuel with
  | O => (NoFuel, s)
  | Datatypes.S f =>
      let '(e, s1) := if 0 <? ncount n then walker s (firstn (Z.to_nat depth) path) (ncount n) else (None, s) in
      match e with
      | Some e => (Fail e, s1)                                         (* panic(err), recovered in Walk *)
      | None =>
          fold_left (fun acc (wc : Z * node) =>
            let '(r, st) := acc in
            match r with
            | Ret p =>
                match (tok <- mapFromUint32 h (fst wc) ;; set_path p depth tok) with
                | Ret p' => iterate f h (ids ++ [fst wc]) (depth + 1) p' (snd wc) st
                | Fail e => (Fail e, st)
                | Panic => (Panic, st)
                | NoFuel => (NoFuel, st)
                end
            | _ => (r, st)
            end) (ord ids (children n)) (Ret path, s1)
      end
  end.
(* :84-99.  recover turns every panic into a returned error *)
Definition Walk (t : trie) (s : S) : res unit * S :=
  if t_depth t =? 0 then (Ret tt, s)
  else match iterate (Datatypes.S (Z.to_nat (t_depth t))) (t_holder t) [] 0 (repeat [] (Z.to_nat (t_depth t))) (t_root t) s with
       | (Ret _, s') => (Ret tt, s')
       | (Fail e, s') => (Fail e, s')
       | (Panic, s') => (Fail (ErrOther 21), s')
       | (NoFuel, s') => (NoFuel, s')
       end.
End Walk.

Definition put_all (puts : list (sentence * Z)) : trie := fold_left (fun t p => Put t (fst p) (snd p)) puts NewCountTrie.

(* ngram_builder.go:26-33: one sentence.  sentence[i:i+k] for i = 0..len-k *)
Definition windows (k : nat) (s : sentence) : list sentence :=
  if (length s <? k)%nat then [] else map (fun i => firstn k (skipn i s)) (seq 0 (length s - k + 1)).
Definition add_sentence (startSymbol endSymbol : token) (order : Z) (t : trie) (s : sentence) : trie :=
  let s := startSymbol :: s ++ [endSymbol] in
  fold_left (fun t g => Put t g 1) (flat_map (fun k => windows k s) (seq 1 (Z.to_nat order))) t.
(* :19-39 and :42-64.  [sentences] is what Retrieve returns before nil.  The producer
   hands over one sentence at a time on an unbuffered channel and quits after the last,
   so the consumer sees them in order; empty ones are skipped. *)
Definition Build (startSymbol endSymbol : token) (sentences : list sentence) (order : Z) : trie :=
  fold_left (add_sentence startSymbol endSymbol order) (filter (fun s => negb (zlen s =? 0)) sentences) NewCountTrie.
