(** Model of pkg/lm/packed_array.go, ngram_vector.go, ngram_vector_builder.go,
    ngram_model.go, scorer_next.go, generator.go, language_model.go (without Store/Load,
    see NGramStore.v) and the vector-building part of ngram_reader.go.  Definitions only.

    The red-black tree (github.com/alldroll/rbtree) is its contract: a set kept in the
    order of Less, here the increasing order of the keys.  The channel between the
    builder's goroutine and the factory hands over the nodes one by one in order. *)
From Verif Require Import Base GoMap Float64 Postings Merger.
Local Open Scope Z_scope.

(* ngram_vector.go:33-35: maxUint32 - 1 and maxContextOffset - 1 *)
Definition maxContextOffset : Z := 2 ^ 32 - 2.
Definition InvalidContextOffset : Z := maxContextOffset - 1.

(** ** Packed array *)
(* packed_array.go:12-16 *)
Record packed := mkPA { containers : list Z; pvalues : list Z; total : Z }.
(* :20-44: both kinds of entries are utils.Pack of two uint32 *)
Definition newPackedValue (w c : Z) : Z := Pack w c.
Definition getWordID (p : Z) : Z := UnpackLeft p.
Definition getWordCount (p : Z) : Z := UnpackRight p.
Definition newRangeContainer (ctx from : Z) : Z := Pack ctx from.
Definition getContext (rc : Z) : Z := UnpackLeft rc.
Definition getFrom (rc : Z) : Z := UnpackRight rc.

(* :195-210 *)
Definition findContainerPos (s : packed) (context : Z) : res Z :=
  let cs := containers s in
  if zlen cs =? 0 then Ret (-1) else
  c0 <- index cs 0 ;;
  if context <? getContext c0 then Ret (-1) else
  cl <- index cs (zlen cs - 1) ;;
  if getContext cl <? context then Ret (-1) else
  let target := newRangeContainer context 0 in
  i <- sort_search (zlen cs) (fun i => nth (Z.to_nat i) cs 0 >=? target) ;;
  if (i <? 0) || (zlen cs <=? i) then Ret (-1) else
  ci <- index cs i ;;
  if negb (getContext ci =? context) then Ret (-1) else Ret i.
(* :166-193, after the container's position i is known *)
Definition find_at (s : packed) (i wordID : Z) : res (Z * Z) :=
  container <- index (containers s) i ;;
  let from := getFrom container in
  vs <- (if i =? zlen (containers s) - 1 then slice (pvalues s) from (zlen (pvalues s))
         else c' <- index (containers s) (i + 1) ;; slice (pvalues s) from (getFrom c')) ;;
  v0 <- index vs 0 ;;
  vl <- index vs (zlen vs - 1) ;;
  if (wordID <? getWordID v0) || (getWordID vl <? wordID) then Ret (0, InvalidContextOffset) else
  let target := newPackedValue wordID 0 in
  j <- sort_search (zlen vs) (fun j => nth (Z.to_nat j) vs 0 >=? target) ;;
  if (j <? 0) || (zlen vs <=? j) then Ret (0, InvalidContextOffset) else
  vj <- index vs j ;;
  if negb (getWordID vj =? wordID) then Ret (0, InvalidContextOffset) else
  Ret (vj, wrap32 (from + wrap32 j)).
(* :162-193 *)
Definition find (s : packed) (wordID context : Z) : res (Z * Z) :=
  i <- findContainerPos s context ;;
  if i =? -1 then Ret (0, InvalidContextOffset) else find_at s i wordID.
(* :52-60 *)
Definition GetCount (s : packed) (word context : Z) : res (Z * Z) :=
  '(value, i) <- find s word context ;;
  if InvalidContextOffset =? i then Ret (0, InvalidContextOffset) else Ret (getWordCount value, i).
(* :63-67 *)
Definition GetContextOffset (s : packed) (word context : Z) : res Z :=
  '(_, i) <- find s word context ;; Ret i.
(* :70-72 *)
Definition CorpusCount (s : packed) : Z := total s.
(* :75-93 *)
Definition SubVector (s : packed) (context : Z) : res (option packed) :=
  i <- findContainerPos s context ;;
  if i =? -1 then Ret None else
  ci <- index (containers s) i ;;
  cs <- (if i <? zlen (containers s) - 1 then c' <- index (containers s) (i + 1) ;; Ret [ci; c'] else Ret [ci]) ;;
  Ret (Some (mkPA cs (pvalues s) (total s))).

(* ngram_vector_builder.go:33-37: (Key, Count) *)
Notation ngnode := (Z * Z)%type.
(* :56-64 *)
Definition GetKeyWordID (k : Z) : Z := UnpackRight k.
Definition GetKeyContext (k : Z) : Z := UnpackLeft k.
(* packed_array.go:212-237 *)
Definition create_step (st : packed * Z * Z) (n : ngnode) : packed * Z * Z :=
  let '(pa, context, from) := st in
  let currContext := GetKeyContext (fst n) in
  let fresh := negb (context =? currContext) || (zlen (containers pa) =? 0) in
  (mkPA (if fresh then containers pa ++ [newRangeContainer currContext from] else containers pa)
        (pvalues pa ++ [newPackedValue (GetKeyWordID (fst n)) (snd n)])
        (wrap32 (total pa + snd n)),
   if fresh then currContext else context,
   wrap32 (from + 1)).
Definition CreatePackedArray (nodes : list ngnode) : packed :=
  fst (fst (fold_left create_step nodes (mkPA [] [] 0, InvalidContextOffset, 0))).

(** ** Vector builder *)
(* ngram_vector_builder.go:48-54; log.Fatal ends the process *)
Definition MakeKey (word context : Z) : res Z :=
  if maxContextOffset <? context then Panic else Ret (Pack context word).
(* the tree: Find, then count += or Insert *)
Fixpoint tree_put (t : list ngnode) (k c : Z) : list ngnode :=
  match t with
  | [] => [(k, c)]
  | (k', c') :: t' =>
      if k' <? k then (k', c') :: tree_put t' k c
      else if k' =? k then (k', wrap32 (c' + c)) :: t'
      else (k, c) :: (k', c') :: t'
  end.
(* :76-104: the walk through the parents, to the context of the last word *)
Fixpoint put_parent (parents : list packed) (ws : list Z) (parent : Z) {struct ws} : res (Z * Z) :=
  match ws with
  | [] => Panic                                        (* not reached: ws has one more word than parents *)
  | [w] => Ret (w, parent)
  | w :: ws' =>
      match parents with
      | [] => Panic                                    (* m.parents[i] out of range: not reached *)
      | p :: ps => o <- GetContextOffset p w parent ;; put_parent ps ws' o
      end
  end.
(* :76-104 *)
Definition VPut (parents : list packed) (tree : list ngnode) (nGrams : list Z) (count : Z) : res (list ngnode) :=
  if negb (zlen nGrams =? zlen parents + 1) then Fail (ErrOther 30)      (* ErrNGramOrderIsOutOfRange *)
  else
    '(w, parent) <- put_parent parents nGrams InvalidContextOffset ;;
    k <- MakeKey w parent ;;
    Ret (tree_put tree k count).
(* the loop of ngram_reader.go:68-90 over the lines of one file *)
Fixpoint put_lines (parents : list packed) (tree : list ngnode) (lines : list (list Z * Z)) : res (list ngnode) :=
  match lines with
  | [] => Ret tree
  | (g, c) :: rest => t <- VPut parents tree g c ;; put_lines parents t rest
  end.
(* ngram_reader.go:36-54 (the parsed lines of the files; see GoogleNGram.v for the parsing) *)
Fixpoint read_vectors (vectors : list packed) (files : list (list (list Z * Z))) : res (list packed) :=
  match files with
  | [] => Ret vectors
  | f :: fs => tree <- put_lines vectors [] f ;; read_vectors (vectors ++ [CreatePackedArray tree]) fs
  end.

(** ** Model *)
(* ngram_model.go:30-33 *)
Record nGramModel := mkModel { indices : list packed; nGramOrder : Z }.
(* :36-41 *)
Definition NewNGramModel (ix : list packed) : nGramModel := mkModel ix (wrap8 (zlen ix)).

Section Score.
(* math.Log *)
Context (flog : f64 -> f64).
(* :22-27 *)
Definition UnknownWordScore : f64 := of_int (-100).
Definition alpha : f64 := fdiv (of_int 4) (of_int 10).
(* :162-175; i from len(counts)-1 down to 1 *)
Fixpoint calc_loop (i : nat) (counts : list Z) (factor : f64) : res f64 :=
  match i with
  | O => Ret UnknownWordScore
  | S i' =>
      c <- index counts (Z.of_nat i) ;;
      if 0 <? c then
        c' <- index counts (Z.of_nat i - 1) ;;
        Ret (flog (fdiv (fmul factor (of_int c)) (of_int c')))
      else calc_loop i' counts (fmul factor alpha)
  end.
Definition calcScore (counts : list Z) : res f64 := calc_loop (List.length counts - 1) counts (of_int 1).

(* ngram_model.go:44-64, the counts *)
Fixpoint score_counts (ixs : list packed) (ws : list Z) (parent : Z) {struct ws} : res (list Z) :=
  match ws with
  | [] => Ret []
  | w :: ws' =>
      match ixs with
      | [] => Panic
      | v :: vs => '(c, o) <- GetCount v w parent ;; cs <- score_counts vs ws' o ;; Ret (c :: cs)
      end
  end.
Definition Score_counts (m : nGramModel) (nGrams : list Z) : res (list Z) :=
  let order := Z.min (nGramOrder m) (zlen nGrams) in
  if order =? 0 then Ret [0] else
  v0 <- index (indices m) 0 ;;
  cs <- score_counts (indices m) (firstn (Z.to_nat order) nGrams) InvalidContextOffset ;;
  Ret (CorpusCount v0 :: cs).
(* ngram_model.go:44-64 *)
Definition Score (m : nGramModel) (nGrams : list Z) : res f64 :=
  cs <- Score_counts m nGrams ;; calcScore cs.

(* scorer_next.go:9-13 *)
Record scorerNext := mkScorer { contextCounts : list Z; s_context : Z; nGramVector : packed }.
(* ngram_model.go:75-88; None: some count is 0 *)
Fixpoint next_counts (ixs : list packed) (ws : list Z) (parent : Z) {struct ws} : res (option (list Z * Z)) :=
  match ws with
  | [] => Ret (Some ([], parent))
  | w :: ws' =>
      match ixs with
      | [] => Panic
      | v :: vs => '(c, o) <- GetCount v w parent ;;
                   if c =? 0 then Ret None else
                   r <- next_counts vs ws' o ;;
                   Ret (option_map (fun p => (c :: fst p, snd p)) r)
      end
  end.
(* :67-99 *)
Definition Next (m : nGramModel) (nGrams : list Z) : res (option scorerNext) :=
  if (nGramOrder m <=? zlen nGrams) || (zlen nGrams =? 0) then Fail (ErrOther 31)
  else
    r <- next_counts (indices m) nGrams InvalidContextOffset ;;
    match r with
    | None => Ret None
    | Some (counts, parent) =>
        v <- index (indices m) (zlen nGrams) ;;
        sub <- SubVector v parent ;;
        Ret (option_map (fun s => mkScorer counts parent s) sub)
    end.
(* scorer_next.go:15-23.  counts was made with capacity len(nGrams) and filled, so append
   copies: calls do not see each other's count. *)
Definition ScoreNext (s : scorerNext) (w : Z) : res f64 :=
  '(count, _) <- GetCount (nGramVector s) w (s_context s) ;;
  if count =? 0 then Ret UnknownWordScore else calcScore (contextCounts s ++ [count]).

(** ** Language model *)
(* generator.go:9-23 *)
Definition splitIntoNGrams (s : list Z) (nGramOrder : Z) : list (list Z) :=
  if zlen s <? nGramOrder then []
  else map (fun i => firstn (Z.to_nat nGramOrder) (skipn i s)) (seq 0 (Z.to_nat (zlen s - nGramOrder + 1))).
(* language_model.go:20-26 (startSymbol, endSymbol; config.NGramOrder) *)
Record languageModel := mkLM { lm_model : nGramModel; lm_order : Z; lm_start : Z; lm_end : Z }.
(* :83-92 (wrapSentence and split :115-132; append's use of spare capacity is in LMAlias.v) *)
Definition ScoreWordIDs (lm : languageModel) (sequence : list Z) : res f64 :=
  fold_left (fun acc g => score <- acc ;; x <- Score (lm_model lm) g ;; Ret (fadd score x))
            (splitIntoNGrams (lm_start lm :: sequence ++ [lm_end lm]) (lm_order lm)) (Ret (of_int 0)).
(* :99-112 *)
Definition lm_context (lm : languageModel) (sequence : list Z) : res (list Z) :=
  let n := lm_order lm in
  if zlen sequence + 1 <? n then Ret (lm_start lm :: sequence)
  else if n <? zlen sequence then slice sequence (zlen sequence - n + 1) (zlen sequence)
  else if zlen sequence =? n then slice sequence 0 (n - 1)
  else Ret sequence.
Definition LMNext (lm : languageModel) (sequence : list Z) : res (option scorerNext) :=
  s <- lm_context lm sequence ;; Next (lm_model lm) s.
End Score.
