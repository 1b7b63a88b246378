(** Model of pkg/lm/ngram_writer.go, pkg/lm/ngram_reader.go, and of the pipeline of
    pkg/lm/binary.go.  Definitions only.

    A directory is the list of the contents of the files 1-gm, 2-gm, ...; opening a file
    that is not there is an error.  The outputs are new and do not fail. *)
From Verif Require Import Base GoMap Store Float64 CountTrie Scanner Decimal Merger NGram Mph NGramStore.
Local Open Scope Z_scope.

(** ** Writer *)
(* strings.Join(words, " ") *)
Fixpoint Join (ws : list bytes) : bytes :=
  match ws with [] => [] | [w] => w | w :: ws' => w ++ 32 :: Join ws' end.
(* ngram_writer.go:10-13: "%s\t%d\n" *)
Definition ngram_line (g : list bytes) (c : Z) : bytes := Join g ++ 9 :: dec c ++ [10].
Fixpoint append_at (outs : list bytes) (k : nat) (b : bytes) : list bytes :=
  match outs, k with
  | [], _ => []
  | o :: os, O => (o ++ b) :: os
  | o :: os, S k' => o :: append_at os k' b
  end.
(* ngram_writer.go:53-65.  outs[len(nGrams)-1] beyond the outputs is a run-time panic, which
   Walk recovers and returns as an error *)
Definition write_ngram (outs : list bytes) (g : list bytes) (c : Z) : option err * list bytes :=
  match g with
  | [] => (None, outs)
  | _ => if (length g <=? length outs)%nat then (None, append_at outs (length g - 1) (ngram_line g c))
         else (Some (ErrOther 22), outs)
  end.
(* ngram_writer.go:38-76 *)
Definition WriteNGrams (ord : list Z -> list (Z * node) -> list (Z * node)) (order : Z) (t : trie) : res (list bytes) :=
  match Walk ord write_ngram t (repeat [] (Z.to_nat order)) with
  | (Ret _, outs) => Ret outs
  | (Fail e, _) => Fail e
  | (Panic, _) => Panic
  | (NoFuel, _) => NoFuel
  end.

(** ** Reader *)
(* strings.Index(line, "\t") *)
Fixpoint index_tab (s : bytes) : option nat :=
  match s with [] => None | c :: t => if c =? 9 then Some O else option_map S (index_tab t) end.
(* strings.Split(s, " ") *)
Fixpoint split_sp (s cur : bytes) : list bytes :=
  match s with
  | [] => [cur]
  | c :: t => if c =? 32 then cur :: split_sp t [] else split_sp t (cur ++ [c])
  end.
Definition Split (s : bytes) : list bytes := split_sp s [].
(* strconv.ParseUint(s, 10, 32) *)
Definition ParseUint32 (s : bytes) : res Z :=
  if negb (zlen s =? 0) && forallb is_digit s && (digits_val s <? 2 ^ 32) then Ret (digits_val s) else Fail (ErrOther 60).

Section Read.
Context (get : bytes -> res Z) (chunk : nat -> nat) (fuel : nat).
Fixpoint get_all (ws : list bytes) : res (list Z) :=
  match ws with
  | [] => Ret []
  | w :: ws' => i <- get w ;; is <- get_all ws' ;; Ret (i :: is)
  end.
(* ngram_reader.go:69-86; line[:-1] is a run-time panic *)
Definition parse_line (line : bytes) : res (list Z * Z) :=
  match index_tab line with
  | None => Panic
  | Some tab =>
      g <- get_all (Split (firstn tab line)) ;;
      count <- ParseUint32 (skipn (S tab) line) ;;
      Ret (g, count)
  end.
(* :68-90 *)
Fixpoint read_lines (parents : list packed) (tree : list ngnode) (lines : list bytes) : res (list ngnode) :=
  match lines with
  | [] => Ret tree
  | l :: ls => '(g, c) <- parse_line l ;; t <- VPut parents tree g c ;; read_lines parents t ls
  end.
(* :57-98.  A scanner error is seen after the lines before it *)
Definition readNGramVector (parents : list packed) (file : bytes) : res (list ngnode) :=
  let '(lines, e) := scan_all ScanLines chunk fuel (NewScanner file) in
  t <- read_lines parents [] lines ;; _ <- e ;; Ret t.
(* :43-53 *)
Fixpoint read_files (n : nat) (vectors : list packed) (files : list bytes) : res (list packed) :=
  match n with
  | O => Ret vectors
  | S n' =>
      match files with
      | [] => Fail (ErrOther 61)
      | f :: fs => tree <- readNGramVector vectors f ;; read_files n' (vectors ++ [CreatePackedArray tree]) fs
      end
  end.
(* :36-54 *)
Definition ReadNGrams (order : Z) (files : list bytes) : res nGramModel :=
  if order =? 0 then Fail (ErrOther 62)
  else ixs <- read_files (Z.to_nat order) [] files ;; Ret (NewNGramModel ixs).
End Read.

(** ** The dictionary of a model (binary.go:100-198) *)
(* Go's < on strings *)
Fixpoint str_lt (a b : bytes) : bool :=
  match a, b with
  | _, [] => false
  | [], _ :: _ => true
  | x :: a', y :: b' => if x <? y then true else if y <? x then false else str_lt a' b'
  end.
Definition dictItem : Type := (bytes * Z).
(* :140-153 *)
Definition item_less (a b : dictItem) : bool :=
  if snd b <? snd a then true else if snd a =? snd b then str_lt (fst a) (fst b) else false.
(* rbtree (not modelled): the items in the order of Less; of equal items one is kept *)
Fixpoint tree_insert (t : list dictItem) (x : dictItem) : list dictItem :=
  match t with
  | [] => [x]
  | y :: t' => if item_less y x then y :: tree_insert t' x else if item_less x y then x :: t else t
  end.
(* :160-181.  Without a tab, line[0:] is parsed, then line[:-1] panics *)
Fixpoint dict_lines (tree : list dictItem) (lines : list bytes) : res (list dictItem) :=
  match lines with
  | [] => Ret tree
  | l :: ls =>
      match index_tab l with
      | None => _ <- ParseUint32 l ;; Panic
      | Some tab =>
          count <- ParseUint32 (skipn (S tab) l) ;;
          if (tab =? 0)%nat then dict_lines tree ls else dict_lines (tree_insert tree (firstn tab l, count)) ls
      end
  end.
(* :155-198: the words in the order of their ids *)
Definition dictionaryWords (chunk : nat -> nat) (fuel : nat) (file : bytes) : res (list bytes) :=
  let '(lines, e) := scan_all ScanLines chunk fuel (NewScanner file) in
  t <- dict_lines [] lines ;; _ <- e ;; Ret (map fst t).

(** ** binary.go:16-56 and :56-100.  The cdb dictionary is the list of its words *)
Section Binary.
Context (srt : list (list Z) -> list (list Z)) (chunk : nat -> nat) (fuel mfuel : nat).
Definition StoreBinaryLMFromGoogleFormat (order : Z) (files : list bytes) : res (list bytes * bytes) :=
  match files with
  | [] => Fail (ErrOther 61)
  | f1 :: _ =>
      words <- dictionaryWords chunk fuel f1 ;;
      table <- BuildMph mfuel srt words ;;
      model <- ReadNGrams (IndexerGet words table) chunk fuel order files ;;
      out <- StoreBinary model table [] ;;
      Ret (words, out)
  end.
End Binary.
(** A language model with its indexer (language_model.go:20-53) *)
Record lmodel := mkLModel { l_lm : languageModel; l_words : list bytes; l_table : mph }.
Definition GetWordID (l : lmodel) (w : bytes) : res Z := IndexerGet (l_words l) (l_table l) w.
(* binary.go:58-97, language_model.go:29-53 *)
Definition RetrieveLMFromBinary (order : Z) (startSymbol endSymbol : bytes) (words : list bytes) (binary : bytes) : res lmodel :=
  '(model, table) <- fst (LoadBinary (NewBytesInput binary)) ;;
  st <- IndexerGet words table startSymbol ;;
  en <- IndexerGet words table endSymbol ;;
  Ret (mkLModel (mkLM model order st en) words table).
(* language_model.go:56-81 *)
Definition ScoreSentence (flog : f64 -> f64) (l : lmodel) (s : list bytes) : res f64 :=
  ids <- get_all (GetWordID l) s ;; ScoreWordIDs flog (l_lm l) ids.
