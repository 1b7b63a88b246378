(** Model of pkg/index: Writer, Reader, inverted index, Searcher.  Definitions only. *)
From Coq Require Import String.
From Verif Require Import Base GoMap Store Postings Merger.
Local Open Scope Z_scope.

(* inverted_index.go:12 Term = string, as its bytes *)
Notation term := bytes.
(* inverted_index.go:17 Index = map[Term][]Position; indices.go:4 *)
Notation index_map := (list (bytes * list Z)).
Notation windices := (list (option (list (bytes * list Z)))).

(** ** Writer (indexer_writer.go) *)
(* :78-80 the terms of one document; append to the posting list of each term *)
Fixpoint add_terms (m : index_map) (id : Z) (terms : list term) : index_map :=
  match terms with
  | [] => m
  | t :: ts =>
      let l := match mget beqb m t with Some l => l | None => [] end in
      add_terms (mset beqb m t (l ++ [id])) id ts
  end.
Fixpoint set_nth_opt {A} (n : nat) (x : A) (l : list A) : list A :=
  match n, l with
  | _, [] => []
  | O, _ :: t => x :: t
  | S n', y :: t => y :: set_nth_opt n' x t
  end.
(* :65-86 AddDocument; make(Indices, cardinality+1, cardinality*2) panics when the
   length exceeds the capacity *)
Definition AddDocument (w : windices) (id : Z) (terms : list term) : res windices :=
  let c := zlen terms in
  w <- (if zlen w <=? c then
          if c * 2 <? c + 1 then Panic
          else Ret (w ++ repeat None (Z.to_nat (c + 1 - zlen w)))
        else Ret w) ;;
  i <- index w c ;;
  let m := match i with Some m => m | None => [] end in
  Ret (set_nth_opt (Z.to_nat c) (Some (add_terms m id terms)) w).
Fixpoint add_all (w : windices) (docs : list (Z * list term)) : res windices :=
  match docs with
  | [] => Ret w
  | (id, ts) :: d => w' <- AddDocument w id ts ;; add_all w' d
  end.

(* :56-63 termDescription; :49-54 header *)
Record desc := mkDesc { d_term : term; d_indice : Z; d_size : Z; d_pos : Z; d_len : Z }.
Record header := mkHeader { h_version : bytes; h_indices : Z; h_terms : list desc }.
Definition IndexVersion : bytes := bs "v5.1".      (* :13 *)

(** encoding/gob is an oracle for this one type *)
Record gobcodec := mkGob { gob_enc : header -> bytes; gob_dec : bytes -> option header }.

(* indexer_writer.go:106-134 the loops of Commit over one index (in the iteration order given); [pos]
   is mapValueOffset.  The result is the byte string written for each posting list
   (the encoder's consecutive writes to the same output, joined), the descriptions
   and the new offset.  A stored posting list is never nil. *)
Fixpoint commit_index (rb : roaring) (c : Z) (m : index_map) (pos : Z)
  : res (list bytes * list desc * Z) :=
  match m with
  | [] => Ret ([], [], pos)
  | (t, l) :: m' =>
      '(n, w) <- encodePosting rb l [] ;;
      '(ws, ds, pos') <- commit_index rb c m' (pos + n) ;;
      Ret (w :: ws, mkDesc t (wrap32 c) (wrap32 n) (wrap32 pos) (wrap32 (zlen l)) :: ds, pos')
  end.
(* [ord c m] is the order in which the map of cardinality c is iterated *)
Fixpoint commit_indices (rb : roaring) (ord : Z -> index_map -> index_map) (c : Z) (w : windices) (pos : Z)
  : res (list bytes * list desc * Z) :=
  match w with
  | [] => Ret ([], [], pos)
  | None :: w' => commit_indices rb ord (c + 1) w' pos
  | Some m :: w' =>
      '(ws1, ds1, pos1) <- commit_index rb c (ord c m) pos ;;
      '(ws2, ds2, pos2) <- commit_indices rb ord (c + 1) w' pos1 ;;
      Ret (ws1 ++ ws2, ds1 ++ ds2, pos2)
  end.
(* indexer_writer.go:89-167 Commit, as the operations it performs on the directory: create the
   document list (handle [h]), write the posting lists, create the header (handle
   h+1), write and close it, close the document list. *)
Definition Commit (rb : roaring) (g : gobcodec) (ord : Z -> index_map -> index_map)
    (dn hn : string) (h : nat) (w : windices) : res (list dop) :=
  '(ws, ds, _) <- commit_indices rb ord 0 w 0 ;;
  Ret (OCreate dn :: map (OWrite h) ws ++
       [OCreate hn; OWrite (S h) (gob_enc g (mkHeader IndexVersion (wrap32 (zlen w)) ds));
        OClose (S h); OClose h]).

(** ** Reader (index_reader.go) *)
(* inverted_index.go:30-37 invertedIndexStructure: term -> (size, position, length) *)
Notation itable := (list (bytes * (Z * Z * Z))).
(* index_reader.go:88-107 *)
Fixpoint build_tables (ds : list desc) (tabs : list (option itable)) : res (list (option itable)) :=
  match ds with
  | [] => Ret tabs
  | d :: ds' =>
      t <- index tabs (d_indice d) ;;
      if d_size d =? 0 then build_tables ds' (set_nth_opt (Z.to_nat (d_indice d)) None tabs)
      else
        let m := match t with Some m => m | None => [] end in
        build_tables ds' (set_nth_opt (Z.to_nat (d_indice d))
                            (Some (mset beqb m (d_term d) (d_size d, d_pos d, d_len d))) tabs)
  end.
(* inverted_index.go:51-54; the reader is the whole document list *)
Record inverted := mkInv { iv_docs : bytes; iv_table : itable }.
(* OpenInput of the file-system directory maps the file; mapping an empty file is an
   error (mmap(2) rejects length 0) *)
Definition fs_input (d : fsdir) (n : string) : option bytes :=
  match fs_open d n with Some [] => None | x => x end.
(* index_reader.go:29-54, 57-80, 83-120 Read; [open] is OpenInput.
   ErrOther 10/11/12/13: failed to open header / decode / version / open documents *)
Definition IndexRead (g : gobcodec) (open : string -> option bytes) (dn hn : string) : res (list (option inverted)) :=
  match open hn with
  | None => Fail (ErrOther 10)
  | Some hb =>
      match gob_dec g hb with
      | None => Fail (ErrOther 11)
      | Some h =>
          if negb (beqb (h_version h) IndexVersion) then Fail (ErrOther 12)
          else match open dn with
               | None => Fail (ErrOther 13)
               | Some docs =>
                   tabs <- build_tables (h_terms h) (repeat None (Z.to_nat (h_indices h))) ;;
                   Ret (map (option_map (mkInv docs)) tabs)
               end
      end
  end.

(* indices.go:27-33 Get; :36-38 Size *)
Definition IndicesGet (ix : list (option inverted)) (i : Z) : option inverted :=
  if (i >=? 0) && (i <? zlen ix) then nth (Z.to_nat i) ix None else None.
(* inverted_index.go:76-80 Has *)
Definition IndexHas (iv : inverted) (t : term) : bool :=
  match mget beqb (iv_table iv) t with Some _ => true | None => false end.
(* inverted_index.go:57-73 Get: list size and reader; None is the zero context *)
Definition IndexGet (iv : inverted) (t : term) : res (option (Z * input)) :=
  match mget beqb (iv_table iv) t with
  | None => Ret None
  | Some (size, position, length) =>
      match Slice (NewBytesInput (iv_docs iv)) position size with
      | (Ret r, _) => Ret (Some (length, r))
      | (Fail e, _) => Fail e | (Panic, _) => Panic | (NoFuel, _) => NoFuel
      end
  end.

(** ** Searcher (searcher.go) *)
(* :67-78 filterTermsByExistence; [k] = len(filtered), the list are terms[i:] *)
Fixpoint filterTerms (iv : inverted) (terms : list term) (T k : Z) : list term :=
  match terms with
  | [] => []
  | t :: ts =>
      if k + zlen terms >=? T then
        if IndexHas iv t then t :: filterTerms iv ts T (k + 1) else filterTerms iv ts T k
      else []
  end.
(* :39-59: open the posting list of every term.  The zero context has a nil reader,
   whose use panics. *)
Fixpoint open_lists (rb : roaring) (iv : inverted) (terms : list term) : res (list iter) :=
  match terms with
  | [] => Ret []
  | t :: ts =>
      match IndexGet iv t with
      | Ret (Some (size, r)) =>
          match openPosting rb r size with
          | Ret it => its <- open_lists rb iv ts ;; Ret (it :: its)
          | Fail e => Fail (ErrWrapped e)
          | Panic => Panic | NoFuel => NoFuel
          end
      | Ret None => Panic
      | Fail e => Fail (ErrWrapped e)
      | Panic => Panic | NoFuel => NoFuel
      end
  end.
(* :29-64 Search, with an arbitrary merger; suggest uses CPMerge *)
Definition Search {St} (rb : roaring) (merge : list iter -> Z -> St -> res unit * St)
    (iv : inverted) (terms : list term) (T : Z) (s : St) : res unit * St :=
  let terms := filterTerms iv terms T 0 in
  if zlen terms <? T then (Ret tt, s)
  else match open_lists rb iv terms with
       | Ret rid =>
           match merge rid T s with
           | (Fail e, s') => (Fail (ErrWrapped e), s')
           | other => other
           end
       | Fail e => (Fail e, s) | Panic => (Panic, s) | NoFuel => (NoFuel, s)
       end.
