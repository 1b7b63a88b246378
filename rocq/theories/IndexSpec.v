(** Specification of an inverted index. *)
From Coq Require Import String.
From Verif Require Import Base GoMap Store Postings PostingsSpec PostingsDrive Merger MergerSpec MergerAnySpec Index.
Local Open Scope Z_scope.

(** A document is an id and its token list.  The postings of term t among the
    documents with c tokens: the ids of those documents that contain t, in order. *)
Definition posting_of (docs : list (Z * list term)) (c : Z) (t : term) : list Z :=
  map fst (filter (fun d => (zlen (snd d) =? c) && existsb (beqb t) (snd d)) docs).

(** Documents as the indexer adds them: ascending 32-bit ids, distinct tokens. *)
Definition docs_ok (docs : list (Z * list term)) : Prop :=
  StronglySorted Z.lt (map fst docs) /\ Forall is_u32 (map fst docs) /\
  Forall (fun d => NoDup (snd d)) docs.

(** The index answers for size c and term t with the list l: a non-empty l is found,
    and its iterator is a cursor over l; for an empty l nothing is found. *)
Definition index_holds (rb : roaring) (ix : list (option inverted)) (c : Z) (t : term) (l : list Z) : Prop :=
  match IndicesGet ix c with
  | None => l = []
  | Some iv =>
      (l = [] -> IndexHas iv t = false /\ IndexGet iv t = Ret None) /\
      (l <> [] -> IndexHas iv t = true /\
         exists r it, IndexGet iv t = Ret (Some (zlen l, r)) /\ openPosting rb r (zlen l) = Ret it /\ stands_for it l)
  end.

(** The contract of encoding/gob used: what is encoded decodes to the same header. *)
Definition gob_ok (g : gobcodec) : Prop := forall h, gob_dec g (gob_enc g h) = Some h /\ gob_enc g h <> [].
(** Any map iteration order. *)
Definition order_ok (ord : Z -> index_map -> index_map) : Prop := forall c m, Permutation m (ord c m).

(** Also assumed of the roaring library: a non-empty set is not written as nothing
    (the format starts with a cookie). *)
Definition roaring_written (rb : roaring) : Prop := forall l, posting l -> l <> [] -> rb_enc rb l <> [].

(** bufio may flush on its own at any moment: [h'] is the history [h] with such
    flushes, of handles created by [h] (numbers from [k]), put in anywhere. *)
Definition is_flush (o : dop) : bool := match o with OFlush _ _ => true | _ => false end.
Definition with_flushes (k : nat) (h h' : list dop) : Prop :=
  filter (fun o => negb (is_flush o)) h' = h /\ forall j n, In (OFlush j n) h' -> (k <= j)%nat.

(** What a crashed commit leaves, per size and term: the index finds nothing where
    the complete index would have nothing, and otherwise either reports an error or
    behaves as the complete index. *)
Definition holds_or_errs (rb : roaring) (ix : list (option inverted)) (c : Z) (t : term) (l : list Z) : Prop :=
  index_holds rb ix c t l \/
  exists iv, IndicesGet ix c = Some iv /\ l <> [] /\ IndexHas iv t = true /\ exists e, IndexGet iv t = Fail e.
(** A truncated header does not decode (a gob stream is length-prefixed). *)
Definition gob_prefix_fails (g : gobcodec) : Prop :=
  forall h p s, gob_enc g h = p ++ s -> s <> [] -> gob_dec g p = None.

(** ** Documents whose tokens may repeat *)
(** The list the indexer builds for term t among the documents with c tokens: the id of a
    document once for every occurrence of t in it. *)
Definition token_times (t : term) (ts : list term) : nat := length (filter (beqb t) ts).
Definition occurrences (docs : list (Z * list term)) (c : Z) (t : term) : list Z :=
  flat_map (fun d => if zlen (snd d) =? c then repeat (fst d) (token_times t (snd d)) else []) docs.
(** Ascending 32-bit ids; no list longer than a 32-bit length can say. *)
Definition docs_any (docs : list (Z * list term)) : Prop :=
  StronglySorted Z.lt (map fst docs) /\ Forall is_u32 (map fst docs) /\
  forall c t, zlen (occurrences docs c t) < 2 ^ 32.
(** As [index_holds] and [holds_or_errs], for such a list: the iterator is a cursor over
    the list as it is stored. *)
Definition index_holds_any (rb : roaring) (ix : list (option inverted)) (c : Z) (t : term) (l : list Z) : Prop :=
  match IndicesGet ix c with
  | None => l = []
  | Some iv =>
      (l = [] -> IndexHas iv t = false /\ IndexGet iv t = Ret None) /\
      (l <> [] -> IndexHas iv t = true /\
         exists r it, IndexGet iv t = Ret (Some (zlen l, r)) /\ openPosting rb r (zlen l) = Ret it /\ stands_any it (stored l))
  end.
Definition holds_or_errs_any (rb : roaring) (ix : list (option inverted)) (c : Z) (t : term) (l : list Z) : Prop :=
  index_holds_any rb ix c t l \/
  exists iv, IndicesGet ix c = Some iv /\ l <> [] /\ IndexHas iv t = true /\ exists e, IndexGet iv t = Fail e.
