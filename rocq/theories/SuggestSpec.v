(** Specification of a Suggest call. *)
From Verif Require Import Base GoMap Postings PostingsSpec Merger MergerSpec Index IndexSpec Float64 Metric TopK TopKSpec Suggest.
Local Open Scope Z_scope.

(** how many of the query's tokens a document has *)
Definition overlap_of (tokens ts : list term) : Z := zlen (filter (fun t => existsb (beqb t) ts) tokens).
(** the answer a document stands for: its id with its score *)
Definition cand_of (d : metric) (tokens : list term) (doc : Z * list term) : cand :=
  mkCand (fst doc) (Score d (overlap_of tokens (snd doc)) (zlen tokens) (zlen (snd doc))).
(** the document passes the metric's filters: size bounds for the requested similarity,
    and the threshold for the similarity [sims] asks of documents of its size *)
Definition eligible (d : metric) (alpha : f64) (sims : Z -> f64) (tokens : list term) (doc : Z * list term) : bool :=
  let A := zlen tokens in let B := zlen (snd doc) in
  (MinY d alpha A <=? B) && (B <=? MaxY d alpha A) && (Threshold d (sims B) A B <=? overlap_of tokens (snd doc)).
Definition answers (d : metric) (alpha : f64) (sims : Z -> f64) (tokens : list term) (docs : list (Z * list term)) : list cand :=
  map (cand_of d tokens) (filter (eligible d alpha sims tokens) docs).
(** Queries with repeated tokens: [overlap_of] then counts a repeated token every time and
    can exceed the size of the document; documents of a size below the threshold are not
    looked at.  (For distinct tokens the extra condition follows from the others.) *)
Definition eligible_any (d : metric) (alpha : f64) (sims : Z -> f64) (tokens : list term) (doc : Z * list term) : bool :=
  eligible d alpha sims tokens doc && (Threshold d (sims (zlen (snd doc))) (zlen tokens) (zlen (snd doc)) <=? zlen (snd doc)).
Definition answers_any (d : metric) (alpha : f64) (sims : Z -> f64) (tokens : list term) (docs : list (Z * list term)) : list cand :=
  map (cand_of d tokens) (filter (eligible_any d alpha sims tokens) docs).
(** the index holds the documents (what C24 proves of a committed index) *)
Definition index_of (rb : roaring) (ix : list (option inverted)) (docs : list (Z * list term)) : Prop :=
  forall c t, index_holds rb ix c t (posting_of docs c t).
