(** Specification of a Suggest call over documents whose tokens may repeat. *)
From Verif Require Import Base GoMap Postings PostingsSpec Merger MergerSpec Index IndexSpec Float64 Metric TopK TopKSpec Suggest SuggestSpec.
Local Open Scope Z_scope.

(** the index holds the documents (what C24_repetitions proves of a committed index) *)
Definition index_any (rb : roaring) (ix : list (option inverted)) (docs : list (Z * list term)) : Prop :=
  forall c t, index_holds_any rb ix c t (occurrences docs c t).
(** how many of the answers are for the id x *)
Definition key_times (x : Z) (l : list cand) : nat := length (filter (fun c => Key c =? x) l).
(** What a Suggest call collects, when a document that has a token n times can be collected
    up to n times: every document that passes the filters, with its score; and nothing but
    documents of an admissible size with the score of at least the threshold's and at most
    their number of common tokens. *)
Definition collected_any (d : metric) (alpha : f64) (sims : Z -> f64) (tokens : list term) (docs : list (Z * list term)) (L : list cand) : Prop :=
  (forall doc, In doc docs -> eligible_any d alpha sims tokens doc = true -> In (cand_of d tokens doc) L) /\
  (forall c, In c L -> exists doc m, In doc docs /\ c = mkCand (fst doc) (Score d m (zlen tokens) (zlen (snd doc))) /\
     MinY d alpha (zlen tokens) <= zlen (snd doc) <= MaxY d alpha (zlen tokens) /\
     1 <= m <= overlap_of tokens (snd doc) /\
     Threshold d (sims (zlen (snd doc))) (zlen tokens) (zlen (snd doc)) <= m /\
     Threshold d (sims (zlen (snd doc))) (zlen tokens) (zlen (snd doc)) <= zlen (snd doc)) /\
  (forall doc n, In doc docs -> (forall t, token_times t (snd doc) <= n)%nat -> (key_times (fst doc) L <= n)%nat).
