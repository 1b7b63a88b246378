(** Specification vocabulary for C101 and C102. *)
From Coq Require Import String.
From Verif Require Import Base GoMap Store Postings PostingsSpec PostingsDrive Merger MergerSpec Text Analysis AnalysisSpec Index IndexSpec Float64 Metric Suggest SuggestSpec NGramIndex NGramIndexSpec.
Local Open Scope Z_scope.

(** Some Suggest call returned [items]: over some index of the dictionary (built with whatever
    codec, iteration order of the maps and flushes), with some sorter, limit and schedule of its goroutines. *)
Definition returned (lowr : Z -> Z) (d : tokconf) (words : list bytes) (query : bytes) (m : metric) (alpha : f64) (topK : Z) (items : list (f64 * bytes)) : Prop :=
  exists rb srt g ord name ix sched, roaring_ok rb /\ roaring_written rb /\ gob_ok g /\ order_ok ord /\ sorter_ok srt /\
    index_built rb g ord name lowr d words ix /\ 1 <= topK /\
    ServiceSuggest rb srt ix words (ToLower lowr) d query alpha m topK sched = Some (Ret items).
(** The metrics from the strictest to the most lenient *)
Definition leniency (m : metric) : Z := match m with Exact => 0 | Jaccard => 1 | Dice => 2 | Cosine => 3 | Overlap => 4 end.
