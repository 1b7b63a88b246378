(** Specification vocabulary for C71-C73: the n-grams of a text, and which index a dictionary gives. *)
From Coq Require Import String.
From Coq Require Import Reals Sorted.
From Verif Require Import Base GoMap Float64 Text AnalysisSpec Analysis Store Postings Index IndexSpec Metric MetricSpec NGramIndex.
Local Open Scope Z_scope.

(** an n-gram whose characters outside the alphabet are replaced *)
Definition padded (has : Z -> bool) (pad : bytes) (t : bytes) : bytes := concat (map (fun rb => if has (fst rb) then snd rb else pad) (runes t)).
(** The n-grams of a lower-cased, trimmed text: its substrings of n characters, each once, in
    order of first occurrence; a text of fewer characters stands for itself if it has at
    least n bytes. *)
Definition substrings (n : nat) (p : bytes) : list bytes :=
  if (n <=? length (chars p))%nat then first_occurrences (windows n (chars p)) else if (length p <? n)%nat then [] else [p].
Definition grams (lowr : Z -> Z) (d : tokconf) (text : bytes) : list bytes := map (padded (t_has d) (t_pad d)) (substrings (Z.to_nat (t_n d)) (Trim (ToLower lowr text))).
(** of an entry and of a query to Suggest; of a query to Autocomplete *)
Definition entry_grams (lowr : Z -> Z) (d : tokconf) (w : bytes) : list bytes := grams lowr d (t_wrap0 d ++ w ++ t_wrap1 d).
Definition prefix_grams (lowr : Z -> Z) (d : tokconf) (q : bytes) : list bytes := grams lowr d (t_wrap0 d ++ q).
(** how many of the n-grams g the list h has *)
Definition common (g h : list bytes) : Z := zlen (filter (fun t => existsb (beqb t) h) g).

(** Dictionaries with distinct n-grams in each entry, the first entry not without any. *)
Definition dictionary_ok (lowr : Z -> Z) (d : tokconf) (words : list bytes) : Prop :=
  1 <= t_n d <= 8 /\ zlen words < 2 ^ 32 /\ (exists w ws, words = w :: ws /\ entry_grams lowr d w <> []) /\
  forall w, In w words -> NoDup (entry_grams lowr d w) /\ zlen (entry_grams lowr d w) + 1 < 2 ^ 26.
(** [ix] is an index of the dictionary: built in memory, or committed to a fresh directory
    with any flushes and read from there; in both cases below 4 GB. *)
Definition index_built (rb : roaring) (g : gobcodec) (ord : Z -> index_map -> index_map) (name : string) (lowr : Z -> Z) (d : tokconf) (words : list bytes) (ix : list (option inverted)) : Prop :=
  exists ops, IndexDictionary rb g ord (documentListFile name) (headerFile name) 0 (ToLower lowr) d words = Ret ops /\
  (RAMBuild rb g ord name (ToLower lowr) d words = Ret ix /\ (forall b, ram_open (ram_run NewRAMDirectory ops) (documentListFile name) = Some b -> zlen b < 2 ^ 32)
   \/ exists ops', with_flushes 0 ops ops' /\ FSBuild g name (fs_run NewFSDirectory ops') = Ret ix
      /\ forall b, fs_open (fs_run NewFSDirectory ops') (documentListFile name) = Some b -> zlen b < 2 ^ 32).

(** The entry at a position; its computed score and its similarity for a query with the n-grams q. *)
Definition entry_at (words : list bytes) (i : Z) : bytes := nth (Z.to_nat i) words [].
Definition gram_score (lowr : Z -> Z) (d : tokconf) (m : metric) (q : list bytes) (w : bytes) : f64 :=
  Score m (common q (entry_grams lowr d w)) (zlen q) (zlen (entry_grams lowr d w)).
Definition gram_similarity (lowr : Z -> Z) (d : tokconf) (m : metric) (q : list bytes) (w : bytes) : R :=
  similarity m (common q (entry_grams lowr d w)) (zlen q) (zlen (entry_grams lowr d w)).
(** positions, best first: descending scores, ascending positions among equal scores *)
Definition best_first (sc : Z -> f64) (ids : list Z) : Prop :=
  StronglySorted (fun i j => flt (sc i) (sc j) = false /\ (feq (sc i) (sc j) = true -> i <= j)) ids.
(** the positions of the entries that have all of the n-grams q, ascending *)
Definition matches (lowr : Z -> Z) (d : tokconf) (q : list bytes) (words : list bytes) : list Z :=
  filter (fun i => forallb (fun t => existsb (beqb t) (entry_grams lowr d (entry_at words i))) q) (map Z.of_nat (seq 0 (length words))).
