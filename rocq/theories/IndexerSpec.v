(** Specification vocabulary for C88. *)
From Coq Require Import List.
From Verif Require Import Base GoMap Paths Indexer.
Local Open Scope Z_scope.

(** The descriptions a run is about: all, or those with the given name; only those with the
    DISC driver have files. *)
Definition selected (dict : bytes) (ds : list description) : list description :=
  filter (fun d => beqb dict [] || beqb dict (p_name (d_place d))) ds.
Definition on_disc (ds : list description) : list description := filter d_disc ds.
Definition files_of (d : description) : list bytes := index_files (d_place d).
Definition source_of (d : description) : bytes := GetSourcePath (d_place d).
(** No two of the descriptions share a file, and no source is a file of one of them. *)
Definition apart (ds : list description) : Prop :=
  ForallOrdPairs (fun d d' => forall p, In p (files_of d) -> ~ In p (files_of d')) ds /\
  forall d d', In d ds -> In d' ds -> ~ In (source_of d) (files_of d').
(** The outside lets the files of a description be written. *)
Definition writable (o : outside) (d : description) : Prop :=
  (forall p, In p (files_of d) -> o_create o p = true) /\ o_dir o (GetIndexPath (d_place d)) = true.
