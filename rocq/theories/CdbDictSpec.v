(** What is assumed of the cdb library, and the vocabulary of C74. *)
From Verif Require Import Base Store Scanner ScannerSpec CdbDict.
Local Open Scope Z_scope.

(** size of a cdb file: header, records, two slots per record *)
Definition cdb_size (recs : list record) : Z := 2048 + fold_right (fun r n => 8 + zlen (fst r) + zlen (snd r) + 16 + n) 0 recs.
(** Files below 4 GB can be written; a record with a non-empty value is found under its key
    when no other has this key; other keys are not found; non-empty sections can be read.
    Nothing is assumed about empty values: a section reader may report the end of the file
    for them, or not. *)
Definition cdb_ok (L : cdblib) : Prop :=
  (forall recs r, cdb_size (recs ++ [r]) < 2 ^ 32 -> cdb_put L recs r = None) /\
  (forall recs k v, NoDup (map fst recs) -> In (k, v) recs -> v <> [] -> cdb_get L recs k = Ret (Some v)) /\
  (forall recs k, ~ In k (map fst recs) -> cdb_get L recs k = Ret None) /\
  (forall b, b <> [] -> cdb_read L b = Ret b).
(** The words of a dictionary file that both drivers take as it is: lines of at most 65535
    bytes, none empty, few and short enough. *)
Definition file_ok (file : bytes) (words : list bytes) : Prop :=
  words = map without_cr (raw_lines file) /\ (forall l, In l (raw_lines file) -> zlen l < 65536) /\
  (forall w, In w words -> w <> []) /\ zlen words < 2 ^ 32 /\ 2048 + fold_right (fun w n => 28 + zlen w + n) 0 words < 2 ^ 32.
