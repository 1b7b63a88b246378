(** Model of the paths in the configurations: pkg/suggest/config.go:25-81, 98-109 and
    pkg/lm/config.go:14-62, 83-86, with path.IsAbs, path.Clean, path.Split and path.Dir of the
    standard library.  Definitions only.  The texts of a configuration are taken as parsed. *)
From Coq Require Import String.
From Verif Require Import Base GoMap Routes Decimal.
Local Open Scope Z_scope.
Local Notation length := List.length.

(* path.IsAbs *)
Definition IsAbs (p : bytes) : bool := match p with c :: _ => c =? 47 | [] => false end.
(* path.Clean: "" and "." go, ".." takes the element before it away, at the root nothing, at the
   front of a relative path it stays *)
Fixpoint clean_elements (rooted : bool) (acc l : list bytes) : list bytes :=
  match l with
  | [] => rev acc
  | x :: t =>
      if beqb x [] || beqb x [46] then clean_elements rooted acc t
      else if beqb x [46; 46] then
        match acc with
        | y :: acc' => if beqb y [46; 46] then clean_elements rooted (x :: acc) t else clean_elements rooted acc' t
        | [] => if rooted then clean_elements rooted [] t else clean_elements rooted [x] t
        end
      else clean_elements rooted (x :: acc) t
  end.
Definition CleanAny (p : bytes) : bytes :=
  let rooted := IsAbs p in
  let s := join (clean_elements rooted [] (split p)) in
  if rooted then 47 :: s else match s with [] => [46] | _ => s end.
(* path.Dir: Clean of the text up to and with the last slash *)
Definition Dir (p : bytes) : bytes := CleanAny (join (removelast (split p) ++ [[]])).

(* config.go:25-35, lm/config.go:14-24: the fields the paths depend on *)
Record place := mkPlace { p_name : bytes; p_source : bytes; p_output : bytes; p_base : bytes }.
(* config.go:103-107, lm/config.go:84 *)
Definition with_base (configPath : bytes) (c : place) : place := mkPlace (p_name c) (p_source c) (p_output c) (Dir configPath).
Definition based (base p : bytes) : bytes := if IsAbs p then p else base ++ 47 :: p.
(* config.go:43-49, lm/config.go:47-53 *)
Definition GetIndexPath (d : place) : bytes := based (p_base d) (p_output d).
(* config.go:52-58, lm/config.go:56-62 *)
Definition GetSourcePath (d : place) : bytes := based (p_base d) (p_source d).
(* config.go:38-40, lm/config.go:37-39 *)
Definition GetDictionaryFile (d : place) : bytes := GetIndexPath d ++ 47 :: p_name d ++ bs ".cdb".
(* fs_directory.go:42, :56 *)
Definition in_directory (dir name : bytes) : bytes := dir ++ 47 :: name.
(* config.go:74-76, :79-81, opened in the directory of GetIndexPath (indexer.go:129,
   ngram_index_builder.go:60-76) *)
Definition header_path (d : place) : bytes := in_directory (GetIndexPath d) (p_name d ++ bs ".hd").
Definition list_path (d : place) : bytes := in_directory (GetIndexPath d) (p_name d ++ bs ".dl").
(* lm/config.go:42-44, in the directory of GetOutputPath *)
Definition binary_path (d : place) : bytes := in_directory (GetIndexPath d) (p_name d ++ bs ".lm").
(* lm/ngram_writer.go:42, ngram_reader.go:58: fileFormat "%d-gm" *)
Definition ngram_path (d : place) (k : Z) : bytes := in_directory (GetIndexPath d) (dec k ++ bs "-gm").

(* the files of an index description on disc, and of a language model of an order *)
Definition index_files (d : place) : list bytes := [GetDictionaryFile d; header_path d; list_path d].
Definition model_files (d : place) (order : nat) : list bytes :=
  GetDictionaryFile d :: binary_path d :: map (fun k => ngram_path d (Z.of_nat k)) (seq 1 order).
