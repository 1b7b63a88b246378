(** Which file a path is the name of.  A file is the list of names from the root of the file
    system to it; [cwd] is the directory the process was started in.  (No symbolic links.) *)
From Coq Require Import String.
From Verif Require Import Base GoMap.
Local Open Scope Z_scope.

Definition place_of := list bytes.
(* one step: "" and "." stay, ".." goes to the directory above (at the root: stays) *)
Definition enter (dir : place_of) (x : bytes) : place_of :=
  if beqb x [] || beqb x (bs ".") then dir else if beqb x (bs "..") then removelast dir else dir ++ [x].
Definition walk (dir : place_of) (xs : list bytes) : place_of := fold_left enter xs dir.
(* the texts between the slashes *)
Fixpoint parts (p : bytes) : list bytes :=
  match p with
  | [] => [[]]
  | c :: t => if c =? 47 then [] :: parts t else match parts t with x :: r => (c :: x) :: r | [] => [[c]] end
  end.
Definition absolute (p : bytes) : bool := match p with c :: _ => c =? 47 | [] => false end.
Definition file (cwd : place_of) (p : bytes) : place_of := walk (if absolute p then [] else cwd) (parts p).
(** The path of a file, as somebody may write it: its last name is the file's own. *)
Definition names_file (p : bytes) : Prop := let x := last (parts p) [] in x <> [] /\ x <> bs "." /\ x <> bs "..".
