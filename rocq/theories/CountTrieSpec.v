(** Specification vocabulary for C46 and C47. *)
From Verif Require Import Base.
Local Open Scope Z_scope.

(** The sum of the counts put under a sentence. *)
Definition sent_eqb (a b : list bytes) : bool := if list_eq_dec (list_eq_dec Z.eq_dec) a b then true else false.
Definition put_total (puts : list (list bytes * Z)) (s : list bytes) : Z :=
  fold_right (fun p a => (if sent_eqb (fst p) s then snd p else 0) + a) 0 puts.
(** Feeding a list of (path, count) to a callback, stopping at the first error. *)
Fixpoint feed {S} (cb : S -> list bytes -> Z -> option err * S) (l : list (list bytes * Z)) (s : S) : res unit * S :=
  match l with
  | [] => (Ret tt, s)
  | (p, c) :: t => match cb s p c with (Some e, s') => (Fail e, s') | (None, s') => feed cb t s' end
  end.
(** How often [g] occurs in [s] as consecutive words. *)
Definition occurrences (g s : list bytes) : Z := zlen (filter (fun i => sent_eqb (firstn (length g) (skipn i s)) g) (seq 0 (length s))).
Definition occurrences_in (first last : bytes) (sentences : list (list bytes)) (g : list bytes) : Z :=
  fold_right (fun s a => (match s with [] => 0 | _ => occurrences g (first :: s ++ [last]) end) + a) 0 sentences.
