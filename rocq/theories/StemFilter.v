(** pkg/analysis/stemmer_filter.go with the stemmers of StemRu.v and StemEn.v. *)
From Verif Require Import Base Text GoMap Snowball.
From Verif Require StemRu StemEn.
Local Open Scope Z_scope.

(* stemmer_filter.go:51-59: a set; only membership is used *)
Definition in_set (stop : list bytes) (t : bytes) : bool := existsb (beqb t) stop.
(* stemmer_filter.go:38-46: one Env is used for all tokens *)
Fixpoint filter_loop (stemmer : env -> res (bool * env)) (stop : list bytes) (e : env) (list_ : list bytes) : res (list bytes) :=
  match list_ with
  | [] => Ret []
  | token :: rest =>
      if in_set stop token then filter_loop stemmer stop e rest
      else '(_, e) <- stemmer (SetCurrent token e) ;;
           filtered <- filter_loop stemmer stop e rest ;; Ret (cur e :: filtered)
  end.
(* stemmer_filter.go:34-49 *)
Definition Filter (stemmer : env -> res (bool * env)) (stop : list bytes) (list_ : list bytes) : res (list bytes) :=
  filter_loop stemmer stop (NewEnv []) list_.
(* stemmer_filter.go:18-23 *)
Definition RussianFilter : list bytes -> res (list bytes) := Filter StemRu.Stem StemRu.StopWords.
(* stemmer_filter.go:26-31 *)
Definition EnglishFilter : list bytes -> res (list bytes) := Filter StemEn.Stem StemEn.StopWords.
