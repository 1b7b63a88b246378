(** Specification of a top-k selection. *)
From Coq Require Import Permutation Sorted.
From Verif Require Import Base Float64 TopK.
Local Open Scope Z_scope.

(** a is a worse answer than b: a smaller score, or the same score and a larger id *)
Definition worse (a b : cand) : Prop :=
  flt (Sc a) (Sc b) = true \/ (feq (Sc a) (Sc b) = true /\ Key b < Key a).
(** r lists the k best of l, best first *)
Definition best_k (k : Z) (l r : list cand) : Prop :=
  Z.of_nat (length r) = Z.min k (Z.of_nat (length l)) /\
  StronglySorted (fun a b => ~ worse a b) r /\
  exists rest, Permutation l (r ++ rest) /\ forall a b, In a r -> In b rest -> ~ worse a b.
(** the scores are numbers *)
Definition numeric (l : list cand) : Prop := Forall (fun c => Sc c <> S754_nan) l.
(** same answer: same id and equal score (0 and -0 are equal scores) *)
Definition same (a b : cand) : Prop := Key a = Key b /\ feq (Sc a) (Sc b) = true.

(** Histories of a queue: the candidates it was given so far.  A queue is created, given
    a candidate, listed, reset, or given the content of another queue (made with at
    least the same k, or counting only what the other queue lists). *)
Inductive history : queue -> Z -> list cand -> Prop :=
| H_new k q : 1 <= k -> NewTopKQueue k = Ret q -> history q k []
| H_add q k l c q' : history q k l -> Sc c <> S754_nan -> Add q (Key c) (Sc c) = Ret q' -> history q' k (l ++ [c])
| H_list q k l : history q k l -> history (snd (GetCandidates q)) k l
| H_merge q k l q2 k2 l2 q' : history q k l -> history q2 k2 l2 -> k <= k2 -> Merge q q2 = Ret q' -> history q' k (l ++ l2)
| H_merge_listed q k l q2 k2 l2 q' : history q k l -> history q2 k2 l2 -> Merge q q2 = Ret q' -> history q' k (l ++ fst (GetCandidates q2))
| H_reset q k l k' : 1 <= k' -> history q k l -> history (Reset q k') k' [].
