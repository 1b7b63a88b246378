(** Go maps as association lists without repeated keys.  Go leaves the iteration
    order of [range] unspecified: code that iterates is modelled with a parameter
    giving an arbitrary permutation of the entries.  Definitions and basic lemmas. *)
From Coq Require Export Permutation.
From Verif Require Import Base.

Section GoMap.
Context {K V : Type} (eqb : K -> K -> bool).
(* m[k], ok *)
Fixpoint mget (m : list (K * V)) (k : K) : option V :=
  match m with
  | [] => None
  | (k', v) :: t => if eqb k' k then Some v else mget t k
  end.
(* m[k] = v *)
Fixpoint mset (m : list (K * V)) (k : K) (v : V) : list (K * V) :=
  match m with
  | [] => [(k, v)]
  | (k', v') :: t => if eqb k' k then (k', v) :: t else (k', v') :: mset t k v
  end.
(* delete(m, k) *)
Fixpoint mdel (m : list (K * V)) (k : K) : list (K * V) :=
  match m with
  | [] => []
  | (k', v') :: t => if eqb k' k then t else (k', v') :: mdel t k
  end.

Definition eqb_ok : Prop := forall a b, eqb a b = true <-> a = b.
Hypothesis E : eqb_ok.

Lemma eqb_refl a : eqb a a = true. Proof. apply E. reflexivity. Qed.
Lemma eqb_neq a b : a <> b -> eqb a b = false.
Proof. intros H. destruct (eqb a b) eqn:Eab; [|reflexivity]. apply E in Eab. congruence. Qed.

Lemma mget_mset m k v k' : mget (mset m k v) k' = if eqb k k' then Some v else mget m k'.
Proof.
  induction m as [|[a x] m IH]; cbn [mset mget]; [reflexivity|].
  destruct (eqb a k) eqn:Ea.
  - apply E in Ea. subst a. cbn [mget]. destruct (eqb k k'); reflexivity.
  - cbn [mget]. rewrite IH. destruct (eqb a k') eqn:Ea'; [|reflexivity].
    apply E in Ea'. subst a. destruct (eqb k k') eqn:Ek; [|reflexivity]. apply E in Ek. subst k. rewrite eqb_refl in Ea. discriminate.
Qed.
Lemma mset_keys_in m k v x : In x (map fst (mset m k v)) <-> In x (map fst m) \/ x = k.
Proof.
  induction m as [|[a y] m IH]; cbn [mset map fst In].
  - split; [intros [->|[]]; auto|intros [[]| ->]; auto].
  - destruct (eqb a k) eqn:Ea; cbn [map fst In].
    + apply E in Ea. subst. split; [tauto|]. intros [H|H]; auto.
    + rewrite IH. tauto.
Qed.
Lemma mset_nodup m k v : NoDup (map fst m) -> NoDup (map fst (mset m k v)).
Proof.
  induction m as [|[a y] m IH]; cbn [mset map fst]; intros H.
  - constructor; [intros []|constructor].
  - apply NoDup_cons_iff in H. destruct H as [H1 H2]. destruct (eqb a k) eqn:Ea; cbn [map fst].
    + constructor; assumption.
    + constructor; [|apply IH; exact H2]. rewrite mset_keys_in. intros [H| ->]; [contradiction|]. rewrite eqb_refl in Ea. discriminate.
Qed.
Lemma mget_In m k v : NoDup (map fst m) -> (mget m k = Some v <-> In (k, v) m).
Proof.
  induction m as [|[a y] m IH]; cbn [mget map fst In]; intros H; [split; [discriminate|tauto]|].
  apply NoDup_cons_iff in H. destruct H as [H1 H2]. destruct (eqb a k) eqn:Ea.
  - apply E in Ea. subst a. split.
    + intros H. injection H as ->. auto.
    + intros [H|H]; [congruence|]. exfalso. apply H1. apply (in_map fst) in H. exact H.
  - rewrite (IH H2). split; [auto|]. intros [H|H]; [|exact H]. injection H as -> ->. rewrite eqb_refl in Ea. discriminate.
Qed.
Lemma mget_None m k : mget m k = None <-> ~ In k (map fst m).
Proof.
  induction m as [|[a y] m IH]; cbn [mget map fst In]; [tauto|].
  destruct (eqb a k) eqn:Ea.
  - apply E in Ea. subst. split; [discriminate|tauto].
  - rewrite IH. split; [|tauto]. intros H [->|H']; [rewrite eqb_refl in Ea; discriminate|tauto].
Qed.
(* the iteration order does not matter to lookups *)
Lemma mget_perm m m' k : NoDup (map fst m) -> Permutation m m' -> mget m' k = mget m k.
Proof.
  intros H Hp. assert (NoDup (map fst m')) as H' by (eapply Permutation_NoDup; [apply Permutation_map; exact Hp|exact H]).
  destruct (mget m k) as [v|] eqn:Em.
  - apply (mget_In m' k v H'). apply (mget_In m k v H) in Em. eapply Permutation_in; eauto.
  - apply mget_None. apply mget_None in Em. intros Hin. apply Em. eapply Permutation_in; [apply Permutation_sym, Permutation_map; exact Hp|exact Hin].
Qed.
End GoMap.

(* Go string comparison, on bytes *)
Fixpoint beqb (a b : bytes) : bool :=
  match a, b with
  | [], [] => true
  | x :: a', y :: b' => Z.eqb x y && beqb a' b'
  | _, _ => false
  end.
Lemma beqb_ok : eqb_ok beqb.
Proof.
  intros a. induction a as [|x a IH]; intros [|y b]; cbn [beqb]; split; intros H; try discriminate; auto.
  - apply andb_prop in H. destruct H as [H1 H2]. apply Z.eqb_eq in H1. apply IH in H2. congruence.
  - injection H as -> ->. rewrite Z.eqb_refl. apply IH. reflexivity.
Qed.
Lemma Zeqb_ok : eqb_ok Z.eqb.
Proof. intros a b. apply Z.eqb_eq. Qed.
