(** C84: which requests reach which handler with which values. *)
From Coq Require Import String ZifyBool Lia.
From Verif Require Import Base BaseLemmas GoMap Routes.
Local Open Scope Z_scope.
Local Notation length := List.length.

(** A text that can be an element of a path: not empty, no slash, neither "." nor "..". *)
Definition plain (x : bytes) : Prop := x <> [] /\ ~ In 47 x /\ x <> [46] /\ x <> [46; 46].
(** "/a/b/c/" *)
Definition path (l : list bytes) : bytes := 47 :: concat (map (fun x => x ++ [47]) l).

Definition noslash (x : bytes) : Prop := ~ In 47 x.
Lemma split_nonempty s : split s <> [].
Proof. induction s as [|c s IH]; [discriminate|]. cbn [split]. destruct (c =? 47); [discriminate|]. destruct (split s); discriminate. Qed.
Lemma split_noslash s : Forall noslash (split s).
Proof.
  induction s as [|c s IH]; [repeat constructor; intros []|]. cbn [split]. destruct (Z.eqb_spec c 47); [constructor; [intros []|exact IH]|].
  destruct (split s) as [|x r]; [repeat constructor; intros [?|[]]; congruence|]. constructor; [|exact (Forall_inv_tail IH)]. intros [?|H]; [congruence|exact (Forall_inv IH H)].
Qed.
Lemma join_split s : join (split s) = s.
Proof.
  induction s as [|c s IH]; [reflexivity|]. cbn [split]. pose proof (split_nonempty s) as Hn. destruct (Z.eqb_spec c 47) as [->|].
  - destruct (split s) as [|x r] eqn:E; [congruence|]. change (join ([] :: x :: r)) with (47 :: join (x :: r)). rewrite IH. reflexivity.
  - destruct (split s) as [|x r] eqn:E; [congruence|]. destruct r as [|y r]; [change (join [c :: x]) with (c :: join [x])|change (join ((c :: x) :: y :: r)) with (c :: join (x :: y :: r))]; rewrite IH; reflexivity.
Qed.
Lemma split_one x : noslash x -> split x = [x].
Proof. induction x as [|c x IH]; [reflexivity|]. intros H. cbn [split]. destruct (Z.eqb_spec c 47) as [->|]; [exfalso; apply H; left; reflexivity|]. rewrite IH; [reflexivity|]. intros H1. apply H. right. exact H1. Qed.
Lemma split_cons x s : noslash x -> split (x ++ 47 :: s) = x :: split s.
Proof. induction x as [|c x IH]; [reflexivity|]. intros H. cbn [app split]. destruct (Z.eqb_spec c 47) as [->|]; [exfalso; apply H; left; reflexivity|]. rewrite IH; [reflexivity|]. intros H1. apply H. right. exact H1. Qed.
Lemma split_path l : Forall noslash l -> split (path l) = [] :: l ++ [[]].
Proof.
  unfold path. intros H. cbn [split]. change (47 =? 47) with true. cbn iota. f_equal. induction l as [|x l IH]; [reflexivity|]. cbn [map concat]. rewrite <- app_assoc. cbn [app]. rewrite (split_cons x _ (Forall_inv H)), IH by exact (Forall_inv_tail H). reflexivity.
Qed.
Lemma resolve_plain l : Forall plain l -> forall acc, resolve acc (l ++ [[]]) = rev acc ++ l.
Proof.
  induction l as [|x l IH]; intros H acc; [cbn; rewrite app_nil_r; reflexivity|]. cbn [app resolve]. destruct (Forall_inv H) as (H1 & _ & H3 & H4).
  destruct (beqb x [] || beqb x [46]) eqn:E; [apply orb_true_iff in E; destruct E as [E|E]; apply beqb_ok in E; congruence|]. destruct (beqb x [46; 46]) eqn:E2; [apply beqb_ok in E2; congruence|].
  rewrite IH by exact (Forall_inv_tail H). cbn [rev]. rewrite <- app_assoc. reflexivity.
Qed.
Lemma resolve_all l : Forall noslash l -> forall acc, Forall plain acc -> Forall plain (resolve acc l).
Proof.
  induction l as [|x l IH]; intros H acc Ha; [apply Forall_rev, Ha|]. cbn [resolve]. pose proof (Forall_inv H) as Hx. apply Forall_inv_tail in H. destruct (beqb x [] || beqb x [46]) eqn:E; [apply IH; assumption|]. destruct (beqb x [46; 46]) eqn:E2.
  - apply IH; [exact H|]. destruct acc; [exact Ha|exact (Forall_inv_tail Ha)].
  - apply IH; [exact H|]. constructor; [|exact Ha]. apply orb_false_iff in E. destruct E as [E1 E3]. split; [intros ->; rewrite (eqb_refl _ beqb_ok) in E1; discriminate|]. split; [exact Hx|]. split; intros ->; rewrite (eqb_refl _ beqb_ok) in *; discriminate.
Qed.
Lemma join_path l : 47 :: join (l ++ [[]]) = path l.
Proof.
  unfold path. f_equal. induction l as [|x l IH]; [reflexivity|]. cbn [map concat app]. destruct (l ++ [[]]) as [|y r] eqn:E; [destruct l; discriminate|]. change (join (x :: y :: r)) with (x ++ 47 :: join (y :: r)). rewrite IH, <- app_assoc. reflexivity.
Qed.
Lemma ends_path l : ends_slash (path l) = true.
Proof. rewrite <- join_path. unfold ends_slash. destruct l as [|x l] using rev_ind; [reflexivity|]. clear. rewrite join_path. unfold path. rewrite map_app, concat_app. cbn [map concat]. rewrite app_nil_r. cbn [rev]. rewrite !rev_app_distr. reflexivity. Qed.
Lemma join_last l x : l <> [] -> join l ++ 47 :: x = join (l ++ [x]).
Proof. induction l as [|y l IH]; [congruence|]. intros _. destruct l as [|z l]; [reflexivity|]. change (join (y :: z :: l)) with (y ++ 47 :: join (z :: l)). change ((y :: z :: l) ++ [x]) with (y :: (z :: l) ++ [x]). rewrite <- app_assoc. cbn [app]. rewrite IH by discriminate. reflexivity. Qed.
Lemma clean_path_plain l : Forall plain l -> cleanPath (path l) = path l.
Proof.
  intros H. assert (Forall noslash l) as Hn by (eapply Forall_impl; [|exact H]; intros x Hx; apply Hx). unfold cleanPath. destruct (path l) as [|c p] eqn:E; [discriminate|]. assert (c = 47) as -> by (unfold path in E; congruence). change (47 =? 47) with true. cbn iota. rewrite <- E, ends_path.
  unfold Clean. rewrite split_path by exact Hn. cbn [resolve]. change (beqb [] [] || beqb [] [46]) with true. cbn iota. rewrite (resolve_plain l H []). cbn [rev app andb].
  destruct l as [|x l]; [reflexivity|]. destruct (beqb (47 :: join (x :: l)) [47]) eqn:Eb.
  - exfalso. apply beqb_ok in Eb. injection Eb as Eb. destruct (Forall_inv H) as [H1 _]. destruct l as [|y l]; cbn in Eb; [congruence|]. destruct x; discriminate.
  - cbn [negb]. change (47 :: (join (x :: l) ++ 47 :: []) = path (x :: l)). rewrite (join_last (x :: l) []) by discriminate. apply join_path.
Qed.
(* what the router lets through *)
Definition rooted (p : bytes) : bytes := match p with c :: _ => if c =? 47 then p else 47 :: p | [] => [47] end.
Lemma clean_shape p : exists l, Forall plain l /\ (cleanPath p = path l \/ cleanPath p = 47 :: join l /\ l <> []).
Proof.
  assert (cleanPath p = if ends_slash (rooted p) && negb (beqb (Clean (rooted p)) [47]) then Clean (rooted p) ++ [47] else Clean (rooted p)) as ->.
  { destruct p as [|c p]; reflexivity. }
  generalize (rooted p). clear p. intros p. exists (resolve [] (split p)). split; [apply resolve_all; [apply split_noslash|constructor]|].
  unfold Clean. generalize (resolve [] (split p)). intros l. destruct l as [|x l]; [left; change (beqb (47 :: join []) [47]) with true; rewrite andb_false_r; reflexivity|].
  destruct (ends_slash p && negb (beqb (47 :: join (x :: l)) [47])) eqn:E.
  - left. change (47 :: (join (x :: l) ++ 47 :: []) = path (x :: l)). rewrite (join_last (x :: l) []) by discriminate. apply join_path.
  - right. split; [reflexivity|discriminate].
Qed.
Lemma clean_fixed p : cleanPath p = p -> exists l, Forall plain l /\ (p = path l \/ p = 47 :: join l /\ l <> []).
Proof. intros H. destruct (clean_shape p) as (l & Hl & H1). rewrite H in H1. exists l. split; assumption. Qed.
Lemma elements_path l : Forall noslash l -> elements (path l) = l.
Proof. intros H. unfold elements. rewrite split_path by exact H. rewrite rev_app_distr. cbn [rev app]. apply rev_involutive. Qed.
Lemma split_join l : Forall noslash l -> l <> [] -> split (join l) = l.
Proof. induction l as [|x l IH]; [congruence|]. intros H _. destruct l as [|y l]; [apply split_one, (Forall_inv H)|]. change (join (x :: y :: l)) with (x ++ 47 :: join (y :: l)). rewrite (split_cons x _ (Forall_inv H)), IH; [reflexivity|exact (Forall_inv_tail H)|discriminate]. Qed.
Lemma elements_join l : Forall plain l -> l <> [] -> elements (47 :: join l) = l.
Proof.
  intros H Hne. assert (Forall noslash l) as Hn by (eapply Forall_impl; [|exact H]; intros x Hx; apply Hx). unfold elements. cbn [split]. change (47 =? 47) with true. cbn iota. rewrite split_join by assumption.
  destruct (rev l) as [|x r] eqn:E; [reflexivity|]. destruct x as [|c x]; [|reflexivity]. exfalso. assert (In [] l) as Hi by (apply (proj2 (in_rev l [])); rewrite E; left; reflexivity). rewrite Forall_forall in H. destruct (H _ Hi) as [H1 _]. congruence.
Qed.
Lemma split_end s : exists k, k <> [] /\ split (s ++ [47]) = k ++ [[]].
Proof.
  induction s as [|c s IH]; [exists [[]]; split; [discriminate|reflexivity]|]. cbn [app split]. destruct IH as (k & Hk & ->). destruct (c =? 47); [exists ([] :: k); split; [discriminate|reflexivity]|].
  destruct k as [|x k]; [congruence|]. exists ((c :: x) :: k). split; [discriminate|reflexivity].
Qed.
Lemma ends_join l : Forall plain l -> l <> [] -> ends_slash (47 :: join l) = false.
Proof.
  intros H Hne. destruct (ends_slash (47 :: join l)) eqn:E; [|reflexivity]. exfalso. unfold ends_slash in E. destruct (rev (47 :: join l)) as [|c r] eqn:Er; [discriminate|]. apply Z.eqb_eq in E. subst c.
  assert (47 :: join l = rev r ++ [47]) as Ep by (rewrite <- (rev_involutive (47 :: join l)), Er; reflexivity).
  assert (Forall noslash l) as Hn by (eapply Forall_impl; [|exact H]; intros x Hx; apply Hx).
  assert (split (47 :: join l) = [] :: l) as Es by (cbn [split]; change (47 =? 47) with true; cbn iota; rewrite split_join by assumption; reflexivity).
  rewrite Ep in Es. destruct (split_end (rev r)) as (k & Hk & Ek). rewrite Ek in Es. destruct k as [|y k]; [congruence|]. injection Es as _ Es.
  assert (In [] l) as Hi by (rewrite <- Es; apply in_or_app; right; left; reflexivity). rewrite Forall_forall in H. destruct (H _ Hi) as [H1 _]. congruence.
Qed.
Lemma path_join l : Forall plain l -> l <> [] -> (47 :: join l) ++ [47] = path l.
Proof. intros H Hne. change (47 :: (join l ++ 47 :: []) = path l). rewrite (join_last l []) by exact Hne. apply join_path. Qed.
Lemma clean_join l : Forall plain l -> l <> [] -> cleanPath (47 :: join l) = 47 :: join l.
Proof.
  intros H Hne. assert (Forall noslash l) as Hn by (eapply Forall_impl; [|exact H]; intros x Hx; apply Hx). unfold cleanPath. change (47 =? 47) with true. cbn iota. rewrite ends_join by assumption. cbn [andb].
  unfold Clean. cbn [split]. change (47 =? 47) with true. cbn iota. rewrite split_join by assumption. cbn [resolve]. change (beqb [] [] || beqb [] [46]) with true. cbn iota.
  assert (forall acc, resolve acc l = rev acc ++ l) as Hr.
  { clear Hne Hn. induction l as [|x l IH]; intros acc; [cbn; rewrite app_nil_r; reflexivity|]. cbn [resolve]. destruct (Forall_inv H) as (H1 & _ & H3 & H4).
    destruct (beqb x [] || beqb x [46]) eqn:E; [apply orb_true_iff in E; destruct E as [E|E]; apply beqb_ok in E; congruence|]. destruct (beqb x [46; 46]) eqn:E2; [apply beqb_ok in E2; congruence|].
    rewrite (IH (Forall_inv_tail H)). cbn [rev]. rewrite <- app_assoc. reflexivity. }
  rewrite Hr. reflexivity.
Qed.

(* a path the router does not redirect, and what it does with it *)
Lemma match_path routes m l : Forall plain l -> forall mm,
  match_routes routes m (path l) mm =
  (fix go (rs : list route) (mm : bool) : routed := match rs with
     | [] => if mm then NotAllowed else NotFound
     | r :: rest => match match_elements (rt_template r) l with
         | Some v => if method_eqb (rt_method r) m then Handled (rt_handler r) v else go rest true
         | None => go rest mm end end) routes mm.
Proof.
  intros H. assert (Forall noslash l) as Hn by (eapply Forall_impl; [|exact H]; intros x Hx; apply Hx).
  induction routes as [|r rest IH]; intros mm; [reflexivity|]. cbn [match_routes]. rewrite elements_path by exact Hn. destruct (match_elements (rt_template r) l); [|apply IH]. rewrite ends_path. destruct (method_eqb (rt_method r) m); [reflexivity|apply IH].
Qed.
Lemma match_join routes m l : Forall plain l -> l <> [] -> forall mm,
  match_routes routes m (47 :: join l) mm =
  (fix go (rs : list route) (mm : bool) : routed := match rs with
     | [] => if mm then NotAllowed else NotFound
     | r :: rest => match match_elements (rt_template r) l with
         | Some v => if method_eqb (rt_method r) m then Redirect (path l) else go rest true
         | None => go rest mm end end) routes mm.
Proof.
  intros H Hne. induction routes as [|r rest IH]; intros mm; [reflexivity|]. cbn [match_routes]. rewrite elements_join by assumption. destruct (match_elements (rt_template r) l); [|apply IH]. rewrite ends_join by assumption. rewrite path_join by assumption. destruct (method_eqb (rt_method r) m); [reflexivity|apply IH].
Qed.
Lemma serve_path routes m l : Forall plain l -> serve routes m (path l) = match_routes routes m (path l) false.
Proof. intros H. unfold serve. rewrite clean_path_plain by exact H. rewrite (eqb_refl _ beqb_ok). reflexivity. Qed.
Lemma serve_join routes m l : Forall plain l -> l <> [] -> serve routes m (47 :: join l) = match_routes routes m (47 :: join l) false.
Proof. intros H Hne. unfold serve. rewrite clean_join by assumption. rewrite (eqb_refl _ beqb_ok). reflexivity. Qed.
Lemma serve_cases routes m p :
  (exists l, Forall plain l /\ p = path l /\ serve routes m p = match_routes routes m (path l) false) \/
  (exists l, Forall plain l /\ l <> [] /\ p = 47 :: join l /\ serve routes m p = match_routes routes m (47 :: join l) false) \/
  (cleanPath p <> p /\ serve routes m p = Redirect (cleanPath p)).
Proof.
  destruct (beqb (cleanPath p) p) eqn:E.
  - pose proof E as E1. apply beqb_ok in E1. destruct (clean_fixed p E1) as (l & Hl & [Hp|[Hp Hne]]).
    + left. exists l. split; [exact Hl|]. split; [exact Hp|]. unfold serve. rewrite E, Hp. reflexivity.
    + right; left. exists l. split; [exact Hl|]. split; [exact Hne|]. split; [exact Hp|]. unfold serve. rewrite E, Hp. reflexivity.
  - right; right. split; [intros H; rewrite H, (eqb_refl _ beqb_ok) in E; discriminate|]. unfold serve. rewrite E. reflexivity.
Qed.

(** * The requests the suggest server answers, and what its handlers are given *)
Inductive answered : method -> bytes -> handler -> list bytes -> Prop :=
| a_home : answered GET (bs "/") Home []
| a_autocomplete d q : plain d -> plain q -> answered GET (bs "/autocomplete/" ++ d ++ bs "/" ++ q ++ bs "/") Autocomplete [d; q]
| a_suggest d q : plain d -> plain q -> answered GET (bs "/suggest/" ++ d ++ bs "/" ++ q ++ bs "/") Suggest [d; q]
| a_dictionaries : answered GET (bs "/dict/list/") Dictionaries []
| a_reindex : answered POST (bs "/internal/reindex/") Reindex [].
(** ... and the spellchecker server *)
Inductive answered_spell : method -> bytes -> handler -> list bytes -> Prop :=
| b_home : answered_spell GET (bs "/") Home []
| b_predict q : plain q -> answered_spell GET (bs "/predict/" ++ q ++ bs "/") Predict [q].

Lemma plain_lit (x : bytes) : (negb (beqb x []) && negb (existsb (Z.eqb 47) x) && negb (beqb x [46]) && negb (beqb x [46; 46])) = true -> plain x.
Proof.
  intros H. rewrite !andb_true_iff, !negb_true_iff in H. destruct H as (((H1 & H2) & H3) & H4). split; [intros ->; discriminate|]. split; [|split; intros ->; discriminate].
  intros Hi. assert (existsb (Z.eqb 47) x = true) as E by (apply existsb_exists; exists 47; split; [exact Hi|reflexivity]). congruence.
Qed.
Lemma path2 a d q : path [a; d; q] = 47 :: a ++ 47 :: d ++ 47 :: q ++ [47].
Proof. unfold path. cbn [map concat]. rewrite <- !app_assoc. reflexivity. Qed.
Ltac plains := repeat apply Forall_cons; try apply Forall_nil; try assumption; try (apply plain_lit; reflexivity).

Lemma me2 a l v : match_elements [Lit a; Var; Var] l = Some v -> exists d q, l = [a; d; q] /\ v = [d; q].
Proof.
  destruct l as [|x l]; [discriminate|]. cbn [match_elements]. destruct (beqb a x) eqn:E; [|discriminate]. apply beqb_ok in E. subst x. destruct l as [|d l]; [discriminate|]. destruct (beqb d []); [discriminate|]. destruct l as [|q l]; [discriminate|]. destruct (beqb q []); [discriminate|]. destruct l; [|discriminate]. intros H. injection H as <-. exists d, q. split; reflexivity.
Qed.
Lemma me1 a l v : match_elements [Lit a; Var] l = Some v -> exists q, l = [a; q] /\ v = [q].
Proof.
  destruct l as [|x l]; [discriminate|]. cbn [match_elements]. destruct (beqb a x) eqn:E; [|discriminate]. apply beqb_ok in E. subst x. destruct l as [|q l]; [discriminate|]. destruct (beqb q []); [discriminate|]. destruct l; [|discriminate]. intros H. injection H as <-. exists q. split; reflexivity.
Qed.
Lemma me_lits a b l v : match_elements [Lit a; Lit b] l = Some v -> l = [a; b] /\ v = [].
Proof.
  destruct l as [|x l]; [discriminate|]. cbn [match_elements]. destruct (beqb a x) eqn:E; [|discriminate]. apply beqb_ok in E. subst x. destruct l as [|q l]; [discriminate|]. destruct (beqb b q) eqn:E; [|discriminate]. apply beqb_ok in E. subst q. destruct l; [|discriminate]. intros H. injection H as <-. split; reflexivity.
Qed.
Lemma me_nil l v : match_elements [] l = Some v -> l = [] /\ v = [].
Proof. destruct l; [|discriminate]. intros H. injection H as <-. split; reflexivity. Qed.
Lemma beq_self (x : bytes) : beqb x x = true. Proof. apply (eqb_refl _ beqb_ok). Qed.
Lemma nonempty_b (x : bytes) : plain x -> beqb x [] = false.
Proof. intros [H _]. destruct (beqb x []) eqn:E; [apply beqb_ok in E; congruence|reflexivity]. Qed.

(** ** C84.  A request reaches a handler exactly when it is one of the five documented ones, and
    the handler gets exactly the dictionary and the query that were in the path. *)
Theorem C84_suggest_server (m : method) (p : bytes) (h : handler) (vars : list bytes) :
  serve suggest_routes m p = Handled h vars <-> answered m p h vars.
Proof.
  split.
  - intros H. destruct (serve_cases suggest_routes m p) as [(l & Hl & Hp & Hs)|[(l & Hl & Hne & Hp & Hs)|(_ & Hs)]]; rewrite Hs in H; [| |discriminate].
    + rewrite match_path in H by exact Hl. cbn [suggest_routes rt_template rt_method rt_handler] in H. subst p. clear Hs.
      destruct (match_elements [] l) as [v|] eqn:E1.
      { apply me_nil in E1. destruct E1 as [-> ->]. destruct m; cbn in H; try discriminate H. injection H as <- <-. constructor. }
      destruct (match_elements [Lit (bs "autocomplete"); Var; Var] l) as [v|] eqn:E2.
      { apply me2 in E2. destruct E2 as (d & q & -> & ->). destruct m; [cbn [method_eqb] in H; injection H as <- <-; rewrite path2; apply (a_autocomplete d q)|vm_compute in H; discriminate H|vm_compute in H; discriminate H]; rewrite Forall_forall in Hl; apply Hl; cbn; tauto. }
      destruct (match_elements [Lit (bs "suggest"); Var; Var] l) as [v|] eqn:E3.
      { apply me2 in E3. destruct E3 as (d & q & -> & ->). destruct m; [cbn [method_eqb] in H; injection H as <- <-; rewrite path2; apply (a_suggest d q)|vm_compute in H; discriminate H|vm_compute in H; discriminate H]; rewrite Forall_forall in Hl; apply Hl; cbn; tauto. }
      destruct (match_elements [Lit (bs "dict"); Lit (bs "list")] l) as [v|] eqn:E4.
      { apply me_lits in E4. destruct E4 as [-> ->]. destruct m; vm_compute in H; try discriminate H. injection H as <- <-. constructor. }
      destruct (match_elements [Lit (bs "internal"); Lit (bs "reindex")] l) as [v|] eqn:E5; [|discriminate H].
      apply me_lits in E5. destruct E5 as [-> ->]. destruct m; vm_compute in H; try discriminate H. injection H as <- <-. constructor.
    + rewrite match_join in H by assumption. exfalso. revert H. clear. generalize false. induction suggest_routes as [|r rest IH]; intros mm; [destruct mm; discriminate|]. destruct (match_elements (rt_template r) l); [|apply IH]. destruct (method_eqb (rt_method r) m); [discriminate|apply IH].
  - intros H. destruct H as [|d q Hd Hq|d q Hd Hq| |]; try (vm_compute; reflexivity).
    + change (bs "/autocomplete/" ++ d ++ bs "/" ++ q ++ bs "/") with (47 :: bs "autocomplete" ++ 47 :: d ++ 47 :: q ++ [47]). rewrite <- path2, serve_path, match_path by plains.
      cbn [suggest_routes rt_template rt_method rt_handler match_elements]. rewrite beq_self, (nonempty_b d Hd), (nonempty_b q Hq). reflexivity.
    + change (bs "/suggest/" ++ d ++ bs "/" ++ q ++ bs "/") with (47 :: bs "suggest" ++ 47 :: d ++ 47 :: q ++ [47]). rewrite <- path2, serve_path, match_path by plains.
      cbn [suggest_routes rt_template rt_method rt_handler match_elements]. change (beqb (bs "autocomplete") (bs "suggest")) with false. cbn iota. rewrite beq_self, (nonempty_b d Hd), (nonempty_b q Hq). reflexivity.
Qed.
Print Assumptions C84_suggest_server.

Theorem C84_spellchecker_server (m : method) (p : bytes) (h : handler) (vars : list bytes) :
  serve spellchecker_routes m p = Handled h vars <-> answered_spell m p h vars.
Proof.
  split.
  - intros H. destruct (serve_cases spellchecker_routes m p) as [(l & Hl & Hp & Hs)|[(l & Hl & Hne & Hp & Hs)|(_ & Hs)]]; rewrite Hs in H; [| |discriminate].
    + rewrite match_path in H by exact Hl. cbn [spellchecker_routes rt_template rt_method rt_handler] in H. subst p. clear Hs.
      destruct (match_elements [] l) as [v|] eqn:E1.
      { apply me_nil in E1. destruct E1 as [-> ->]. destruct m; cbn in H; try discriminate H. injection H as <- <-. constructor. }
      destruct (match_elements [Lit (bs "predict"); Var] l) as [v|] eqn:E2; [|discriminate H].
      apply me1 in E2. destruct E2 as (q & -> & ->). destruct m; [cbn [method_eqb] in H; injection H as <- <-|vm_compute in H; discriminate H|vm_compute in H; discriminate H].
      replace (path [bs "predict"; q]) with (bs "/predict/" ++ q ++ bs "/") by (unfold path; cbn [map concat]; rewrite <- !app_assoc; reflexivity). constructor. rewrite Forall_forall in Hl; apply Hl; cbn; tauto.
    + rewrite match_join in H by assumption. exfalso. revert H. clear. generalize false. induction spellchecker_routes as [|r rest IH]; intros mm; [destruct mm; discriminate|]. destruct (match_elements (rt_template r) l); [|apply IH]. destruct (method_eqb (rt_method r) m); [discriminate|apply IH].
  - intros H. destruct H as [|q Hq]; [vm_compute; reflexivity|].
    replace (bs "/predict/" ++ q ++ bs "/") with (path [bs "predict"; q]) by (unfold path; cbn [map concat]; rewrite <- !app_assoc; reflexivity). rewrite serve_path, match_path by plains.
    cbn [spellchecker_routes rt_template rt_method rt_handler match_elements]. rewrite beq_self, (nonempty_b q Hq). reflexivity.
Qed.
Print Assumptions C84_spellchecker_server.

(** A documented request with another method is refused with 405; and never runs a handler. *)
Theorem C84_method (m m' : method) (p : bytes) (h : handler) (vars : list bytes) :
  answered m p h vars -> m' <> m -> serve suggest_routes m' p = NotAllowed.
Proof.
  intros H Hm. destruct H as [|d q Hd Hq|d q Hd Hq| |]; try (destruct m'; try congruence; vm_compute; reflexivity).
  - change (bs "/autocomplete/" ++ d ++ bs "/" ++ q ++ bs "/") with (47 :: bs "autocomplete" ++ 47 :: d ++ 47 :: q ++ [47]). rewrite <- path2, serve_path, match_path by plains.
    cbn [suggest_routes rt_template rt_method rt_handler match_elements]. rewrite beq_self, (nonempty_b d Hd), (nonempty_b q Hq). destruct m'; [congruence| |]; reflexivity.
  - change (bs "/suggest/" ++ d ++ bs "/" ++ q ++ bs "/") with (47 :: bs "suggest" ++ 47 :: d ++ 47 :: q ++ [47]). rewrite <- path2, serve_path, match_path by plains.
    cbn [suggest_routes rt_template rt_method rt_handler match_elements]. change (beqb (bs "autocomplete") (bs "suggest")) with false. cbn iota. rewrite beq_self, (nonempty_b d Hd), (nonempty_b q Hq). destruct m'; [congruence| |]; reflexivity.
Qed.
Print Assumptions C84_method.

(** Leaving the final slash out costs one redirect and nothing else. *)
Theorem C84_no_slash (m : method) (p : bytes) (h : handler) (vars : list bytes) :
  answered m (p ++ bs "/") h vars -> p <> [] -> serve suggest_routes m p = Redirect (p ++ bs "/").
Proof.
  intros H Hne. destruct (serve_cases suggest_routes m (p ++ bs "/")) as [Hc|[Hc|(_ & Hc)]]; [| |apply (proj2 (C84_suggest_server _ _ _ _)) in H; congruence].
  - destruct Hc as (l & Hl & Hp & Hs). destruct l as [|x l]; [destruct p as [|? [|? ?]]; [congruence|discriminate|discriminate]|].
    assert (p = 47 :: join (x :: l)) as Ep by (apply app_inv_tail with (l := bs "/"); rewrite Hp; symmetry; apply (path_join (x :: l)); [exact Hl|discriminate]).
    apply (proj2 (C84_suggest_server _ _ _ _)) in H. rewrite Hp, serve_path, match_path in H by exact Hl. rewrite Ep at 1. rewrite serve_join, match_join by (assumption || discriminate). rewrite Hp.
    clear Hs. revert H. generalize false. induction suggest_routes as [|r rest IH]; intros mm H; [destruct mm; discriminate|]. destruct (match_elements (rt_template r) (x :: l)); [|apply IH, H]. destruct (method_eqb (rt_method r) m); [reflexivity|apply (IH _ H)].
  - exfalso. destruct Hc as (l & Hl & Hn & Hp & _). pose proof (ends_join l Hl Hn) as E. rewrite <- Hp in E. unfold ends_slash in E. rewrite rev_app_distr in E. discriminate.
Qed.
Print Assumptions C84_no_slash.

(** Redirects end: whatever path is asked for, following at most two of them leads to an answer. *)
Theorem C84_redirects_end (routes : list route) (m : method) (p p1 p2 p3 : bytes) :
  serve routes m p = Redirect p1 -> serve routes m p1 = Redirect p2 -> serve routes m p2 <> Redirect p3.
Proof.
  assert (forall l, Forall plain l -> serve routes m (path l) <> Redirect p3) as Hend.
  { intros l Hl. rewrite serve_path, match_path by exact Hl. generalize false. induction routes as [|r rest IH]; intros mm; [destruct mm; discriminate|]. destruct (match_elements (rt_template r) l); [|apply IH]. destruct (method_eqb (rt_method r) m); [discriminate|apply IH]. }
  assert (forall l q, Forall plain l -> serve routes m (path l) <> Redirect q) as Hend'.
  { intros l q Hl. rewrite serve_path, match_path by exact Hl. clear. generalize false. induction routes as [|r rest IH]; intros mm; [destruct mm; discriminate|]. destruct (match_elements (rt_template r) l); [|apply IH]. destruct (method_eqb (rt_method r) m); [discriminate|apply IH]. }
  assert (forall l q, Forall plain l -> l <> [] -> serve routes m (47 :: join l) = Redirect q -> q = path l) as Hj.
  { intros l q Hl Hne. rewrite serve_join, match_join by assumption. clear. generalize false. induction routes as [|r rest IH]; intros mm; [destruct mm; discriminate|]. destruct (match_elements (rt_template r) l); [|apply IH]. destruct (method_eqb (rt_method r) m); [congruence|apply IH]. }
  intros H1 H2. assert (exists l, Forall plain l /\ (p1 = path l \/ p1 = 47 :: join l /\ l <> [])) as (l & Hl & [->|[-> Hne]]).
  { destruct (serve_cases routes m p) as [(l & Hl & -> & _)|[(l & Hl & Hne & -> & _)|(_ & Hs)]].
    - exfalso. exact (Hend' l p1 Hl H1).
    - exists l. split; [exact Hl|left]. exact (Hj l p1 Hl Hne H1).
    - rewrite Hs in H1. injection H1 as <-. apply clean_shape. }
  - exfalso. exact (Hend' l p2 Hl H2).
  - rewrite (Hj l p2 Hl Hne H2). apply Hend, Hl.
Qed.
Print Assumptions C84_redirects_end.

(** Refuted: a dictionary whose name has a slash in it is listed, and no request can ask for it;
    the same for a query with a slash, and for the queries "." and "..". *)
Theorem C84_any_name_refuted (m : method) (p d q : bytes) :
  In 47 d \/ In 47 q \/ q = bs "." \/ q = bs ".." ->
  serve suggest_routes m p <> Handled Suggest [d; q] /\ serve suggest_routes m p <> Handled Autocomplete [d; q].
Proof.
  intros H. split; intros Hs; apply (proj1 (C84_suggest_server _ _ _ _)) in Hs; inversion Hs as [|? ? Hd Hq|? ? Hd Hq| |]; subst;
    destruct Hd as (_ & Hd & _), Hq as (_ & Hq & Hq1 & Hq2); destruct H as [H|[H|[H|H]]]; contradiction.
Qed.
Print Assumptions C84_any_name_refuted.

(** The hypotheses are met. *)
Example C84_nonvacuous :
  serve suggest_routes GET (bs "/suggest/cars/nissan march/") = Handled Suggest [bs "cars"; bs "nissan march"] /\
  serve suggest_routes GET (bs "/autocomplete/cars/ni") = Redirect (bs "/autocomplete/cars/ni/") /\
  serve suggest_routes GET (bs "/suggest//cars/./nissan") = Redirect (bs "/suggest/cars/nissan") /\
  serve suggest_routes POST (bs "/internal/reindex/") = Handled Reindex [] /\
  serve suggest_routes GET (bs "/internal/reindex/") = NotAllowed /\
  serve suggest_routes GET (bs "/suggest/cars/a/b/") = NotFound /\
  serve suggest_routes GET (bs "/suggest/cars/../") = Redirect (bs "/suggest/") /\
  serve spellchecker_routes GET (bs "/predict/hello wrold/") = Handled Predict [bs "hello wrold"].
Proof. vm_compute. repeat split; reflexivity. Qed.
