(** C85: the files of the configured dictionaries and models. *)
From Coq Require Import String ZifyBool Lia.
From Verif Require Import Base BaseLemmas GoMap Routes P_Routes Decimal Paths PathsSpec.
Local Open Scope Z_scope.
Local Notation length := List.length.

Lemma parts_split p : parts p = split p.
Proof. induction p as [|c p IH]; [reflexivity|]. cbn [parts split]. rewrite IH. reflexivity. Qed.
Lemma walk_app d a b : walk d (a ++ b) = walk (walk d a) b. Proof. apply fold_left_app. Qed.
Lemma enter_plain d x : x <> [] -> x <> [46] -> x <> [46; 46] -> enter d x = d ++ [x].
Proof.
  intros H1 H2 H3. unfold enter. change (bs ".") with [46]. change (bs "..") with [46; 46]. destruct (beqb x [] || beqb x [46]) eqn:E; [apply orb_true_iff in E; destruct E as [E|E]; apply beqb_ok in E; congruence|]. destruct (beqb x [46; 46]) eqn:E2; [apply beqb_ok in E2; congruence|reflexivity].
Qed.
Lemma enter_skip d x : (beqb x [] || beqb x [46]) = true -> enter d x = d.
Proof. intros H. unfold enter. change (bs ".") with [46]. rewrite H. reflexivity. Qed.
Definition solid (x : bytes) : Prop := x <> [] /\ x <> [46].
Lemma walk_clean rooted d : (rooted = true -> d = []) -> forall l acc, Forall solid acc -> walk d (clean_elements rooted acc l) = walk d (rev acc ++ l).
Proof.
  intros Hd. induction l as [|x l IH]; intros acc Ha; [cbn [clean_elements]; rewrite app_nil_r; reflexivity|]. cbn [clean_elements].
  destruct (beqb x [] || beqb x [46]) eqn:E.
  { rewrite (IH acc Ha). rewrite !walk_app. change (walk (walk d (rev acc)) (x :: l)) with (walk (enter (walk d (rev acc)) x) l). rewrite (enter_skip _ x E). reflexivity. }
  assert (solid x) as Hx. { apply orb_false_iff in E. destruct E as [E1 E2]. split; intros ->; rewrite (eqb_refl _ beqb_ok) in *; discriminate. }
  destruct (beqb x [46; 46]) eqn:E2.
  - apply beqb_ok in E2. subst x. destruct acc as [|y acc].
    + destruct rooted eqn:Er; [|etransitivity; [apply IH; repeat constructor; apply Hx|reflexivity]]. etransitivity; [apply IH, Ha|]. rewrite (Hd eq_refl). reflexivity.
    + destruct (beqb y [46; 46]) eqn:Ey; [etransitivity; [apply IH; constructor; assumption|]; cbn [rev]; rewrite <- !app_assoc; reflexivity|].
      rewrite (IH acc (Forall_inv_tail Ha)). cbn [rev]. rewrite <- app_assoc. cbn [app]. rewrite !walk_app. change (walk (walk d (rev acc)) (y :: [46; 46] :: l)) with (walk (enter (enter (walk d (rev acc)) y) [46; 46]) l).
      destruct (Forall_inv Ha) as [H1 H2]. rewrite (enter_plain _ y H1 H2) by (intros ->; rewrite (eqb_refl _ beqb_ok) in Ey; discriminate). unfold enter. change (beqb [46; 46] [] || beqb [46; 46] (bs ".")) with false. change (beqb [46; 46] (bs "..")) with true. cbn iota. rewrite removelast_last. reflexivity.
  - rewrite (IH (x :: acc)) by (constructor; assumption). cbn [rev]. rewrite <- app_assoc. reflexivity.
Qed.
Lemma clean_noslash rooted : forall l acc, Forall noslash l -> Forall noslash acc -> Forall noslash (clean_elements rooted acc l).
Proof.
  induction l as [|x l IH]; intros acc Hl Ha; [apply Forall_rev, Ha|]. pose proof (Forall_inv Hl) as Hx. apply Forall_inv_tail in Hl. cbn [clean_elements]. destruct (beqb x [] || beqb x [46]); [apply IH; assumption|]. destruct (beqb x [46; 46]).
  - destruct acc as [|y acc]; [destruct rooted; apply IH; repeat constructor; assumption|]. destruct (beqb y [46; 46]); apply IH; try assumption; [constructor; assumption|exact (Forall_inv_tail Ha)].
  - apply IH; [exact Hl|constructor; assumption].
Qed.
Lemma join_abs l : Forall solid l -> Forall noslash l -> IsAbs (join l) = false.
Proof.
  intros H Hn. destruct l as [|x l]; [reflexivity|]. destruct (Forall_inv H) as [H1 _]. destruct x as [|c x]; [congruence|]. pose proof (Forall_inv Hn) as Hc. assert (c <> 47) as Hne by (intros ->; apply Hc; left; reflexivity).
  destruct l; cbn [join app IsAbs]; lia.
Qed.
Lemma clean_solid rooted : forall l acc, Forall solid acc -> Forall solid (clean_elements rooted acc l).
Proof.
  induction l as [|x l IH]; intros acc Ha; [apply Forall_rev, Ha|]. cbn [clean_elements]. destruct (beqb x [] || beqb x [46]) eqn:E; [apply IH; assumption|].
  assert (solid x) as Hx. { apply orb_false_iff in E. destruct E as [E1 E2]. split; intros ->; rewrite (eqb_refl _ beqb_ok) in *; discriminate. }
  destruct (beqb x [46; 46]).
  - destruct acc as [|y acc]; [destruct rooted; apply IH; repeat constructor; try assumption; apply Hx|]. destruct (beqb y [46; 46]); apply IH; try assumption; [constructor; assumption|exact (Forall_inv_tail Ha)].
  - apply IH; constructor; assumption.
Qed.
Lemma file_clean cwd p : file cwd (CleanAny p) = file cwd p /\ absolute (CleanAny p) = absolute p /\ CleanAny p <> [].
Proof.
  unfold CleanAny. pose proof (split_noslash p) as Hn. pose proof (clean_noslash (IsAbs p) (split p) [] Hn (Forall_nil _)) as Hn'. pose proof (clean_solid (IsAbs p) (split p) [] (Forall_nil _)) as Hs.
  set (els := clean_elements (IsAbs p) [] (split p)) in *. destruct (IsAbs p) eqn:Ea.
  - split; [|split; [symmetry; exact Ea|discriminate]]. unfold file. change (absolute p) with (IsAbs p). rewrite Ea. change (absolute (47 :: join els)) with true. cbn iota. rewrite !parts_split. cbn [split]. change (47 =? 47) with true. cbn iota. change (walk [] ([] :: split (join els))) with (walk [] (split (join els))).
    assert (walk [] (split (join els)) = walk [] els) as ->. { destruct els as [|x els'] eqn:Ee; [reflexivity|]. rewrite split_join; [reflexivity|assumption|discriminate]. }
    unfold els. rewrite (walk_clean true []) by (constructor || reflexivity). reflexivity.
  - assert (walk cwd els = walk cwd (split p)) as Hw by (unfold els; rewrite (walk_clean false cwd) by (discriminate || constructor); reflexivity).
    assert (file cwd p = walk cwd els) as -> by (unfold file; change (absolute p) with (IsAbs p); rewrite Ea, parts_split, Hw; reflexivity).
    pose proof (join_abs els Hs Hn') as Hj. destruct (join els) as [|c s] eqn:Ej.
    + split; [|split; [exact (eq_sym Ea)|discriminate]]. destruct els as [|x els']; [reflexivity|]. exfalso. destruct (Forall_inv Hs) as [H1 _]. destruct els'; [exact (H1 Ej)|]. cbn in Ej. destruct x; discriminate.
    + rewrite <- Ej. split; [|split; [rewrite Ej; unfold IsAbs in *; cbn [absolute]; rewrite Hj; symmetry; exact Ea|rewrite Ej; discriminate]]. unfold file. change (absolute (join els)) with (IsAbs (join els)). rewrite Ej at 1. rewrite Hj, parts_split. rewrite split_join; [reflexivity|exact Hn'|]. intros E. rewrite E in Ej. discriminate.
Qed.
Lemma split_app p q : split (p ++ 47 :: q) = split p ++ split q.
Proof.
  induction p as [|c p IH]; [reflexivity|]. cbn [app split]. rewrite IH. pose proof (split_nonempty p). destruct (c =? 47); [reflexivity|]. destruct (split p); [congruence|reflexivity].
Qed.
Lemma file_app cwd p q : p <> [] -> file cwd (p ++ 47 :: q) = walk (file cwd p) (split q).
Proof. intros H. unfold file. rewrite !parts_split, split_app, walk_app. destruct p; [congruence|reflexivity]. Qed.
Lemma file_base d p : file d p = if IsAbs p then walk [] (split p) else walk d (split p).
Proof. unfold file. rewrite parts_split. unfold absolute, IsAbs. destruct p as [|c p]; [reflexivity|]. destruct (c =? 47); reflexivity. Qed.
Lemma file_based cwd base p : base <> [] -> file cwd (based base p) = file (file cwd base) p.
Proof.
  intros H. unfold based. destruct (IsAbs p) eqn:E.
  - rewrite (file_base cwd p), (file_base (file cwd base) p), E. reflexivity.
  - rewrite file_app by exact H. rewrite (file_base (file cwd base) p), E. reflexivity.
Qed.
Lemma file_in cwd dir name : dir <> [] -> noslash name -> name <> [] -> name <> [46] -> name <> [46; 46] -> file cwd (in_directory dir name) = file cwd dir ++ [name].
Proof. intros H Hn H1 H2 H3. unfold in_directory. rewrite file_app by exact H. rewrite split_one by exact Hn. change (walk (file cwd dir) [name]) with (enter (file cwd dir) name). apply enter_plain; assumption. Qed.
Lemma based_nonempty base p : base <> [] -> based base p <> [].
Proof. intros H. unfold based. destruct (IsAbs p) eqn:E; [destruct p; discriminate|]. destruct base; discriminate. Qed.
(* the directory of the configuration *)
Lemma dir_abs p : last (split p) [] <> [] -> IsAbs (join (removelast (split p) ++ [[]])) = IsAbs p.
Proof.
  intros H1. destruct p as [|c p]; [reflexivity|]. cbn [split IsAbs] in *. pose proof (split_nonempty p) as Hne. destruct (Z.eqb_spec c 47) as [->|Hc].
  - destruct (split p) as [|x r] eqn:Es; [congruence|]. change (removelast ([] :: x :: r)) with ([] :: removelast (x :: r)). destruct (removelast (x :: r) ++ [[]]) as [|y z] eqn:Ez; [destruct (removelast (x :: r)); discriminate|].
    change (([] :: removelast (x :: r)) ++ [[]]) with ([] :: (removelast (x :: r) ++ [[]])). rewrite Ez. reflexivity.
  - destruct (split p) as [|x r] eqn:Es; [congruence|]. destruct r as [|y r]; [reflexivity|]. change (removelast ((c :: x) :: y :: r)) with ((c :: x) :: removelast (y :: r)). destruct (removelast (y :: r) ++ [[]]) as [|z z'] eqn:Ez; [destruct (removelast (y :: r)); discriminate|].
    change (((c :: x) :: removelast (y :: r)) ++ [[]]) with ((c :: x) :: (removelast (y :: r) ++ [[]])). rewrite Ez. cbn [join app IsAbs]. lia.
Qed.
Lemma file_dir cwd p : names_file p -> file cwd (Dir p) = removelast (file cwd p) /\ file cwd p = file cwd (Dir p) ++ [last (parts p) []].
Proof.
  unfold names_file. cbv zeta. rewrite parts_split. intros (H1 & H2 & H3).
  assert (file cwd (Dir p) = if IsAbs p then walk [] (removelast (split p)) else walk cwd (removelast (split p))) as E.
  { unfold Dir. rewrite (proj1 (file_clean cwd _)), file_base, (dir_abs p H1).
    assert (Forall noslash (removelast (split p) ++ [[]])) as Hn. { apply Forall_app. split; [|repeat constructor; intros []]. pose proof (split_noslash p) as Hn. rewrite (app_removelast_last [] (split_nonempty p)) in Hn. apply Forall_app in Hn. apply Hn. }
    rewrite split_join by (try exact Hn; destruct (removelast (split p)); discriminate). rewrite !walk_app. reflexivity. }
  assert (file cwd p = file cwd (Dir p) ++ [last (split p) []]) as E2.
  { rewrite E, file_base. pose proof (app_removelast_last [] (split_nonempty p)) as Es. set (a := removelast (split p)) in *. set (x := last (split p) []) in *. rewrite Es. destruct (IsAbs p); rewrite walk_app; apply enter_plain; assumption. }
  split; [rewrite E2, removelast_last; reflexivity|exact E2].
Qed.
Lemma dir_nonempty p : Dir p <> []. Proof. unfold Dir. apply (file_clean [] _). Qed.

(** ** C85 *)
(** Where the files of a description are.  [conf] is the file the configuration was read from,
    as its path is understood by a process started in [cwd]; relative paths in it count from
    the directory it is in. *)
Theorem C85_where (cwd : place_of) (configPath : bytes) (c : place) : names_file configPath ->
  let conf := file cwd configPath in let home := removelast conf in let d := with_base configPath c in
  file cwd (GetSourcePath d) = file home (p_source c) /\ file cwd (GetIndexPath d) = file home (p_output c) /\
  (~ In 47 (p_name c) ->
   file cwd (GetDictionaryFile d) = file home (p_output c) ++ [p_name c ++ bs ".cdb"] /\
   file cwd (header_path d) = file home (p_output c) ++ [p_name c ++ bs ".hd"] /\
   file cwd (list_path d) = file home (p_output c) ++ [p_name c ++ bs ".dl"] /\
   file cwd (binary_path d) = file home (p_output c) ++ [p_name c ++ bs ".lm"]) /\
  forall k, 0 <= k <= 255 -> file cwd (ngram_path d k) = file home (p_output c) ++ [dec k ++ bs "-gm"].
Proof.
  intros Hc conf home d. assert (file cwd (p_base d) = home) as Eb by (apply (file_dir cwd configPath Hc)). assert (p_base d <> []) as Hb by apply dir_nonempty.
  assert (file cwd (GetIndexPath d) = file home (p_output c)) as Ei by (unfold GetIndexPath; rewrite file_based, Eb by exact Hb; reflexivity).
  split; [unfold GetSourcePath; rewrite file_based, Eb by exact Hb; reflexivity|]. split; [exact Ei|]. assert (GetIndexPath d <> []) as Hi by (apply based_nonempty, Hb).
  assert (forall s e, (3 <= length e)%nat -> noslash s -> noslash e -> file cwd (GetIndexPath d ++ 47 :: s ++ e) = file home (p_output c) ++ [s ++ e]) as Hf.
  { intros s e He Hs Hse. change (GetIndexPath d ++ 47 :: s ++ e) with (in_directory (GetIndexPath d) (s ++ e)). rewrite file_in; [rewrite Ei; reflexivity|exact Hi| | | |].
    - intros H. apply in_app_or in H. destruct H; contradiction.
    - intros H. apply (f_equal (@length Z)) in H. rewrite app_length in H. cbn in H. lia.
    - intros H. apply (f_equal (@length Z)) in H. rewrite app_length in H. cbn in H. lia.
    - intros H. apply (f_equal (@length Z)) in H. rewrite app_length in H. cbn in H. lia. }
  split; [intros Hn; split; [|split; [|split]]; apply Hf; try exact Hn; try (cbn; lia); intros H; cbn in H; repeat destruct H as [H|H]; try discriminate; exact H|].
  intros k Hk. apply Hf; [cbn; lia| |intros H; cbn in H; repeat destruct H as [H|H]; try discriminate; exact H].
  intros Hin. destruct (dec_spec k) as (Hd & _); [unfold is_u64; lia|]. rewrite Forall_forall in Hd. apply Hd in Hin. discriminate.
Qed.
Print Assumptions C85_where.

(** So the programs agree on the files, from whatever directories they were started and however
    the path of the configuration was written. *)
Theorem C85_same_files (cwd cwd' : place_of) (configPath configPath' : bytes) (c : place) :
  names_file configPath -> names_file configPath' -> file cwd configPath = file cwd' configPath' -> ~ In 47 (p_name c) ->
  let d := with_base configPath c in let d' := with_base configPath' c in
  file cwd (GetSourcePath d) = file cwd' (GetSourcePath d') /\
  map (file cwd) (index_files d) = map (file cwd') (index_files d') /\
  forall order, (order <= 255)%nat -> map (file cwd) (model_files d order) = map (file cwd') (model_files d' order).
Proof.
  intros H H' E Hn d d'. destruct (C85_where cwd configPath c H) as (S1 & _ & F1 & G1). destruct (C85_where cwd' configPath' c H') as (S2 & _ & F2 & G2). cbv zeta in *. fold d in S1, F1, G1. fold d' in S2, F2, G2. rewrite <- E in S2, F2, G2.
  destruct (F1 Hn) as (A1 & A2 & A3 & A4), (F2 Hn) as (B1 & B2 & B3 & B4). split; [congruence|]. split.
  - unfold index_files. cbn [map]. congruence.
  - intros order Ho. unfold model_files. cbn [map]. rewrite A1, A4, B1, B4. f_equal. f_equal. rewrite !map_map. apply map_ext_in. intros k Hk. apply in_seq in Hk. rewrite G1, G2 by lia. reflexivity.
Qed.
Print Assumptions C85_same_files.

Lemma suffix_inj (a b x y : bytes) : length x = length y -> a ++ x = b ++ y -> a = b /\ x = y.
Proof.
  intros Hl H. assert (length a = length b) as Ha by (apply (f_equal (@length Z)) in H; rewrite !app_length in H; lia).
  revert b Ha H. induction a as [|c a IH]; intros [|c' b] Ha H; try discriminate; [split; [reflexivity|exact H]|]. injection H as -> H. injection Ha as Ha. destruct (IH b Ha H). subst. split; reflexivity.
Qed.
(** Two descriptions of a configuration share a file only if they have the same name and the
    same directory; a description's own files are three different ones. *)
Theorem C85_disjoint (cwd : place_of) (configPath : bytes) (c c' : place) : names_file configPath -> ~ In 47 (p_name c) -> ~ In 47 (p_name c') ->
  let d := with_base configPath c in let d' := with_base configPath c' in
  (forall f f', In f (index_files d) -> In f' (index_files d') -> file cwd f = file cwd f' -> p_name c = p_name c' /\ file cwd (GetIndexPath d) = file cwd (GetIndexPath d')) /\
  NoDup (map (file cwd) (index_files d)).
Proof.
  intros H Hn Hn' d d'. destruct (C85_where cwd configPath c H) as (_ & I1 & F1 & _). destruct (C85_where cwd configPath c' H) as (_ & I2 & F2 & _). cbv zeta in *. fold d in I1, F1. fold d' in I2, F2. destruct (F1 Hn) as (A1 & A2 & A3 & _), (F2 Hn') as (B1 & B2 & B3 & _).
  assert (forall D D' n n' e e', D ++ [n ++ e] = D' ++ [n' ++ e'] -> In e [bs ".cdb"; bs ".hd"; bs ".dl"] -> In e' [bs ".cdb"; bs ".hd"; bs ".dl"] -> D = D' /\ n = n' /\ e = e') as Hk.
  { intros D D' n n' e e' E He He'. apply app_inj_tail in E. destruct E as [-> E]. split; [reflexivity|].
    assert (last e 0 = last e' 0) as Hl. { assert (last (n ++ e) 0 = last e 0 /\ last (n' ++ e') 0 = last e' 0) as [L1 L2]; [|congruence]. split; cbn in He, He'; [destruct He as [<- |[<- |[<- |[]]]]|destruct He' as [<- |[<- |[<- |[]]]]];
      match goal with |- last (?a ++ ?x) 0 = _ => let v := eval vm_compute in (rev x) in match v with ?c :: ?r => change x with (rev r ++ [c]); rewrite app_assoc, last_last; reflexivity end end. }
    cbn in He, He'. destruct He as [<- |[<- |[<- |[]]]], He' as [<- |[<- |[<- |[]]]]; vm_compute in Hl; try discriminate Hl; apply suffix_inj in E; try reflexivity; destruct E; split; congruence. }
  split.
  - intros f f' Hf Hf' E. rewrite I1, I2. assert (exists e, In e [bs ".cdb"; bs ".hd"; bs ".dl"] /\ file cwd f = file (removelast (file cwd configPath)) (p_output c) ++ [p_name c ++ e]) as (e & He & Ef).
    { destruct Hf as [<- |[<- |[<- |[]]]]; [exists (bs ".cdb")|exists (bs ".hd")|exists (bs ".dl")]; (split; [cbn; tauto|assumption]). }
    assert (exists e, In e [bs ".cdb"; bs ".hd"; bs ".dl"] /\ file cwd f' = file (removelast (file cwd configPath)) (p_output c') ++ [p_name c' ++ e]) as (e' & He' & Ef').
    { destruct Hf' as [<- |[<- |[<- |[]]]]; [exists (bs ".cdb")|exists (bs ".hd")|exists (bs ".dl")]; (split; [cbn; tauto|assumption]). }
    rewrite Ef, Ef' in E. apply Hk in E; tauto.
  - unfold index_files. cbn [map]. rewrite A1, A2, A3. repeat constructor; cbn [In]; intros HH; repeat destruct HH as [HH|HH]; try exact HH; apply Hk in HH; try (cbn; tauto); destruct HH as (_ & _ & HH); discriminate.
Qed.
Print Assumptions C85_disjoint.

(** Refuted without these conditions: a name with a slash can be another one's; a model and an
    index of the same name in one directory have one file for their two dictionaries; two models
    in one directory share their n-gram files whatever their names. *)
Theorem C85_slash_refuted : exists c c', p_name c <> p_name c' /\ exists configPath, names_file configPath /\ forall cwd,
  file cwd (GetDictionaryFile (with_base configPath c)) = file cwd (GetDictionaryFile (with_base configPath c')).
Proof.
  exists (mkPlace (bs "x/../cars") [] (bs "db") []), (mkPlace (bs "cars") [] (bs "db") []). split; [discriminate|]. exists (bs "config.json"). split; [vm_compute; repeat split; discriminate|]. intros cwd.
  rewrite !file_base. match goal with |- (if ?a then _ else walk _ ?x) = (if ?b then _ else walk _ ?y) => let u := eval vm_compute in a in let v := eval vm_compute in b in let x' := eval vm_compute in x in let y' := eval vm_compute in y in change a with u; change b with v; change x with x'; change y with y' end. cbn iota.
  change (walk ?d ?l) with (fold_left enter l d). cbn [fold_left]. change (enter ?d [46]) with d. rewrite !(enter_plain _ [100; 98]) by discriminate. rewrite (enter_plain _ [120]) by discriminate. change (enter ?d [46; 46]) with (removelast d). rewrite removelast_last. reflexivity.
Qed.
Print Assumptions C85_slash_refuted.
Theorem C85_model_and_index_refuted (cwd : place_of) (indexConfig modelConfig : bytes) (c c' : place) : names_file indexConfig -> names_file modelConfig -> ~ In 47 (p_name c) -> p_name c = p_name c' ->
  let d := with_base indexConfig c in let d' := with_base modelConfig c' in
  file cwd (GetIndexPath d) = file cwd (GetIndexPath d') ->
  forall order, exists f f', In f (index_files d) /\ In f' (model_files d' order) /\ file cwd f = file cwd f'.
Proof.
  intros H H' Hn En d d' E order. exists (GetDictionaryFile d), (GetDictionaryFile d'). split; [left; reflexivity|]. split; [left; reflexivity|].
  destruct (C85_where cwd indexConfig c H) as (_ & I1 & F1 & _). destruct (C85_where cwd modelConfig c' H') as (_ & I2 & F2 & _). cbv zeta in *. fold d in I1, F1. fold d' in I2, F2. rewrite (proj1 (F1 Hn)), (proj1 (F2 ltac:(rewrite <- En; exact Hn))), <- I1, <- I2, E, En. reflexivity.
Qed.
Print Assumptions C85_model_and_index_refuted.
Theorem C85_two_models_refuted (cwd : place_of) (config config' : bytes) (c c' : place) : names_file config -> names_file config' ->
  let d := with_base config c in let d' := with_base config' c' in
  file cwd (GetIndexPath d) = file cwd (GetIndexPath d') ->
  forall k, 0 <= k <= 255 -> file cwd (ngram_path d k) = file cwd (ngram_path d' k).
Proof.
  intros H H' d d' E k Hk. destruct (C85_where cwd config c H) as (_ & I1 & _ & F1). destruct (C85_where cwd config' c' H') as (_ & I2 & _ & F2). cbv zeta in *. fold d in I1, F1. fold d' in I2, F2. rewrite (F1 k Hk), (F2 k Hk), <- I1, <- I2, E. reflexivity.
Qed.
Print Assumptions C85_two_models_refuted.

(** The hypotheses are met: the configuration given as a relative path by one process and as an
    absolute one by another. *)
Example C85_nonvacuous :
  let c := mkPlace (bs "cars") (bs "cars.dict") (bs "../db") [] in
  names_file (bs "testdata/./config.json") /\ names_file (bs "/srv/app/testdata/config.json") /\
  file [bs "srv"; bs "app"] (bs "testdata/./config.json") = file [] (bs "/srv/app/testdata/config.json") /\ ~ In 47 (p_name c) /\
  GetDictionaryFile (with_base (bs "testdata/./config.json") c) = bs "testdata/../db/cars.cdb" /\
  file [bs "srv"; bs "app"] (bs "testdata/../db/cars.cdb") = [bs "srv"; bs "app"; bs "db"; bs "cars.cdb"] /\
  file [] (list_path (with_base (bs "/srv/app/testdata/config.json") c)) = [bs "srv"; bs "app"; bs "db"; bs "cars.dl"].
Proof.
  cbv zeta. split; [vm_compute; repeat split; discriminate|]. split; [vm_compute; repeat split; discriminate|]. split; [vm_compute; reflexivity|]. split; [cbn; intros H; repeat destruct H as [H|H]; try discriminate; exact H|]. split; [vm_compute; reflexivity|]. split; vm_compute; reflexivity.
Qed.
