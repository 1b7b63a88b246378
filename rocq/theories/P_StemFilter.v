(** C77: the stemmer filters; C78: the tables of endings and the library's search in them. *)
From Coq Require Import Bool Lia ZifyBool String.
From Verif Require Import Base BaseLemmas Text GoMap VGramSpec Snowball SnowballSearch SnowballSearchProofs StemSpec StemProofs StemEnSpec StemFilter.
From Verif Require StemRu StemEn P_StemRu P_StemEn.
Local Open Scope Z_scope.
Local Notation length := List.length.

(** C77: the stop words go, the other tokens are stemmed one by one, in their order *)
Definition kept (stop : list bytes) (t : bytes) : bool := if in_dec (list_eq_dec Z.eq_dec) t stop then false else true.
Lemma in_set_kept stop t : in_set stop t = negb (kept stop t).
Proof.
  unfold in_set, kept. destruct (in_dec (list_eq_dec Z.eq_dec) t stop) as [H|H]; cbn [negb].
  - apply existsb_exists. exists t. split; [exact H|]. apply beqb_true. reflexivity.
  - apply not_true_is_false. intros E. apply existsb_exists in E. destruct E as (x & Hx & E). apply beqb_true in E. apply H. rewrite E. exact Hx.
Qed.
Lemma filter_ok stemmer stop (f : bytes -> bytes) : (forall w e0, exists e, stemmer (SetCurrent w e0) = Ret (true, e) /\ cur e = f w) ->
  forall l e, filter_loop stemmer stop e l = Ret (map f (filter (kept stop) l)).
Proof.
  intros Hst. induction l as [|w l IH]; intros e; [reflexivity|]. cbn [filter_loop filter]. rewrite in_set_kept. destruct (kept stop w); cbn [negb]; [|apply IH].
  destruct (Hst w e) as (e' & -> & Hc). cbn [bind]. rewrite IH. cbn [bind map]. rewrite Hc. reflexivity.
Qed.
Theorem C77_english_filter : forall tokens, EnglishFilter tokens = Ret (map porter2 (filter (kept StemEn.StopWords) tokens)).
Proof. intros tokens. unfold EnglishFilter, Filter. apply filter_ok. intros w e0. apply (proj2 (P_StemEn.C76_english_stem w (porter2 w)) eq_refl). Qed.
Print Assumptions C77_english_filter.
(* for any list, also of invalid UTF-8: a result for every token that is not a stop word; for valid UTF-8 it is the stem of the specification *)
Theorem C77_russian_filter : forall tokens, exists out, RussianFilter tokens = Ret out /\
  Forall2 (fun w s => P_StemRu.stemmed w s /\ (valid_text w -> stem_of (characters w) s)) (filter (kept StemRu.StopWords) tokens) out.
Proof.
  intros tokens. set (f := fun w => match StemRu.Stem (NewEnv w) with Ret (_, e) => cur e | _ => [] end).
  assert (forall w, P_StemRu.stemmed w (f w)) as Hf.
  { intros w. destruct (P_StemRu.C75_every_token w) as (out & Ho & _). destruct (Ho (NewEnv [])) as (e & He & Hc). unfold f. change (SetCurrent w (NewEnv [])) with (NewEnv w) in He. rewrite He, Hc. exact Ho. }
  exists (map f (filter (kept StemRu.StopWords) tokens)). split; [apply filter_ok; exact (fun w => Hf w)|].
  induction (filter (kept StemRu.StopWords) tokens) as [|w l IH]; constructor; [|exact IH]. split; [apply Hf|]. intros Hv. destruct (P_StemRu.C75_russian_stem w Hv) as (o & Ho & Hs).
  rewrite (P_StemRu.stemmed_unique w _ _ (Hf w) Ho). exact Hs.
Qed.
Print Assumptions C77_russian_filter.
(* a result is determined by its token alone: lists can be filtered piece by piece *)
Theorem C77_piecewise : forall F, F = RussianFilter \/ F = EnglishFilter ->
  forall a b, exists x y, F a = Ret x /\ F b = Ret y /\ F (a ++ b) = Ret (x ++ y) /\ (length x <= length a)%nat.
Proof.
  assert (forall stemmer stop f, (forall w e0, exists e, stemmer (SetCurrent w e0) = Ret (true, e) /\ cur e = f w) -> forall a b, exists x y, Filter stemmer stop a = Ret x /\ Filter stemmer stop b = Ret y /\ Filter stemmer stop (a ++ b) = Ret (x ++ y) /\ (length x <= length a)%nat) as G.
  { intros stemmer stop f Hf a b. unfold Filter. rewrite !(filter_ok stemmer stop f Hf). eexists _, _. split; [reflexivity|]. split; [reflexivity|]. split; [rewrite filter_app, map_app; reflexivity|].
    rewrite map_length. clear. induction a as [|w a IH]; [cbn; lia|]. cbn [filter]. destruct (kept stop w); cbn [List.length]; lia. }
  intros F [->| ->] a b.
  - apply (G _ _ (fun w => match StemRu.Stem (NewEnv w) with Ret (_, e) => cur e | _ => [] end)). intros w e0. destruct (P_StemRu.C75_every_token w) as (out & Ho & _). destruct (Ho e0) as (e & He & Hc).
    exists e. split; [exact He|]. change (SetCurrent w e0) with (NewEnv w) in He. rewrite He. reflexivity.
  - apply (G _ _ porter2). intros w e0. apply (proj2 (P_StemEn.C76_english_stem w (porter2 w)) eq_refl).
Qed.
Print Assumptions C77_piecewise.
(* a stem can itself be a stop word, and a stop word in capitals is stemmed: the result of the filter may hold stop words *)
Theorem C77_no_stop_words_refuted : EnglishFilter [bs "ons"; bs "on"; bs "The"] = Ret [bs "on"; bs "The"] /\ In (bs "on") StemEn.StopWords /\ In (bs "the") StemEn.StopWords.
Proof.
  split; [rewrite C77_english_filter; vm_compute; reflexivity|].
  assert (in_set StemEn.StopWords (bs "on") = true /\ in_set StemEn.StopWords (bs "the") = true) as (H1 & H2) by (split; vm_compute; reflexivity).
  split; [rewrite in_set_kept in H1; clear H2|rewrite in_set_kept in H2; clear H1]; unfold kept in *; destruct (in_dec (list_eq_dec Z.eq_dec) _ _); cbn in *; try discriminate; assumption.
Qed.
Print Assumptions C77_no_stop_words_refuted.
Example C77_nonvacuous : EnglishFilter [bs "the"; bs "running"; bs "foxes"; bs "and"; bs "''s"] = Ret [bs "run"; bs "fox"; []] /\
  RussianFilter [text [1080]; text [1082; 1088; 1072; 1089; 1080; 1074; 1072; 1103]] = Ret [text [1082; 1088; 1072; 1089; 1080; 1074]].
Proof. split; [rewrite C77_english_filter|]; vm_compute; reflexivity. Qed.

(** C78: the tables are in the order and have the links the library's binary search needs *)
Fixpoint sortedb (dir : bytes -> bytes) (t : list among) : bool :=
  match t with [] => true | a :: t' => forallb (fun b => blt (dir (Str a)) (dir (Str b))) t' && sortedb dir t' end.
Lemma sortedb_ok dir t : sortedb dir t = true -> sorted dir t.
Proof.
  induction t as [|x t IH]; intros H i j a b Hij Ha Hb; [destruct i; discriminate|]. cbn [sortedb] in H. apply andb_true_iff in H. destruct H as (H1 & H2).
  destruct j as [|j]; [lia|]. cbn [nth_error] in Hb. destruct i as [|i]; cbn [nth_error] in Ha.
  - injection Ha as ->. rewrite forallb_forall in H1. apply blt_before, H1. exact (nth_error_In _ _ Hb).
  - exact (IH H2 i j a b ltac:(lia) Ha Hb).
Qed.
Definition linkb (dir : bytes -> bytes) (t : list among) (a : among) : bool :=
  if Sub a =? -1 then forallb (fun b => negb (has_prefix (dir (Str a)) (dir (Str b))) || beqb (Str b) (Str a)) t
  else (0 <=? Sub a) && match nth_error t (Z.to_nat (Sub a)) with
       | Some b => negb (beqb (Str b) (Str a)) && has_prefix (dir (Str a)) (dir (Str b)) &&
                   forallb (fun c => beqb (Str c) (Str a) || negb (has_prefix (dir (Str a)) (dir (Str c))) || (length (Str c) <=? length (Str b))%nat) t
       | None => false
       end.
Lemma linkb_ok dir t : forallb (linkb dir t) t = true -> linked dir t.
Proof.
  intros H a Ha. rewrite forallb_forall in H. specialize (H a Ha). unfold linkb in H. destruct (Sub a =? -1) eqn:E.
  - left. split; [lia|]. intros b Hb Hp. rewrite forallb_forall in H. specialize (H b Hb). apply has_prefix_ok in Hp. rewrite Hp in H. cbn [negb orb] in H. apply beqb_true. exact H.
  - right. apply andb_true_iff in H. destruct H as (H0 & H). split; [lia|]. destruct (nth_error t _) as [b|]; [|discriminate]. exists b. split; [reflexivity|].
    apply andb_true_iff in H. destruct H as (H & H3). apply andb_true_iff in H. destruct H as (H1 & H2). split; [intros K; rewrite (proj2 (beqb_true _ _) K) in H1; discriminate|].
    split; [apply has_prefix_ok; exact H2|]. intros c Hc Hn Hp. rewrite forallb_forall in H3. specialize (H3 c Hc). apply has_prefix_ok in Hp. rewrite Hp in H3.
    destruct (beqb (Str c) (Str a)) eqn:Ec; [apply beqb_true in Ec; contradiction|]. cbn [negb orb] in H3. apply Nat.leb_le. exact H3.
Qed.
Definition forward_tables : list (list among) := [StemEn.A_0; StemEn.A_10].
Definition backward_tables : list (list among) :=
  [StemRu.A_0; StemRu.A_1; StemRu.A_2; StemRu.A_3; StemRu.A_4; StemRu.A_5; StemRu.A_6; StemRu.A_7;
   StemEn.A_1; StemEn.A_2; StemEn.A_3; StemEn.A_4; StemEn.A_5; StemEn.A_6; StemEn.A_7; StemEn.A_8; StemEn.A_9].
Definition table_ok (dir : bytes -> bytes) (t : list among) : Prop := t <> [] /\ sorted dir t /\ linked dir t.
Lemma tables_ok dir ts : forallb (fun t => negb (match t with [] => true | _ => false end) && sortedb dir t && forallb (linkb dir t) t) ts = true -> forall t, In t ts -> table_ok dir t.
Proof.
  intros H t Ht. rewrite forallb_forall in H. specialize (H t Ht). apply andb_true_iff in H. destruct H as (H & H3). apply andb_true_iff in H. destruct H as (H1 & H2).
  split; [destruct t; discriminate|]. split; [apply sortedb_ok; exact H2|apply linkb_ok; exact H3].
Qed.
Theorem C78_tables : (forall t, In t forward_tables -> table_ok (fun s => s) t) /\ (forall t, In t backward_tables -> table_ok (@rev Z) t).
Proof. split; apply tables_ok; vm_compute; reflexivity. Qed.
Print Assumptions C78_tables.
(* so the library finds the longest entry at the cursor, whatever the text and the position *)
Theorem C78_search_forward : forall t e, In t forward_tables -> LibFindAmong t e = FindAmong t e.
Proof.
  intros t e Ht. destruct (proj1 C78_tables t Ht) as (H1 & H2 & H3). unfold LibFindAmong, FindAmong. destruct (slice _ _ _) as [r| | |]; try reflexivity. cbn [bind].
  rewrite (search_longest (fun s => s) (fun a b E => E) (fun a => eq_refl) t H2 H3 H1 r (has_prefix r)); [reflexivity|]. intros s. apply has_prefix_ok.
Qed.
Print Assumptions C78_search_forward.
Theorem C78_search_backward : forall t e, In t backward_tables -> LibFindAmongB t e = FindAmongB t e.
Proof.
  intros t e Ht. destruct (proj2 C78_tables t Ht) as (H1 & H2 & H3). unfold LibFindAmongB, FindAmongB. destruct (slice _ _ _) as [r| | |]; try reflexivity. cbn [bind].
  rewrite (search_longest (@rev Z) (fun a b E => eq_trans (eq_sym (rev_involutive a)) (eq_trans (f_equal (@rev Z) E) (rev_involutive b))) (@rev_length Z) t H2 H3 H1 (rev r) (has_suffix r)); [reflexivity|]. intros s. unfold has_suffix. apply has_prefix_ok.
Qed.
Print Assumptions C78_search_backward.
(* the search itself, for any table: nothing about these tables is used but order and links *)
Theorem C78_search_any_table : forall t, table_ok (fun s => s) t -> forall r, search (fun s => s) t r = Ret (longest (has_prefix r) t).
Proof. intros t (H1 & H2 & H3) r. apply (search_longest (fun s => s) (fun a b E => E) (fun a => eq_refl) t H2 H3 H1 r). intros s. apply has_prefix_ok. Qed.
Print Assumptions C78_search_any_table.
(* without the order the search can miss an entry *)
Theorem C78_unsorted_refuted : exists t r a, In a t /\ has_prefix r (Str a) = true /\ search (fun s => s) t r = Ret None.
Proof. exists [Among (bs "b") (-1) 1; Among (bs "a") (-1) 2], (bs "b"), (Among (bs "b") (-1) 1). split; [left; reflexivity|]. split; vm_compute; reflexivity. Qed.
Print Assumptions C78_unsorted_refuted.
Example C78_nonvacuous : LibFindAmong StemEn.A_0 (NewEnv (bs "communism")) = Ret (-1, set_Cursor 6 (NewEnv (bs "communism"))) /\ In StemEn.A_0 forward_tables /\ In StemRu.A_5 backward_tables.
Proof. split; [vm_compute; reflexivity|]. split; [left; reflexivity|]. cbn [backward_tables In]. tauto. Qed.
