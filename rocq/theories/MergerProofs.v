(** ScanCount, CPMerge, Intersector. *)
From Coq Require Import ZifyBool.
From Verif Require Import Base BaseLemmas Postings PostingsSpec PostingsDrive PostingsProofs Heap Merger MergerSpec.
Local Open Scope Z_scope.
Ltac Zify.zify_post_hook ::= Z.div_mod_to_equations.

(** ** candidates *)
Lemma pack_val a b : 0 <= a -> is_u32 b -> Pack a b = a * 2 ^ 32 + b.
Proof.
  intros Ha Hb. unfold Pack. change (2 ^ 32 - 1) with (Z.ones 32). rewrite Z.land_ones by lia.
  rewrite Z.mod_small by exact Hb. rewrite Z.lor_comm, lor_add; [lia|lia|exact Hb|exact Ha].
Qed.
Lemma position_pack a b : is_u32 a -> is_u32 b -> Position (NewMergeCandidate a b) = a.
Proof.
  intros Ha Hb. unfold Position, NewMergeCandidate, UnpackLeft, wrap32. rewrite pack_val by (unfold is_u32 in *; lia || exact Hb).
  rewrite Z.shiftr_div_pow2 by lia. unfold is_u32 in *. lia.
Qed.
Lemma overlap_pack a b : is_u32 a -> is_u32 b -> Overlap (NewMergeCandidate a b) = b.
Proof.
  intros Ha Hb. unfold Overlap, NewMergeCandidate, UnpackRight, wrap32. rewrite pack_val by (unfold is_u32 in *; lia || exact Hb).
  unfold is_u32 in *. lia.
Qed.
Lemma increment_pack a b : is_u32 a -> 0 <= b < 65535 ->
  increment (NewMergeCandidate a b) = Ret (NewMergeCandidate a (b + 1)).
Proof.
  intros Ha Hb. unfold increment. fold (Overlap (NewMergeCandidate a b)).
  rewrite overlap_pack by (unfold is_u32 in *; lia).
  unfold MaxOverlap. replace (b =? 65535) with false by lia. f_equal.
  unfold NewMergeCandidate. rewrite !pack_val by (unfold is_u32 in *; lia). unfold wrap64. unfold is_u32 in *. rewrite Z.mod_small; lia.
Qed.

(** ** iterators as cursors *)
Definition behaves (i : iter) (n : Z) (rest : list Z) : Prop :=
  forall ops, iter_run i ops = cursor_run n rest ops.
Lemma behaves_step i n rest o : behaves i n rest ->
  fst (iter_step i o) = fst (cursor_step n rest o) /\
  behaves (snd (iter_step i o)) n (snd (cursor_step n rest o)).
Proof.
  intros H. split.
  - specialize (H [o]). cbn in H. destruct (iter_step i o), (cursor_step n rest o). cbn. congruence.
  - intros ops. specialize (H (o :: ops)). cbn [iter_run cursor_run] in H.
    destruct (iter_step i o), (cursor_step n rest o). cbn. congruence.
Qed.
Lemma behaves_get i n rest : behaves i n rest -> it_get i = first rest.
Proof. intros H. destruct (behaves_step i n rest CGet H) as [E _]. cbn in E. congruence. Qed.
Lemma behaves_hasNext i n rest : behaves i n rest -> it_hasNext i = (2 <=? zlen rest).
Proof. intros H. destruct (behaves_step i n rest CHasNext H) as [E _]. cbn in E. congruence. Qed.
Lemma behaves_len i n rest : behaves i n rest -> it_len i = n.
Proof. intros H. destruct (behaves_step i n rest CLen H) as [E _]. cbn in E. congruence. Qed.
Lemma behaves_next i n x y r : behaves i n (x :: y :: r) ->
  exists i', it_next i = (Ret y, i') /\ behaves i' n (y :: r).
Proof.
  intros H. destruct (behaves_step i n _ CNext H) as [E H']. cbn [iter_step cursor_step] in *.
  destruct (it_next i) as [a i']. cbn [fst snd] in *. exists i'. split; [congruence|exact H'].
Qed.
Lemma behaves_lb i n rest to : behaves i n rest ->
  exists i', it_lowerBound i to = (first (drop_lt to rest), i') /\ behaves i' n (drop_lt to rest).
Proof.
  intros H. destruct (behaves_step i n _ (CLowerBound to) H) as [E H']. cbn [iter_step cursor_step] in *.
  destruct (it_lowerBound i to) as [a i']. cbn [fst snd] in *. exists i'. split; [congruence|exact H'].
Qed.
Definition headopt (l : list Z) : option Z := match l with [] => None | x :: _ => Some x end.
Lemma get_valid_ok i n rest : behaves i n rest -> get_valid i = Ret (headopt rest).
Proof. intros H. unfold get_valid. rewrite (behaves_get _ _ _ H). destruct rest; reflexivity. Qed.
Lemma step_next_ok i n x r : behaves i n (x :: r) ->
  exists i', step_next i = (Ret (headopt r), i') /\ (r <> [] -> behaves i' n r).
Proof.
  intros H. unfold step_next. rewrite (behaves_hasNext _ _ _ H). rewrite zlen_cons. destruct r as [|y r].
  - rewrite zlen_nil. cbn. eexists. split; [reflexivity|congruence].
  - rewrite zlen_cons. pose proof (zlen_nonneg r). replace (2 <=? 1 + (1 + zlen r)) with true by lia.
    destruct (behaves_next _ _ _ _ _ H) as (i' & E & H'). rewrite E. eexists. split; [reflexivity|auto].
Qed.

(** ** counting *)
Lemma existsb_In x l : existsb (Z.eqb x) l = true <-> In x l.
Proof.
  rewrite existsb_exists. split.
  - intros (y & Hy & E). apply Z.eqb_eq in E. subst. exact Hy.
  - intros H. exists x. split; [exact H|apply Z.eqb_refl].
Qed.
Definition b2z (b : bool) : Z := if b then 1 else 0.
Definition mem (x : Z) (l : list Z) : bool := existsb (Z.eqb x) l.
Lemma mem_In x l : mem x l = true <-> In x l. Proof. apply existsb_In. Qed.
Lemma mem_false x l : mem x l = false <-> ~ In x l.
Proof. rewrite <- mem_In. destruct (mem x l); split; congruence. Qed.
Lemma count_cons x l ls : count x (l :: ls) = b2z (mem x l) + count x ls.
Proof. unfold count. cbn [filter]. fold (mem x l). destruct (mem x l); cbn [b2z]; [rewrite zlen_cons|]; lia. Qed.
Lemma count_nil x : count x [] = 0. Proof. reflexivity. Qed.
Lemma count_nonneg x ls : 0 <= count x ls. Proof. apply zlen_nonneg. Qed.
Lemma count_le x ls : count x ls <= zlen ls.
Proof.
  induction ls as [|l ls IH]; [unfold count, zlen; cbn; lia|].
  rewrite count_cons, zlen_cons. destruct (mem x l); cbn [b2z]; lia.
Qed.
Lemma count_app x a b : count x (a ++ b) = count x a + count x b.
Proof. induction a; cbn [app]; [reflexivity|]. rewrite !count_cons. lia. Qed.
Lemma count_perm x a b : Permutation a b -> count x a = count x b.
Proof. induction 1; [reflexivity| | |congruence]; rewrite !count_cons; lia. Qed.
Lemma count_pos x ls : 1 <= count x ls <-> exists l, In l ls /\ In x l.
Proof.
  induction ls as [|l ls IH].
  - rewrite count_nil. split; [lia|intros (l & [] & _)].
  - rewrite count_cons. destruct (mem x l) eqn:E; cbn [b2z].
    + pose proof (count_nonneg x ls). split; [|lia]. intros _. exists l. split; [left; reflexivity|apply mem_In; exact E].
    + rewrite Z.add_0_l, IH. apply mem_false in E. split; intros (l' & H1 & H2).
      * exists l'. split; [right; exact H1|exact H2].
      * destruct H1 as [->|H1]; [contradiction|]. exists l'. auto.
Qed.
Lemma count_all x ls : count x ls = zlen ls <-> Forall (fun l => In x l) ls.
Proof.
  induction ls as [|l ls IH]; [split; [constructor|reflexivity]|].
  rewrite count_cons, zlen_cons. pose proof (count_le x ls). destruct (mem x l) eqn:E; cbn [b2z].
  - split.
    + intros Hc. constructor; [apply mem_In; exact E|apply IH; lia].
    + intros Hf. apply Forall_inv_tail in Hf. apply IH in Hf. lia.
  - split; [lia|]. intros Hf. apply Forall_inv in Hf. apply mem_false in E. contradiction.
Qed.

Lemma lists_app_inv rid1 rid2 ls : lists (rid1 ++ rid2) ls ->
  exists l1 l2, ls = l1 ++ l2 /\ lists rid1 l1 /\ lists rid2 l2.
Proof.
  intros H. apply Forall2_app_inv_l in H. destruct H as (l1 & l2 & H1 & H2 & E). exists l1, l2. auto.
Qed.
Lemma lists_length rid ls : lists rid ls -> zlen rid = zlen ls.
Proof. intros H. unfold zlen. induction H; cbn [length]; lia. Qed.
(* a permutation of the iterators gives a permutation of the lists *)
Lemma lists_perm rid rid' : Permutation rid rid' -> forall ls, lists rid ls ->
  exists ls', Permutation ls ls' /\ lists rid' ls'.
Proof.
  induction 1 as [|x a b Hp IH|x y a|a b c H1 IH1 H2 IH2]; intros ls H.
  - inversion H; subst. exists []. split; constructor.
  - inversion H as [|? l ? ls0 Hx Hr]; subst. destruct (IH _ Hr) as (ls' & Hp' & H'). exists (l :: ls'). split; [constructor; exact Hp'|constructor; auto].
  - inversion H as [|? l1 ? ls0 Hx Hr]; subst. inversion Hr as [|? l2 ? ls1 Hy Hr2]; subst.
    exists (l2 :: l1 :: ls1). split; [apply perm_swap|]. constructor; [assumption|constructor; assumption].
  - destruct (IH1 _ H) as (m & Hm & Hm'). destruct (IH2 _ Hm') as (m2 & Hm2 & Hm2').
    exists m2. split; [etransitivity; eauto|exact Hm2'].
Qed.

(** ** the scan merge *)
Fixpoint madd (A : list (Z * Z)) : list Z -> list (Z * Z) :=
  match A with
  | [] => fun l => map (fun x => (x, 1)) l
  | (p, c) :: A' =>
      fix go (l : list Z) :=
        match l with
        | [] => A
        | x :: l' => if p >? x then (x, 1) :: go l'
                     else if p <? x then (p, c) :: madd A' l
                     else (p, c + 1) :: madd A' l'
        end
  end.
Definition pk (xc : Z * Z) : Z := NewMergeCandidate (fst xc) (snd xc).
Definition okA (b : Z) (A : list (Z * Z)) : Prop := Forall (fun xc => is_u32 (fst xc) /\ 0 <= snd xc <= b) A.

Lemma madd_nil_r A : madd A [] = A.
Proof. destruct A as [|[p c] A]; reflexivity. Qed.
Lemma madd_ok b A l : okA b A -> Forall is_u32 l -> 0 <= b -> okA (b + 1) (madd A l).
Proof.
  revert l. induction A as [|[p c] A IH]; intros l HA Hl Hb.
  - cbn [madd]. apply Forall_map. eapply Forall_impl; [|exact Hl]. intros x Hx. cbn. split; [exact Hx|lia].
  - induction l as [|x l IHl]; cbn [madd].
    + eapply Forall_impl; [|exact HA]. intros xc [H1 H2]. split; [exact H1|lia].
    + pose proof (Forall_inv HA) as [Hp Hc]. cbn in Hp, Hc.
      destruct (p >? x); [constructor; [cbn; split; [apply Forall_inv in Hl; exact Hl|lia]|apply IHl; apply Forall_inv_tail in Hl; exact Hl]|].
      destruct (p <? x); (constructor; [cbn; split; [exact Hp|lia]|]); apply IH; try (apply Forall_inv_tail in HA; exact HA); try lia; auto.
      apply Forall_inv_tail in Hl; exact Hl.
Qed.

Lemma scan_loop_none fuel : forall cs it tmp, (length cs < fuel)%nat ->
  scan_loop fuel cs None it tmp = Ret (tmp ++ cs).
Proof.
  induction fuel as [|fuel IH]; intros cs it tmp Hf; [lia|]. destruct cs as [|c cs]; cbn [scan_loop].
  - rewrite app_nil_r. reflexivity.
  - rewrite IH by (cbn in Hf; lia). rewrite <- app_assoc. reflexivity.
Qed.
Lemma scan_loop_ok : forall fuel A rest it n tmp,
  okA 65534 A -> Forall is_u32 rest -> (rest <> [] -> behaves it n rest) ->
  (length A + length rest < fuel)%nat ->
  scan_loop fuel (map pk A) (headopt rest) it tmp = Ret (tmp ++ map pk (madd A rest)).
Proof.
  induction fuel as [|fuel IH]; intros A rest it n tmp HA Hu Hb Hf; [lia|].
  destruct rest as [|x rest].
  { cbn [headopt]. rewrite scan_loop_none by (rewrite map_length; cbn in *; lia). rewrite madd_nil_r. reflexivity. }
  destruct (step_next_ok it n x rest (Hb ltac:(discriminate))) as (it' & En & Hb').
  pose proof (Forall_inv Hu) as Hx. pose proof (Forall_inv_tail Hu) as Hu'.
  destruct A as [|[p c] A]; cbn [map headopt scan_loop].
  - rewrite En. rewrite (IH [] rest it' n) by (auto; cbn in *; lia). cbn [madd map]. rewrite <- app_assoc. reflexivity.
  - pose proof (Forall_inv HA) as [Hp Hc]. cbn [fst snd] in Hp, Hc. pose proof (Forall_inv_tail HA) as HA'.
    change (pk (p, c)) with (NewMergeCandidate p c). rewrite position_pack by (unfold is_u32 in *; lia).
    cbn [madd].
    destruct (p >? x) eqn:E1.
    + rewrite En. rewrite (IH ((p, c) :: A) rest it' n) by (auto; cbn in *; lia).
      cbn [map]. rewrite <- app_assoc. f_equal.
    + destruct (p <? x) eqn:E2.
      * rewrite (IH A (x :: rest) it n) by (auto; cbn in *; lia). cbn [map]. rewrite <- app_assoc. reflexivity.
      * rewrite increment_pack by (auto; lia). cbn [bind]. rewrite En.
        rewrite (IH A rest it' n) by (auto; cbn in *; lia). cbn [map]. rewrite <- app_assoc. reflexivity.
Qed.

(* A lists exactly the values of [done] with their counts *)
Definition counts (ls : list (list Z)) (A : list (Z * Z)) : Prop := is_answer ls 1 A.
Definition sortedA (A : list (Z * Z)) : Prop := StronglySorted (fun a b => fst a < fst b) A.

Lemma madd_ge A l b : Forall (fun xc => b < fst xc) A -> Forall (fun x => b < x) l -> Forall (fun xc => b < fst xc) (madd A l).
Proof.
  revert l. induction A as [|[p c] A IH]; intros l HA Hl.
  - cbn [madd]. apply Forall_map. exact Hl.
  - induction l as [|x l IHl]; cbn [madd]; [exact HA|].
    pose proof (Forall_inv HA). pose proof (Forall_inv_tail HA). pose proof (Forall_inv Hl). pose proof (Forall_inv_tail Hl).
    destruct (p >? x); [constructor; auto|]. destruct (p <? x); constructor; auto.
Qed.
Lemma madd_sorted A l : sortedA A -> StronglySorted Z.lt l -> sortedA (madd A l).
Proof.
  revert l. induction A as [|[p c] A IH]; intros l HA Hl.
  - cbn [madd]. unfold sortedA. induction Hl; cbn [map]; constructor; auto. apply Forall_map. exact H.
  - apply StronglySorted_inv in HA. destruct HA as [HA Hp]. cbn [fst] in Hp.
    induction l as [|x l IHl]; cbn [madd]; [constructor; auto|].
    apply StronglySorted_inv in Hl. destruct Hl as [Hl Hx].
    destruct (p >? x) eqn:E1.
    + constructor; [apply IHl; exact Hl|]. cbn [fst].
      apply (madd_ge ((p, c) :: A) l x); [|exact Hx]. constructor; [cbn; lia|].
      eapply Forall_impl; [|exact Hp]. intros xc Hxc. cbv beta in Hxc. lia.
    + destruct (p <? x) eqn:E2.
      * constructor; [apply IH; auto; constructor; auto|]. cbn [fst]. apply madd_ge; [exact Hp|].
        constructor; [lia|]. eapply Forall_impl; [|exact Hx]. intros y Hy. cbv beta in Hy. lia.
      * assert (p = x) as -> by lia. constructor; [apply IH; auto|]. cbn [fst]. apply madd_ge; auto.
Qed.

(* lookup with default 0 *)
Fixpoint look (x : Z) (A : list (Z * Z)) : Z :=
  match A with [] => 0 | (p, c) :: A' => if p =? x then c else look x A' end.
Lemma look_notin x A : Forall (fun xc => x < fst xc) A -> look x A = 0.
Proof. induction 1 as [|[p c] A H HA IH]; [reflexivity|]. cbn in *. replace (p =? x) with false by lia. exact IH. Qed.
Lemma mem_gt x l : Forall (fun y => x < y) l -> mem x l = false.
Proof. intros H. apply mem_false. intros Hin. rewrite Forall_forall in H. specialize (H x Hin). cbv beta in H. lia. Qed.
Lemma mem_cons x y l : mem x (y :: l) = (x =? y) || mem x l. Proof. reflexivity. Qed.
Lemma madd_look A l x : sortedA A -> StronglySorted Z.lt l -> look x (madd A l) = look x A + b2z (mem x l).
Proof.
  revert l. induction A as [|[p c] A IH]; intros l HA Hl.
  - cbn [madd look]. induction Hl as [|y l Hl IHl Hy]; [reflexivity|]. cbn [map look]. rewrite mem_cons.
    destruct (Z.eqb_spec y x) as [->|].
    + rewrite Z.eqb_refl. reflexivity.
    + replace (x =? y) with false by lia. exact IHl.
  - apply StronglySorted_inv in HA. destruct HA as [HA Hp]. cbn [fst] in Hp.
    induction l as [|y l IHl]; cbn [madd]; [cbn [mem existsb b2z]; lia|].
    apply StronglySorted_inv in Hl. destruct Hl as [Hl Hy].
    assert (x <= p -> look x A = 0) as HlA.
    { intros Hxp. apply look_notin. eapply Forall_impl; [|exact Hp]. intros a Ha. cbv beta in Ha. lia. }
    assert (x <= y -> mem x l = false) as Hml.
    { intros Hxy. apply mem_gt. eapply Forall_impl; [|exact Hy]. intros a Ha. cbv beta in Ha. lia. }
    rewrite mem_cons.
    destruct (p >? y) eqn:E1.
    + cbn [look]. destruct (Z.eqb_spec y x) as [->|].
      * rewrite Z.eqb_refl. replace (p =? x) with false by lia. rewrite HlA by lia. reflexivity.
      * replace (x =? y) with false by lia. specialize (IHl Hl). cbn [madd look] in IHl. rewrite IHl. reflexivity.
    + destruct (p <? y) eqn:E2.
      * cbn [look]. destruct (Z.eqb_spec p x) as [->|].
        -- rewrite Hml by lia. replace (x =? y) with false by lia. cbn. lia.
        -- rewrite IH by (auto; constructor; auto). rewrite mem_cons. reflexivity.
      * assert (p = y) as -> by lia. cbn [look]. destruct (Z.eqb_spec y x) as [->|].
        -- rewrite Z.eqb_refl. cbn. lia.
        -- replace (x =? y) with false by lia. rewrite IH by auto. reflexivity.
Qed.
Lemma look_In x c A : sortedA A -> Forall (fun xc => 1 <= snd xc) A -> (In (x, c) A <-> c = look x A /\ 1 <= c).
Proof.
  induction 1 as [|[p d] A HA IH Hp]; intros H1.
  - cbn. split; [tauto|lia].
  - pose proof (Forall_inv H1) as Hd. cbn in Hd. specialize (IH (Forall_inv_tail H1)). cbn [look fst] in *.
    destruct (Z.eqb_spec p x) as [->|].
    + split.
      * intros [E|Hin]; [injection E as ->; lia|]. rewrite Forall_forall in Hp. specialize (Hp _ Hin). cbn in Hp. lia.
      * intros [-> _]. left. reflexivity.
    + rewrite <- IH. split; [intros [E|H]; [congruence|exact H]|intros H; right; exact H].
Qed.
Lemma madd_pos A l : Forall (fun xc => 1 <= snd xc) A -> Forall (fun xc => 1 <= snd xc) (madd A l).
Proof.
  revert l. induction A as [|[p c] A IH]; intros l HA.
  - cbn [madd]. apply Forall_map. apply Forall_forall. intros; cbn; lia.
  - pose proof (Forall_inv HA) as Hc. cbn in Hc. pose proof (Forall_inv_tail HA) as HA'.
    induction l as [|x l IHl]; cbn [madd]; [exact HA|].
    destruct (p >? x); [constructor; [cbn; lia|exact IHl]|]. destruct (p <? x); (constructor; [cbn; lia|apply IH; exact HA']).
Qed.

(* scanning the lists one by one *)
Definition CNT (ls : list (list Z)) (A : list (Z * Z)) : Prop :=
  sortedA A /\ Forall (fun xc => 1 <= snd xc) A /\ okA (zlen ls) A /\ forall x, look x A = count x ls.
Lemma scan_lists_ok : forall rid ls done A, lists rid ls -> CNT done A -> zlen done + zlen ls <= 65535 ->
  exists A', scan_lists rid (map pk A) = Ret (map pk A') /\ CNT (done ++ ls) A'.
Proof.
  induction rid as [|it rid IH]; intros ls done A Hls HC Hn; inversion Hls as [|? l ? ls' [[Hs Hu] Hb] Hr]; subst.
  - exists A. split; [reflexivity|]. rewrite app_nil_r. exact HC.
  - destruct HC as (H1 & H2 & H3 & H4). cbn [scan_lists].
    rewrite zlen_cons in Hn. pose proof (zlen_nonneg ls'). pose proof (zlen_nonneg done).
    rewrite (get_valid_ok _ _ _ Hb). cbn [bind].
    rewrite (scan_loop_ok _ A l it (zlen l)); auto.
    + cbn [bind app]. replace (done ++ l :: ls') with ((done ++ [l]) ++ ls') by (rewrite <- app_assoc; reflexivity).
      apply IH; [exact Hr| |rewrite zlen_app, zlen_cons, zlen_nil; lia].
      split; [apply madd_sorted; auto|]. split; [apply madd_pos; auto|]. split.
      * rewrite zlen_app, zlen_cons, zlen_nil. apply madd_ok; auto; lia.
      * intros x. rewrite madd_look by auto. rewrite H4, count_app, count_cons, count_nil. lia.
    + eapply Forall_impl; [|exact H3]. intros xc [Ha Hb']. split; [exact Ha|lia].
    + rewrite (behaves_len _ _ _ Hb). rewrite map_length. unfold zlen. lia.
Qed.

Section Emit.
Context {St : Type} (collect : St -> Z -> option err * St).
Lemma emit_ok b T A s : okA b A -> b < 2 ^ 32 -> emit collect T (map pk A) s = feed collect (filter (fun xc => T <=? snd xc) A) s.
Proof.
  intros HA Hb. revert s. induction HA as [|[x c] A [Hx Hc] HA IH]; intros s; [reflexivity|].
  cbn [fst snd] in *. cbn [map emit filter snd]. unfold pk at 1 2. cbn [fst snd].
  rewrite overlap_pack by (unfold is_u32 in *; lia). rewrite Z.geb_leb.
  destruct (T <=? c); [|apply IH]. cbn [feed]. destruct (collect s (NewMergeCandidate x c)) as [[e|] s']; [reflexivity|apply IH].
Qed.
End Emit.

Lemma sortedA_filter f A : sortedA A -> sortedA (filter f A).
Proof.
  induction 1 as [|a A HA IH Ha]; [constructor|]. cbn [filter]. destruct (f a); [|exact IH].
  constructor; [exact IH|]. apply Forall_forall. intros y Hy. apply filter_In in Hy. rewrite Forall_forall in Ha. apply Ha, Hy.
Qed.
Lemma CNT_answer ls A T : CNT ls A -> is_answer ls T (filter (fun xc => T <=? snd xc) A).
Proof.
  intros (H1 & H2 & H3 & H4). split; [apply sortedA_filter; exact H1|].
  intros x c. rewrite filter_In, look_In by auto. rewrite H4. cbn [snd]. lia.
Qed.

Lemma scanCount_ok {St} (collect : St -> Z -> option err * St) rid ls T s :
  lists rid ls -> zlen ls <= 65535 ->
  exists cs, is_answer ls T cs /\ scanCount collect rid T s = feed collect cs s.
Proof.
  intros Hl Hn. unfold scanCount.
  destruct (scan_lists_ok rid ls [] [] Hl) as (A & E & HC).
  - split; [constructor|]. split; [constructor|]. split; [constructor|]. reflexivity.
  - rewrite zlen_nil. lia.
  - cbn [map app] in *. rewrite E. exists (filter (fun xc => T <=? snd xc) A). split; [apply CNT_answer; exact HC|].
    apply (emit_ok collect (zlen ls)); [apply HC|lia].
Qed.
