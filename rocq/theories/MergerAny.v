(** CPMerge and the intersector on lists with repetitions. *)
From Coq Require Import ZifyBool.
From Verif Require Import Base BaseLemmas Postings PostingsSpec PostingsDrive PostingsProofs Heap Merger MergerSpec MergerAnySpec MergerProofs MergerProofs2.
Local Open Scope Z_scope.
Ltac Zify.zify_post_hook ::= Z.div_mod_to_equations.

Lemma anys_app_inv rid1 rid2 ls : lists_any (rid1 ++ rid2) ls ->
  exists l1 l2, ls = l1 ++ l2 /\ lists_any rid1 l1 /\ lists_any rid2 l2.
Proof. intros H. apply Forall2_app_inv_l in H. destruct H as (l1 & l2 & H1 & H2 & E). exists l1, l2. auto. Qed.
Lemma anys_length rid ls : lists_any rid ls -> zlen rid = zlen ls.
Proof. intros H. unfold zlen. induction H; cbn [length]; lia. Qed.
Lemma anys_perm rid rid' : Permutation rid rid' -> forall ls, lists_any rid ls ->
  exists ls', Permutation ls ls' /\ lists_any rid' ls'.
Proof.
  induction 1 as [|x a b Hp IH|x y a|a b c H1 IH1 H2 IH2]; intros ls H.
  - inversion H; subst. exists []. split; constructor.
  - inversion H as [|? l ? ls0 Hx Hr]; subst. destruct (IH _ Hr) as (ls' & Hp' & H'). exists (l :: ls'). split; [constructor; exact Hp'|constructor; auto].
  - inversion H as [|? l1 ? ls0 Hx Hr]; subst. inversion Hr as [|? l2 ? ls1 Hy Hr2]; subst.
    exists (l2 :: l1 :: ls1). split; [apply perm_swap|]. constructor; [assumption|constructor; assumption].
  - destruct (IH1 _ H) as (m & Hm & Hm'). destruct (IH2 _ Hm') as (m2 & Hm2 & Hm2').
    exists m2. split; [etransitivity; eauto|exact Hm2'].
Qed.
Lemma agrees_start_any it l b : stands_any it l -> agrees b it l.
Proof. intros [[Hs Hu] Hb]. exists (zlen l), l. split; [exact Hb|]. split; [exact Hs|]. tauto. Qed.
Lemma times_pos x l : (1 <= times x l)%nat <-> In x l.
Proof. unfold times. rewrite (count_occ_In Z.eq_dec). lia. Qed.

(** ** scanning: the candidates of one value *)
Definition blk (x : Z) (A : list (Z * Z)) : list Z := map snd (filter (fun xc => fst xc =? x) A).
Fixpoint bzip (cs : list Z) (m : nat) : list Z :=
  match cs, m with
  | [], m => repeat 1 m
  | c :: t, O => cs
  | c :: t, S m' => c + 1 :: bzip t m'
  end.
Lemma bzip_0 cs : bzip cs 0 = cs. Proof. destruct cs; reflexivity. Qed.
Lemma blk_nil x A : Forall (fun xc => x < fst xc) A -> blk x A = [].
Proof. induction 1 as [|a A Ha H IH]; [reflexivity|]. unfold blk in *. cbn [filter]. replace (fst a =? x) with false by lia. exact IH. Qed.
Lemma blk_cons x y c A : blk x ((y, c) :: A) = if y =? x then c :: blk x A else blk x A.
Proof. unfold blk. cbn [filter fst]. destruct (y =? x); reflexivity. Qed.
Lemma times_cons x y l : times x (y :: l) = if y =? x then S (times x l) else times x l.
Proof. unfold times. cbn [count_occ]. destruct (Z.eq_dec y x), (Z.eqb_spec y x); try congruence; reflexivity. Qed.
Lemma times_nil x l : Forall (fun y => x < y) l -> times x l = O.
Proof. intros H. unfold times. apply count_occ_not_In. intros Hi. rewrite Forall_forall in H. specialize (H x Hi). lia. Qed.
Lemma blk_map x l : blk x (map (fun y => (y, 1)) l) = repeat 1 (times x l).
Proof. induction l as [|y l IH]; [reflexivity|]. cbn [map]. rewrite blk_cons, times_cons, IH. destruct (y =? x); reflexivity. Qed.
Lemma madd_geW A l b : Forall (fun xc => b <= fst xc) A -> Forall (fun x => b <= x) l -> Forall (fun xc => b <= fst xc) (madd A l).
Proof.
  revert l. induction A as [|[p c] A IH]; intros l HA Hl; cbn [madd].
  - apply Forall_map. exact Hl.
  - pose proof (Forall_inv HA) as Hp. pose proof (Forall_inv_tail HA) as HA'. cbn [fst] in Hp. induction l as [|x l IHl]; [exact HA|].
    pose proof (Forall_inv Hl) as Hx. pose proof (Forall_inv_tail Hl) as Hl'. cbv beta in Hx.
    destruct (p >? x); [constructor; [exact Hx|exact (IHl Hl')]|]. destruct (p <? x); (constructor; [exact Hp|apply IH; assumption]).
Qed.
Lemma madd_sortedW A l : sortedW A -> StronglySorted Z.le l -> sortedW (madd A l).
Proof.
  revert l. induction A as [|[p c] A IH]; intros l HA Hl.
  - cbn [madd]. induction Hl as [|x l Hs IHl Hf]; cbn [map]; constructor; [exact IHl|]. apply Forall_map. exact Hf.
  - pose proof HA as HA0. inversion_clear HA as [|? ? HA' Hp]. induction l as [|x l IHl]; cbn [madd]; [exact HA0|].
    inversion_clear Hl as [|? ? Hl' Hx]. destruct (p >? x) eqn:E1.
    + constructor; [exact (IHl Hl')|]. apply (madd_geW ((p, c) :: A) l x); [|exact Hx]. constructor; [cbn; lia|]. eapply Forall_impl; [|exact Hp]. intros a Ha. cbn [fst] in *. lia.
    + destruct (p <? x) eqn:E2.
      * constructor; [apply IH; [exact HA'|constructor; assumption]|]. apply madd_geW; [exact Hp|]. cbn [fst]. constructor; [lia|]. eapply Forall_impl; [|exact Hx]. intros a Ha. cbv beta in *. lia.
      * constructor; [apply IH; assumption|]. apply madd_geW; [exact Hp|]. cbn [fst]. eapply Forall_impl; [|exact Hx]. intros a Ha. cbv beta in *. lia.
Qed.
Lemma madd_blk A l x : sortedW A -> StronglySorted Z.le l -> blk x (madd A l) = bzip (blk x A) (times x l).
Proof.
  revert l. induction A as [|[p c] A IH]; intros l HA Hl.
  - cbn [madd]. rewrite blk_map. reflexivity.
  - pose proof HA as HA0. inversion_clear HA as [|? ? HA' Hp]. cbn [fst] in Hp. induction l as [|y l IHl].
    { cbn [madd]. change (times x []) with O. rewrite bzip_0. reflexivity. }
    inversion_clear Hl as [|? ? Hl' Hy]. specialize (IHl Hl'). cbn [madd].
    assert (forall z, z < y -> times z (y :: l) = O) as T0.
    { intros z Hz. apply times_nil. constructor; [exact Hz|]. eapply Forall_impl; [|exact Hy]. intros a Ha. cbv beta in *. lia. }
    destruct (p >? y) eqn:E1.
    + rewrite blk_cons, times_cons. change ((fix go (l0 : list Z) : list (Z * Z) := match l0 with [] => (p, c) :: A | x0 :: l' => if p >? x0 then (x0, 1) :: go l' else if p <? x0 then (p, c) :: madd A l0 else (p, c + 1) :: madd A l' end) l) with (madd ((p, c) :: A) l).
      rewrite IHl. destruct (Z.eqb_spec y x) as [->|]; [|reflexivity].
      rewrite blk_nil; [reflexivity|]. constructor; [cbn; lia|]. eapply Forall_impl; [|exact Hp]. intros a Ha. cbv beta in *. lia.
    + destruct (p <? y) eqn:E2.
      * rewrite !blk_cons, IH by (try constructor; assumption). destruct (Z.eqb_spec p x) as [->|]; [|reflexivity]. rewrite T0 by lia. rewrite !bzip_0. reflexivity.
      * replace y with p in * by lia. rewrite !blk_cons, times_cons, IH by assumption. destruct (Z.eqb_spec p x) as [->|]; reflexivity.
Qed.
(* a block: the first candidate has the count, the others no more, there are at most as many as the value is repeated *)
Definition blk_ok (done : list (list Z)) (x : Z) (b : list Z) : Prop :=
  Forall (fun c => 1 <= c <= count x done) b /\ (1 <= count x done -> exists t, b = count x done :: t) /\
  forall n, Forall (fun l => (times x l <= n)%nat) done -> (length b <= n)%nat.
Lemma bzip_len b : forall m, length (bzip b m) = Nat.max (length b) m.
Proof. induction b as [|c b IH]; intros [|m]; cbn [bzip length]; rewrite ?repeat_length; try reflexivity. rewrite IH. lia. Qed.
Lemma bzip_bound lo hi b : 0 <= lo <= hi -> forall m, Forall (fun c => 1 <= c <= lo) b -> Forall (fun c => 1 <= c <= lo + 1) (bzip b m).
Proof.
  intros H0. induction b as [|c b IH]; intros m Hb; [cbn [bzip]; apply Forall_forall; intros y Hy; apply repeat_spec in Hy; subst y; lia|].
  pose proof (Forall_inv Hb) as Hc. cbv beta in Hc. destruct m as [|m]; cbn [bzip].
  - eapply Forall_impl; [|exact Hb]. intros y Hy. cbv beta in *. lia.
  - constructor; [lia|]. apply IH. exact (Forall_inv_tail Hb).
Qed.
Lemma blk_step done l x b : blk_ok done x b -> blk_ok (done ++ [l]) x (bzip b (times x l)).
Proof.
  intros (H1 & H2 & H3). unfold blk_ok. rewrite count_app, count_cons, count_nil. pose proof (count_nonneg x done) as H0.
  assert (b2z (mem x l) = 1 /\ (1 <= times x l)%nat \/ b2z (mem x l) = 0 /\ times x l = O) as Hc.
  { destruct (mem x l) eqn:E; [left|right]; cbn [b2z]; (split; [reflexivity|]); [apply times_pos, mem_In; exact E|]. apply mem_false in E. rewrite <- times_pos in E. lia. }
  split; [|split].
  - destruct Hc as [[-> Hm]|[-> ->]].
    + rewrite Z.add_0_r. apply (bzip_bound (count x done) (count x done)); [lia|exact H1].
    + rewrite bzip_0, !Z.add_0_r. exact H1.
  - destruct Hc as [[-> Hm]|[-> ->]].
    + intros _. destruct (times x l) as [|m]; [lia|]. destruct (Z.eq_dec (count x done) 0) as [E0|].
      * rewrite E0 in *. destruct b as [|c b]; [exists (repeat 1 m); reflexivity|]. pose proof (Forall_inv H1). cbv beta in *. lia.
      * destruct (H2 ltac:(lia)) as (t & ->). cbn [bzip]. exists (bzip t m). reflexivity.
    + rewrite bzip_0, !Z.add_0_r. exact H2.
  - intros n Hn. apply Forall_app in Hn. destruct Hn as [Hn Hl]. rewrite bzip_len. specialize (H3 n Hn). pose proof (Forall_inv Hl). cbv beta in *. lia.
Qed.
Definition CNTW (done : list (list Z)) (A : list (Z * Z)) : Prop :=
  sortedW A /\ okA (zlen done) A /\ forall x, blk_ok done x (blk x A).
Lemma scan_lists_any : forall rid ls done A, lists_any rid ls -> CNTW done A -> zlen done + zlen ls <= 65535 ->
  exists A', scan_lists rid (map pk A) = Ret (map pk A') /\ CNTW (done ++ ls) A'.
Proof.
  induction rid as [|it rid IH]; intros ls done A Hls HC Hn; inversion Hls as [|? l ? ls' [[Hs Hu] Hb] Hr]; subst.
  - exists A. split; [reflexivity|]. rewrite app_nil_r. exact HC.
  - destruct HC as (H1 & H3 & H4). cbn [scan_lists].
    rewrite zlen_cons in Hn. pose proof (zlen_nonneg ls'). pose proof (zlen_nonneg done).
    rewrite (get_valid_ok _ _ _ Hb). cbn [bind].
    rewrite (scan_loop_ok _ A l it (zlen l)); auto.
    + cbn [bind app]. replace (done ++ l :: ls') with ((done ++ [l]) ++ ls') by (rewrite <- app_assoc; reflexivity).
      apply IH; [exact Hr| |rewrite zlen_app, zlen_cons, zlen_nil; lia].
      split; [apply madd_sortedW; auto|]. split.
      * rewrite zlen_app, zlen_cons, zlen_nil. apply madd_ok; auto; lia.
      * intros x. rewrite madd_blk by auto. apply blk_step. apply H4.
    + eapply Forall_impl; [|exact H3]. intros xc [Ha Hb']. split; [exact Ha|lia].
    + rewrite (behaves_len _ _ _ Hb). rewrite map_length. unfold zlen. lia.
Qed.

(** ** pruning *)
Definition CANDW (done rest : list (list Z)) (T : Z) (A : list (Z * Z)) : Prop :=
  sortedW A /\ okA (zlen done) A /\ (forall x c, In (x, c) A -> 1 <= c <= count x done) /\
  (forall x, T <= count x (done ++ rest) -> In (x, count x done) A) /\
  forall x n, Forall (fun l => (times x l <= n)%nat) (done ++ rest) -> (copies x A <= n)%nat.
Lemma sortedW_filter f A : sortedW A -> sortedW (filter f A).
Proof.
  induction 1 as [|a A HA IH Ha]; [constructor|]. cbn [filter]. destruct (f a); [|exact IH].
  constructor; [exact IH|]. apply Forall_forall. intros y Hy. apply filter_In in Hy. rewrite Forall_forall in Ha. apply Ha, Hy.
Qed.
Lemma copies_filter x f A : (copies x (filter f A) <= copies x A)%nat.
Proof. unfold copies. induction A as [|a A IH]; [apply le_n|]. cbn [filter]. destruct (f a); cbn [filter]; destruct (fst a =? x); cbn [length]; lia. Qed.
Lemma copies_bump x l A : copies x (map (bump l) A) = copies x A.
Proof. unfold copies. induction A as [|a A IH]; [reflexivity|]. cbn [map filter]. change (fst (bump l a)) with (fst a). destruct (fst a =? x); cbn [length]; lia. Qed.
Lemma copies_blk x A : copies x A = length (blk x A).
Proof. unfold copies, blk. rewrite map_length. reflexivity. Qed.
Lemma CANDW_step done l rest T A : CANDW done (l :: rest) T A -> zlen done <= 65534 ->
  CANDW (done ++ [l]) rest T (filter (fun xc => T <=? snd xc + zlen rest) (map (bump l) A)).
Proof.
  intros (H1 & H2 & H3 & H4 & H5) Hn.
  assert (sortedW (map (bump l) A)) as Hs.
  { clear - H1. induction H1 as [|a A HA IH Ha]; [constructor|]. cbn [map]. constructor; [exact IH|]. apply Forall_map. exact Ha. }
  split; [apply sortedW_filter; exact Hs|]. split; [|split; [|split]].
  - apply Forall_forall. intros xc Hin. apply filter_In in Hin. destruct Hin as [Hin _].
    apply in_map_iff in Hin. destruct Hin as (yc & <- & Hy). unfold okA in H2. rewrite Forall_forall in H2. specialize (H2 _ Hy). destruct H2 as [Ha Hb].
    unfold bump. cbn [fst snd]. split; [exact Ha|]. rewrite zlen_snoc. destruct (mem (fst yc) l); cbn [b2z]; lia.
  - intros x c Hin. apply filter_In in Hin. destruct Hin as [Hin _]. apply in_map_iff in Hin.
    destruct Hin as ([y d] & E & Hy). unfold bump in E. cbn [fst snd] in E. injection E as <- <-.
    pose proof (H3 y d Hy) as Hd. rewrite count_app, count_cons, count_nil. destruct (mem y l); cbn [b2z]; lia.
  - intros x Hx. rewrite <- app_assoc in Hx. cbn [app] in Hx. specialize (H4 x Hx).
    apply filter_In. split.
    + apply in_map_iff. exists (x, count x done). split; [|exact H4]. unfold bump. cbn [fst snd].
      rewrite count_app, count_cons, count_nil. f_equal. lia.
    + cbn [snd]. rewrite !count_app, count_cons in *. rewrite count_nil. pose proof (count_le x rest). lia.
  - intros x n Hx. rewrite <- app_assoc in Hx. cbn [app] in Hx. specialize (H5 x n Hx). etransitivity; [apply copies_filter|]. rewrite copies_bump. exact H5.
Qed.
Lemma prune_lists_any : forall rid rest done T A, lists_any rid rest -> CANDW done rest T A -> zlen done + zlen rest <= 65535 ->
  exists A', prune_lists rid T (map pk A) = Ret (map pk A') /\ CANDW (done ++ rest) [] T A'.
Proof.
  induction rid as [|it rid IH]; intros rest done T A Hl HC Hn; inversion Hl as [|? l ? rest' Hst Hr]; subst.
  - exists A. rewrite app_nil_r. split; [destruct (map pk A); reflexivity|exact HC].
  - rewrite zlen_cons in Hn. pose proof (zlen_nonneg rest').
    destruct A as [|a A].
    + exists []. cbn [prune_lists map]. split; [reflexivity|].
      destruct HC as (H1 & H2 & H3 & H4 & H5). split; [constructor|]. split; [constructor|]. split; [intros x c []|]. split; [|intros; cbn; lia].
      intros x Hx. rewrite app_nil_r in Hx. destruct (H4 x Hx).
    + cbn [prune_lists map]. change (pk a :: map pk A) with (map pk (a :: A)).
      pose proof HC as (H1 & H2 & H3 & H4 & H5).
      rewrite (prune_ok (a :: A) (fst a) it l).
      * cbn [bind]. rewrite (anys_length _ _ Hr).
        destruct (IH rest' (done ++ [l]) T _ Hr (CANDW_step _ _ _ _ _ HC ltac:(lia))) as (A' & E & HC').
        { rewrite zlen_snoc. lia. }
        exists A'. split; [exact E|]. rewrite <- app_assoc in HC'. exact HC'.
      * apply agrees_start_any. exact Hst.
      * exact H1.
      * apply StronglySorted_inv in H1. destruct H1 as [_ H1]. constructor; [lia|exact H1].
      * eapply Forall_impl; [|exact H2]. intros y [Ha Hb]. split; [exact Ha|lia].
Qed.
Lemma CANDW_answer ls T A : 1 <= T -> CANDW ls [] T A -> is_answer_any ls T (filter (fun xc => T <=? snd xc) A).
Proof.
  intros HT (H1 & H2 & H3 & H4 & H5). split; [apply sortedW_filter; exact H1|]. split; [|split].
  - intros x Hc Ht. apply filter_In. split; [apply H4; rewrite app_nil_r; exact Ht|cbn [snd]; lia].
  - intros x c Hin. apply filter_In in Hin. destruct Hin as [Hin Hc]. cbn [snd] in Hc. specialize (H3 x c Hin). lia.
  - intros x n Hx. etransitivity; [apply copies_filter|]. apply H5. rewrite app_nil_r. exact Hx.
Qed.
Lemma is_answer_any_perm ls ls' T cs : Permutation ls ls' -> is_answer_any ls' T cs -> is_answer_any ls T cs.
Proof.
  intros Hp (H1 & H2 & H3 & H4). split; [exact H1|]. split; [intros x; rewrite (count_perm x ls ls' Hp); apply H2|]. split; [intros x; rewrite (count_perm x ls ls' Hp); apply H3|].
  intros x n Hx. apply H4. apply (Permutation_Forall Hp). exact Hx.
Qed.
Lemma cpMerge_any {St} (collect : St -> Z -> option err * St) srt rid ls T s :
  sorter_ok srt -> lists_any rid ls -> zlen ls <= 65535 -> 1 <= T <= zlen ls ->
  exists cs, is_answer_any ls T cs /\ cpMerge collect srt rid T s = wrapped (feed collect cs s).
Proof.
  intros Hsrt Hl Hn HT. unfold cpMerge. rewrite (anys_length _ _ Hl).
  destruct (anys_perm rid (srt rid) (Hsrt rid) ls Hl) as (ls' & Hp & Hl').
  assert (zlen ls = zlen ls') as Hlen by (unfold zlen; rewrite (Permutation_length Hp); reflexivity).
  set (k := zlen ls - T + 1).
  set (r := srt rid) in *.
  rewrite <- (firstn_skipn (Z.to_nat k) r) in Hl'.
  destruct (anys_app_inv _ _ _ Hl') as (l1 & l2 & E & Hl1 & Hl2).
  assert (zlen r = zlen ls') as Hlr by (rewrite (firstn_skipn (Z.to_nat k) r) in Hl'; apply anys_length; exact Hl').
  assert (slice r 0 k = Ret (firstn (Z.to_nat k) r)) as ->.
  { unfold slice. replace ((0 <=? 0) && (0 <=? k) && (k <=? zlen r)) with true by (unfold k; lia).
    rewrite Z.sub_0_r. reflexivity. }
  assert (zlen l1 = k) as Hk.
  { rewrite <- (anys_length _ _ Hl1). unfold zlen in *. rewrite firstn_length. unfold k in *. lia. }
  assert (zlen l1 + zlen l2 = zlen ls') as Hadd by (rewrite E, zlen_app; lia).
  pose proof (zlen_nonneg l2).
  destruct (scan_lists_any _ _ [] [] Hl1) as (A & EA & HC).
  { split; [constructor|]. split; [constructor|]. intros x. unfold blk_ok. cbn. split; [constructor|]. split; [lia|]. intros; lia. }
  { rewrite zlen_nil. lia. }
  cbn [map app] in EA, HC. rewrite EA. cbn [bind].
  assert (CANDW l1 l2 T A) as HCA.
  { destruct HC as (H1 & H3 & H4). split; [exact H1|]. split; [exact H3|]. split; [|split].
    - intros x c Hin. destruct (H4 x) as (B1 & _). rewrite Forall_forall in B1. apply B1. unfold blk. apply in_map_iff. exists (x, c). split; [reflexivity|]. apply filter_In. split; [exact Hin|]. cbn [fst]. lia.
    - intros x Hx. destruct (H4 x) as (_ & B2 & _). destruct B2 as (t & Et). { rewrite count_app in Hx. pose proof (count_le x l2). unfold k in Hk. lia. }
      assert (In (count x l1) (blk x A)) as Hi by (rewrite Et; left; reflexivity). unfold blk in Hi. apply in_map_iff in Hi. destruct Hi as ([y c] & Ec & Hi). apply filter_In in Hi. destruct Hi as [Hi Ey]. cbn [fst snd] in *.
      replace y with x in Hi by lia. rewrite <- Ec. exact Hi.
    - intros x n Hx. destruct (H4 x) as (_ & _ & B3). rewrite copies_blk. apply B3. apply Forall_app in Hx. apply Hx. }
  destruct (prune_lists_any _ _ l1 T A Hl2 HCA ltac:(lia)) as (A' & EP & HC'). rewrite EP. cbn [wrap_err].
  rewrite (emit_ok collect (zlen (l1 ++ l2))); [|apply HC'|rewrite zlen_app; lia].
  exists (filter (fun xc => T <=? snd xc) A'). split.
  - eapply is_answer_any_perm; [exact Hp|]. rewrite E. apply CANDW_answer; [lia|exact HC'].
  - unfold wrapped. destruct (feed collect (filter (fun xc => T <=? snd xc) A') s) as [r0 s0]. destruct r0; reflexivity.
Qed.

(** ** intersection *)
Lemma intersect_loop_any {St} (collect : St -> Z -> option err * St) n ls : forall fuel x r first nf rest s,
  behaves first nf (x :: r) -> StronglySorted Z.le (x :: r) -> Forall2 (agrees x) rest ls -> (length r < fuel)%nat ->
  intersect_loop collect fuel n x first rest s = feed collect (map (fun y => (y, n)) (filter (fun y => forallb (mem y) ls) (x :: r))) s.
Proof.
  induction fuel as [|fuel IH]; intros x r first nf rest s Hb Hs Hag Hf; [lia|]. cbn [intersect_loop].
  destruct (in_rest_ok rest ls x x Hag ltac:(lia)) as (good & rest' & E & Hag' & Hgood). rewrite E.
  rewrite (behaves_hasNext _ _ _ Hb). apply StronglySorted_inv in Hs. destruct Hs as [Hs Hx].
  assert (forallb (mem x) ls = good) as Eg.
  { destruct good; [apply forallb_forall; intros l Hl; apply mem_In; pose proof (proj1 Hgood eq_refl) as Hall; rewrite Forall_forall in Hall; auto|].
    destruct (forallb (mem x) ls) eqn:Ef; [|reflexivity]. exfalso. rewrite forallb_forall in Ef. assert (false = true); [|discriminate]. apply Hgood. apply Forall_forall. intros l Hl. apply mem_In. auto. }
  cbn [filter]. rewrite Eg.
  destruct r as [|y r].
  - rewrite zlen_cons, zlen_nil. cbn [Z.add Z.leb Z.compare negb Pos.compare Pos.compare_cont filter].
    destruct good; [|reflexivity]. cbn [map feed]. destruct (collect s (NewMergeCandidate x n)) as [[e|] s']; [|reflexivity]. destruct e; reflexivity.
  - rewrite !zlen_cons. pose proof (zlen_nonneg r). replace (2 <=? 1 + (1 + zlen r)) with true by lia. cbn [negb].
    destruct (behaves_next _ _ _ _ _ Hb) as (first' & En & Hb'). rewrite En.
    assert (Forall2 (agrees y) rest' ls) as Hag2.
    { pose proof (Forall_inv Hx) as Hxy. clear - Hag' Hxy. induction Hag'; constructor; auto. eapply agrees_weaken; [|eassumption]. exact Hxy. }
    destruct good.
    + cbn [map feed]. destruct (collect s (NewMergeCandidate x n)) as [[e|] s'] eqn:Ec; [destruct e; reflexivity|].
      apply (IH y r first' nf rest' s' Hb' Hs Hag2). cbn in Hf. lia.
    + apply (IH y r first' nf rest' s Hb' Hs Hag2). cbn in Hf. lia.
Qed.
Lemma intersect_any {St} (collect : St -> Z -> option err * St) srt rid ls s :
  sorter_ok srt -> lists_any rid ls -> nonempty ls -> 1 <= zlen ls < 2 ^ 32 ->
  exists cs, is_answer_any ls (zlen ls) cs /\ intersect collect srt rid s = feed collect cs s.
Proof.
  intros Hsrt Hl Hne Hn. unfold intersect. rewrite (anys_length _ _ Hl), wrap32_small by (unfold is_u32; lia).
  replace (zlen ls =? 0) with false by lia.
  destruct (anys_perm rid (srt rid) (Hsrt rid) ls Hl) as (ls' & Hp & Hl').
  assert (zlen ls = zlen ls') as Hlen by (unfold zlen; rewrite (Permutation_length Hp); reflexivity).
  destruct (srt rid) as [|it rest]; inversion Hl' as [|? l ? ls2 [[Hs Hu] Hb] Hr]; subst; [rewrite zlen_nil in *; lia|].
  assert (l <> []) as Hlne.
  { unfold nonempty in Hne. rewrite Forall_forall in Hne. apply Hne. apply (Permutation_in _ (Permutation_sym Hp)). left. reflexivity. }
  destruct l as [|x r]; [congruence|].
  rewrite (behaves_get _ _ _ Hb). cbn [first]. rewrite (behaves_len _ _ _ Hb).
  rewrite (intersect_loop_any collect (zlen ls) ls2 _ x r it (zlen (x :: r)) rest s); auto;
    [|clear - Hr; induction Hr; constructor; auto; apply agrees_start_any; assumption|unfold zlen; cbn [length]; lia].
  set (f := fun y => forallb (mem y) ls2). exists (map (fun y => (y, zlen ls)) (filter f (x :: r))). split; [|reflexivity].
  eapply is_answer_any_perm; [exact Hp|].
  assert (forall y, count y ((x :: r) :: ls2) = zlen ((x :: r) :: ls2) <-> In y (filter f (x :: r))) as Hc.
  { intros y. rewrite count_all, filter_In. unfold f. rewrite forallb_forall. split.
    - intros Hf. split; [exact (Forall_inv Hf)|]. intros l Hin. apply mem_In. apply Forall_inv_tail in Hf. rewrite Forall_forall in Hf. auto.
    - intros [Ha Hb2]. constructor; [exact Ha|]. apply Forall_forall. intros l Hin. apply mem_In. auto. }
  split; [|split; [|split]].
  - clear - Hs. assert (StronglySorted Z.le (filter f (x :: r))) as H.
    { induction Hs as [|a l H IH Ha]; [constructor|]. cbn [filter]. destruct (f a); [|exact IH]. constructor; [exact IH|]. apply Forall_forall. intros y Hy. apply filter_In in Hy. rewrite Forall_forall in Ha. apply Ha, Hy. }
    induction H as [|a l H IH Ha]; [constructor|]. cbn [map]. constructor; [exact IH|]. apply Forall_map. exact Ha.
  - intros y H1 H2. pose proof (count_le y ((x :: r) :: ls2)). apply in_map_iff. exists y. split; [f_equal; lia|]. apply Hc. lia.
  - intros y c Hin. apply in_map_iff in Hin. destruct Hin as (z & E & Hz). injection E as -> <-. apply Hc in Hz. lia.
  - intros y n Hy. pose proof (Forall_inv Hy) as H1. cbv beta in H1. etransitivity; [|exact H1]. clear. unfold copies, times. induction (x :: r) as [|a l IH]; [apply le_n|]. cbn [filter count_occ].
    destruct (f a); cbn [map filter fst]; destruct (Z.eq_dec a y) as [->|Hne]; rewrite ?Z.eqb_refl; cbn [length]; try lia; replace (a =? y) with false by lia; lia.
Qed.
