(** CPMerge and the intersector. *)
From Coq Require Import ZifyBool.
From Verif Require Import Base BaseLemmas Postings PostingsSpec PostingsDrive PostingsProofs Heap Merger MergerSpec MergerProofs.
Local Open Scope Z_scope.
Ltac Zify.zify_post_hook ::= Z.div_mod_to_equations.

Lemma zlen_snoc {A} (l : list A) x : zlen (l ++ [x]) = zlen l + 1.
Proof. rewrite zlen_app. reflexivity. Qed.
(* the iterator still agrees with l on values >= b *)
Definition agrees (b : Z) (it : iter) (l : list Z) : Prop :=
  exists n rest, behaves it n rest /\ StronglySorted Z.le rest /\ forall y, b <= y -> (In y rest <-> In y l).

Lemma agrees_start it l b : stands_for it l -> agrees b it l.
Proof. intros [[Hs Hu] Hb]. exists (zlen l), l. split; [exact Hb|]. split; [apply sorted_lt_le; exact Hs|]. tauto. Qed.
Lemma agrees_weaken b b' it l : b <= b' -> agrees b it l -> agrees b' it l.
Proof. intros Hb (n & rest & H1 & H2 & H3). exists n, rest. split; [exact H1|]. split; [exact H2|]. intros y Hy. apply H3. lia. Qed.
Lemma drop_lt_In to l y : StronglySorted Z.lt l -> (In y (drop_lt to l) <-> In y l /\ to <= y).
Proof.
  induction 1 as [|x l Hs IH Hx]; cbn [drop_lt]; [cbn; tauto|].
  destruct (x <? to) eqn:E.
  - rewrite IH. cbn [In]. split; [tauto|]. intros [[->|H] Hy]; [lia|tauto].
  - split; [|tauto]. intros H. split; [exact H|]. destruct H as [->|H]; [lia|].
    rewrite Forall_forall in Hx. specialize (Hx y H). lia.
Qed.
Lemma drop_lt_sorted to l : StronglySorted Z.lt l -> StronglySorted Z.lt (drop_lt to l).
Proof.
  intros H. destruct (drop_lt_suffix to l) as (p & E & _). rewrite E in H. eapply sorted_app_r. exact H.
Qed.
Lemma drop_lt_In_le to l y : StronglySorted Z.le l -> (In y (drop_lt to l) <-> In y l /\ to <= y).
Proof.
  induction 1 as [|x l Hs IH Hx]; cbn [drop_lt]; [cbn; tauto|].
  destruct (x <? to) eqn:E.
  - rewrite IH. cbn [In]. split; [tauto|]. intros [[->|H] Hy]; [lia|tauto].
  - split; [|tauto]. intros H. split; [exact H|]. destruct H as [->|H]; [lia|].
    rewrite Forall_forall in Hx. specialize (Hx y H). lia.
Qed.
Lemma drop_lt_sorted_le to l : StronglySorted Z.le l -> StronglySorted Z.le (drop_lt to l).
Proof.
  intros H. destruct (drop_lt_suffix to l) as (p & E & _). rewrite E in H. eapply sorted_app_r. exact H.
Qed.
(* one LowerBound query *)
Lemma agrees_lb b it l x : agrees b it l -> b <= x ->
  exists r it', it_lowerBound it x = (r, it') /\ agrees x it' l /\
    ((In x l /\ r = Ret x) \/ (~ In x l /\ (r = Fail ErrIteratorIsNotDereferencable \/ exists v, r = Ret v /\ v <> x))).
Proof.
  intros (n & rest & H1 & H2 & H3) Hb. destruct (behaves_lb it n rest x H1) as (it' & E & H').
  exists (first (drop_lt x rest)), it'. split; [exact E|]. split.
  - exists n, (drop_lt x rest). split; [exact H'|]. split; [apply drop_lt_sorted_le; exact H2|].
    intros y Hy. rewrite drop_lt_In_le by exact H2. rewrite H3 by lia. tauto.
  - assert (In x l <-> In x (drop_lt x rest)) as Hx.
    { rewrite drop_lt_In_le by exact H2. rewrite H3 by lia. split; [split; [assumption|lia]|tauto]. }
    pose proof (drop_lt_sorted_le x rest H2) as Hd.
    assert (forall y, In y (drop_lt x rest) -> x <= y) as Hge by (intros y Hy; apply drop_lt_In_le in Hy; [tauto|exact H2]).
    destruct (drop_lt x rest) as [|v r]; cbn [first].
    + right. split; [rewrite Hx; cbn; tauto|left; reflexivity].
    + destruct (Z.eq_dec v x) as [->|Hne].
      * left. split; [apply Hx; left; reflexivity|reflexivity].
      * right. split; [|right; exists v; auto]. rewrite Hx. intros [->|Hin]; [congruence|].
        apply StronglySorted_inv in Hd. destruct Hd as [_ Hd]. rewrite Forall_forall in Hd. specialize (Hd x Hin).
        specialize (Hge v (or_introl eq_refl)). lia.
Qed.

(* positions in weakly ascending order *)
Definition sortedW (A : list (Z * Z)) : Prop := StronglySorted (fun a b => fst a <= fst b) A.
Lemma sortedA_W A : sortedA A -> sortedW A.
Proof. induction 1 as [|x l Hs IH Hf]; constructor; [exact IH|]. eapply Forall_impl; [|exact Hf]. intros y Hy. cbv beta in *. lia. Qed.
(** ** pruning *)
Definition bump (l : list Z) (xc : Z * Z) : Z * Z := (fst xc, snd xc + b2z (mem (fst xc) l)).
Lemma prune_ok : forall A b it l left T, agrees b it l -> sortedW A -> Forall (fun xc => b <= fst xc) A -> okA 65534 A ->
  prune it left T (map pk A) = Ret (map pk (filter (fun xc => T <=? snd xc + left) (map (bump l) A))).
Proof.
  induction A as [|[x c] A IH]; intros b it l left T Hag Hs Hb Hok; [reflexivity|].
  cbn [map prune]. apply StronglySorted_inv in Hs. destruct Hs as [Hs Hx]. cbn [fst] in Hx.
  pose proof (Forall_inv Hok) as [Hux Hc]. pose proof (Forall_inv_tail Hok) as Hok'. cbn [fst snd] in Hux, Hc.
  pose proof (Forall_inv Hb) as Hbx. cbn in Hbx.
  change (pk (x, c)) with (NewMergeCandidate x c).
  rewrite position_pack by (unfold is_u32 in *; lia).
  destruct (agrees_lb b it l x Hag Hbx) as (r & it' & E & Hag' & Hr). rewrite E.
  assert (match r with
          | Ret current => if current =? x then increment (NewMergeCandidate x c) else Ret (NewMergeCandidate x c)
          | Fail ErrIteratorIsNotDereferencable => Ret (NewMergeCandidate x c)
          | Fail e => Fail e | Panic => Panic | NoFuel => NoFuel end
          = Ret (pk (bump l (x, c)))) as ->.
  { unfold bump, pk. cbn [fst snd]. destruct Hr as [[Hin ->]|[Hin Hr]].
    - rewrite Z.eqb_refl. apply mem_In in Hin. rewrite Hin. apply increment_pack; [exact Hux|lia].
    - apply mem_false in Hin. rewrite Hin. cbn [b2z]. rewrite Z.add_0_r.
      destruct Hr as [->|(v & -> & Hv)]; [reflexivity|]. replace (v =? x) with false by lia. reflexivity. }
  cbn [bind].
  rewrite (IH x it' l left T Hag' Hs).
  - cbn [bind filter]. unfold bump at 1 2 5. unfold pk at 1 2. cbn [fst snd].
    rewrite overlap_pack by (unfold is_u32 in *; destruct (mem x l); cbn [b2z]; lia).
    rewrite Z.geb_leb. destruct (T <=? c + b2z (mem x l) + left); reflexivity.
  - exact Hx.
  - exact Hok'.
Qed.

(* candidates with exact counts of [done], containing every value that can still reach T *)
Definition CAND (done rest : list (list Z)) (T : Z) (A : list (Z * Z)) : Prop :=
  sortedA A /\ okA (zlen done) A /\ (forall x c, In (x, c) A -> c = count x done /\ 1 <= c) /\
  (forall x, T <= count x (done ++ rest) -> In (x, count x done) A).

Lemma CAND_step done l rest T A : CAND done (l :: rest) T A -> zlen done <= 65534 ->
  CAND (done ++ [l]) rest T (filter (fun xc => T <=? snd xc + zlen rest) (map (bump l) A)).
Proof.
  intros (H1 & H2 & H3 & H4) Hn. 
  assert (sortedA (map (bump l) A)) as Hs.
  { clear - H1. induction H1 as [|a A HA IH Ha]; [constructor|]. cbn [map]. constructor; [exact IH|]. apply Forall_map. exact Ha. }
  split; [apply sortedA_filter; exact Hs|]. split; [|split].
  - apply Forall_forall. intros xc Hin. apply filter_In in Hin. destruct Hin as [Hin _].
    apply in_map_iff in Hin. destruct Hin as (yc & <- & Hy). unfold okA in H2. rewrite Forall_forall in H2. specialize (H2 _ Hy). destruct H2 as [Ha Hb].
    unfold bump. cbn [fst snd]. split; [exact Ha|]. rewrite zlen_snoc. destruct (mem (fst yc) l); cbn [b2z]; lia.
  - intros x c Hin. apply filter_In in Hin. destruct Hin as [Hin _]. apply in_map_iff in Hin.
    destruct Hin as ([y d] & E & Hy). unfold bump in E. cbn [fst snd] in E. injection E as <- <-.
    destruct (H3 y d Hy) as [-> Hd]. rewrite count_app, count_cons, count_nil. destruct (mem y l); cbn [b2z]; lia.
  - intros x Hx. rewrite <- app_assoc in Hx. cbn [app] in Hx. specialize (H4 x Hx).
    apply filter_In. split.
    + apply in_map_iff. exists (x, count x done). split; [|exact H4]. unfold bump. cbn [fst snd].
      rewrite count_app, count_cons, count_nil. f_equal. lia.
    + cbn [snd]. rewrite !count_app, count_cons in *. rewrite count_nil. pose proof (count_le x rest). lia.
Qed.
Lemma prune_lists_ok : forall rid rest done T A, lists rid rest -> CAND done rest T A -> zlen done + zlen rest <= 65535 ->
  exists A', prune_lists rid T (map pk A) = Ret (map pk A') /\ CAND (done ++ rest) [] T A'.
Proof.
  induction rid as [|it rid IH]; intros rest done T A Hl HC Hn; inversion Hl as [|? l ? rest' Hst Hr]; subst.
  - exists A. rewrite app_nil_r. split; [destruct (map pk A); reflexivity|exact HC].
  - rewrite zlen_cons in Hn. pose proof (zlen_nonneg rest').
    destruct A as [|a A].
    + exists []. cbn [prune_lists map]. split; [reflexivity|].
      destruct HC as (H1 & H2 & H3 & H4). split; [constructor|]. split; [constructor|]. split; [intros x c []|].
      intros x Hx. rewrite app_nil_r in Hx. destruct (H4 x Hx).
    + cbn [prune_lists map]. change (pk a :: map pk A) with (map pk (a :: A)).
      pose proof HC as (H1 & H2 & H3 & H4).
      rewrite (prune_ok (a :: A) (fst a) it l).
      * cbn [bind]. rewrite (lists_length _ _ Hr).
        destruct (IH rest' (done ++ [l]) T _ Hr (CAND_step _ _ _ _ _ HC ltac:(lia))) as (A' & E & HC').
        { rewrite zlen_snoc. lia. }
        exists A'. split; [exact E|]. rewrite <- app_assoc in HC'. exact HC'.
      * apply agrees_start. exact Hst.
      * apply sortedA_W. exact H1.
      * apply StronglySorted_inv in H1. destruct H1 as [_ H1]. constructor; [lia|].
        eapply Forall_impl; [|exact H1]. intros y Hy. cbv beta in Hy. lia.
      * eapply Forall_impl; [|exact H2]. intros y [Ha Hb]. split; [exact Ha|lia].
Qed.

Lemma CAND_answer ls T A : 1 <= T -> CAND ls [] T A -> is_answer ls T (filter (fun xc => T <=? snd xc) A).
Proof.
  intros HT (H1 & H2 & H3 & H4). split; [apply sortedA_filter; exact H1|].
  intros x c. rewrite filter_In. cbn [snd]. split.
  - intros [Hin Hc]. destruct (H3 x c Hin) as [-> Hp]. lia.
  - intros (-> & Hc & Ht). split; [apply H4; rewrite app_nil_r; exact Ht|lia].
Qed.

Lemma is_answer_perm ls ls' T cs : Permutation ls ls' -> is_answer ls' T cs -> is_answer ls T cs.
Proof.
  intros Hp [H1 H2]. split; [exact H1|]. intros x c. rewrite H2, (count_perm x ls ls' Hp). reflexivity.
Qed.


Lemma cpMerge_ok {St} (collect : St -> Z -> option err * St) srt rid ls T s :
  sorter_ok srt -> lists rid ls -> zlen ls <= 65535 -> 1 <= T <= zlen ls ->
  exists cs, is_answer ls T cs /\ cpMerge collect srt rid T s = wrapped (feed collect cs s).
Proof.
  intros Hsrt Hl Hn HT. unfold cpMerge. rewrite (lists_length _ _ Hl).
  destruct (lists_perm rid (srt rid) (Hsrt rid) ls Hl) as (ls' & Hp & Hl').
  assert (zlen ls = zlen ls') as Hlen by (unfold zlen; rewrite (Permutation_length Hp); reflexivity).
  set (k := zlen ls - T + 1).
  set (r := srt rid) in *. 
  rewrite <- (firstn_skipn (Z.to_nat k) r) in Hl'.
  destruct (lists_app_inv _ _ _ Hl') as (l1 & l2 & E & Hl1 & Hl2).
  assert (zlen r = zlen ls') as Hlr by (rewrite (firstn_skipn (Z.to_nat k) r) in Hl'; apply lists_length; exact Hl').
  assert (slice r 0 k = Ret (firstn (Z.to_nat k) r)) as ->.
  { unfold slice. replace ((0 <=? 0) && (0 <=? k) && (k <=? zlen r)) with true by (unfold k; lia).
    rewrite Z.sub_0_r. reflexivity. }
  assert (zlen l1 = k) as Hk.
  { rewrite <- (lists_length _ _ Hl1). unfold zlen in *. rewrite firstn_length. unfold k in *. lia. }
  assert (zlen l1 + zlen l2 = zlen ls') as Hadd by (rewrite E, zlen_app; lia).
  pose proof (zlen_nonneg l2).
  destruct (scan_lists_ok _ _ [] [] Hl1) as (A & EA & HC).
  { split; [constructor|]. split; [constructor|]. split; [constructor|]. reflexivity. }
  { rewrite zlen_nil. lia. }
  cbn [map app] in EA, HC. rewrite EA. cbn [bind].
  assert (CAND l1 l2 T A) as HCA.
  { destruct HC as (H1 & H2 & H3 & H4). split; [exact H1|]. split; [exact H3|]. split.
    - intros x c Hin. apply look_In in Hin; auto. rewrite H4 in Hin. exact Hin.
    - intros x Hx. apply look_In; auto. rewrite H4. split; [reflexivity|].
      rewrite count_app in Hx. pose proof (count_le x l2). unfold k in Hk. lia. }
  destruct (prune_lists_ok _ _ l1 T A Hl2 HCA ltac:(lia)) as (A' & EP & HC'). rewrite EP. cbn [wrap_err].
  rewrite (emit_ok collect (zlen (l1 ++ l2))); [|apply HC'|rewrite zlen_app; lia].
  exists (filter (fun xc => T <=? snd xc) A'). split.
  - eapply is_answer_perm; [exact Hp|]. rewrite E. apply CAND_answer; [lia|exact HC'].
  - unfold wrapped. destruct (feed collect (filter (fun xc => T <=? snd xc) A') s) as [r0 s0]. destruct r0; reflexivity.
Qed.

(** ** intersection *)
Lemma in_rest_ok : forall rest ls b x, Forall2 (agrees b) rest ls -> b <= x ->
  exists good rest', in_rest x rest = Ret (good, rest') /\ Forall2 (agrees x) rest' ls /\
    (good = true <-> Forall (fun l => In x l) ls).
Proof.
  induction rest as [|it rest IH]; intros ls b x Hag Hb; inversion Hag as [|? l ? ls' Hl Hr]; subst.
  - exists true, []. split; [reflexivity|]. split; [constructor|]. split; [constructor|reflexivity].
  - cbn [in_rest]. destruct (agrees_lb b it l x Hl Hb) as (r & it' & E & Hag' & Hcase). rewrite E.
    assert (Forall2 (agrees x) rest ls') as Hr'.
    { clear - Hr Hb. induction Hr; constructor; auto. eapply agrees_weaken; eauto. }
    assert (~ In x l -> exists good rest', Ret (false, it' :: rest) = Ret (good, rest') /\ Forall2 (agrees x) rest' (l :: ls') /\
      (good = true <-> Forall (fun l0 => In x l0) (l :: ls'))) as Hno.
    { intros Hin. exists false, (it' :: rest). split; [reflexivity|]. split; [constructor; auto|].
      split; [discriminate|]. intros Hf. apply Forall_inv in Hf. contradiction. }
    destruct Hcase as [[Hin ->]|[Hin [->|(v & -> & Hv)]]].
    + rewrite Z.eqb_refl. cbn [negb]. destruct (IH ls' b x Hr Hb) as (good & rest' & E' & H1 & H2). rewrite E'. cbn [bind].
      exists good, (it' :: rest'). split; [reflexivity|]. split; [constructor; auto|].
      rewrite H2. split; [intros; constructor; auto|apply Forall_inv_tail].
    + apply Hno, Hin.
    + replace (v =? x) with false by lia. cbn [negb]. apply Hno, Hin.
Qed.

Lemma intersect_loop_ok {St} (collect : St -> Z -> option err * St) n ls : forall fuel x r first nf rest s,
  behaves first nf (x :: r) -> StronglySorted Z.lt (x :: r) -> Forall2 (agrees x) rest ls -> (length r < fuel)%nat ->
  exists zs, StronglySorted Z.lt zs /\ (forall y, In y zs <-> In y (x :: r) /\ Forall (fun l => In y l) ls) /\
    intersect_loop collect fuel n x first rest s = feed collect (map (fun y => (y, n)) zs) s.
Proof.
  induction fuel as [|fuel IH]; intros x r first nf rest s Hb Hs Hag Hf; [lia|]. cbn [intersect_loop].
  destruct (in_rest_ok rest ls x x Hag ltac:(lia)) as (good & rest' & E & Hag' & Hgood). rewrite E.
  rewrite (behaves_hasNext _ _ _ Hb). apply StronglySorted_inv in Hs. destruct Hs as [Hs Hx].
  destruct r as [|y r].
  - rewrite zlen_cons, zlen_nil. cbn [Z.add Z.leb Z.compare negb Pos.compare Pos.compare_cont].
    destruct good.
    + exists [x]. split; [constructor; constructor|]. split.
      * intros y. cbn. rewrite <- Hgood || idtac. split; [intros [->|[]]; split; [tauto|apply Hgood; reflexivity]|tauto].
      * cbn [map feed]. destruct (collect s (NewMergeCandidate x n)) as [[e|] s']; [|reflexivity]. destruct e; reflexivity.
    + exists []. split; [constructor|]. split; [|reflexivity].
      intros y. cbn. split; [tauto|]. intros [[<-|[]] Hin]. apply Hgood in Hin. discriminate.
  - rewrite !zlen_cons. pose proof (zlen_nonneg r). replace (2 <=? 1 + (1 + zlen r)) with true by lia. cbn [negb].
    destruct (behaves_next _ _ _ _ _ Hb) as (first' & En & Hb'). rewrite En.
    assert (Forall2 (agrees y) rest' ls) as Hag2.
    { pose proof (Forall_inv Hx) as Hxy. clear - Hag' Hxy. induction Hag'; constructor; auto. eapply agrees_weaken; [|eassumption]. lia. }
    destruct good.
    + destruct (collect s (NewMergeCandidate x n)) as [[e|] s'] eqn:Ec.
      * (* stops here: any tail list will do *)
        destruct (IH y r first' nf rest' s' Hb' Hs Hag2 ltac:(cbn in Hf; lia)) as (zs & Hz1 & Hz2 & _).
        exists (x :: zs). split; [|split].
        -- constructor; [exact Hz1|]. apply Forall_forall. intros z Hz. apply Hz2 in Hz. rewrite Forall_forall in Hx. apply Hx, Hz.
        -- intros z. cbn [In]. rewrite Hz2. cbn [In]. split; [intros [<-|[Ha Hb2]]; [split; [tauto|apply Hgood; reflexivity]|tauto]|tauto].
        -- cbn [map feed]. rewrite Ec. destruct e; reflexivity.
      * destruct (IH y r first' nf rest' s' Hb' Hs Hag2 ltac:(cbn in Hf; lia)) as (zs & Hz1 & Hz2 & Hz3).
        exists (x :: zs). split; [|split].
        -- constructor; [exact Hz1|]. apply Forall_forall. intros z Hz. apply Hz2 in Hz. rewrite Forall_forall in Hx. apply Hx, Hz.
        -- intros z. cbn [In]. rewrite Hz2. cbn [In]. split; [intros [<-|[Ha Hb2]]; [split; [tauto|apply Hgood; reflexivity]|tauto]|tauto].
        -- cbn [map feed]. rewrite Ec. exact Hz3.
    + destruct (IH y r first' nf rest' s Hb' Hs Hag2 ltac:(cbn in Hf; lia)) as (zs & Hz1 & Hz2 & Hz3).
      exists zs. split; [exact Hz1|]. split; [|exact Hz3].
      intros z. rewrite Hz2. cbn [In]. split; [tauto|]. intros [[<-|Ha] Hb2]; [|tauto].
      apply Hgood in Hb2. discriminate.
Qed.

Lemma intersect_ok {St} (collect : St -> Z -> option err * St) srt rid ls s :
  sorter_ok srt -> lists rid ls -> nonempty ls -> 1 <= zlen ls < 2 ^ 32 ->
  exists cs, is_answer ls (zlen ls) cs /\ intersect collect srt rid s = feed collect cs s.
Proof.
  intros Hsrt Hl Hne Hn. unfold intersect. rewrite (lists_length _ _ Hl), wrap32_small by (unfold is_u32; lia).
  replace (zlen ls =? 0) with false by lia.
  destruct (lists_perm rid (srt rid) (Hsrt rid) ls Hl) as (ls' & Hp & Hl').
  assert (zlen ls = zlen ls') as Hlen by (unfold zlen; rewrite (Permutation_length Hp); reflexivity).
  destruct (srt rid) as [|it rest]; inversion Hl' as [|? l ? ls2 [[Hs Hu] Hb] Hr]; subst; [rewrite zlen_nil in *; lia|].
  assert (l <> []) as Hlne.
  { unfold nonempty in Hne. rewrite Forall_forall in Hne. apply Hne. apply (Permutation_in _ (Permutation_sym Hp)). left. reflexivity. }
  destruct l as [|x r]; [congruence|].
  rewrite (behaves_get _ _ _ Hb). cbn [first]. rewrite (behaves_len _ _ _ Hb).
  destruct (intersect_loop_ok collect (zlen ls) ls2 (S (Z.to_nat (zlen (x :: r)))) x r it (zlen (x :: r)) rest s) as (zs & Hz1 & Hz2 & Hz3); auto.
  - clear - Hr. induction Hr; constructor; auto. apply agrees_start. exact H.
  - unfold zlen. cbn [length]. lia.
  - rewrite Hz3. exists (map (fun y => (y, zlen ls)) zs). split; [|reflexivity].
    eapply is_answer_perm; [exact Hp|]. split.
    + clear - Hz1. induction Hz1 as [|z zs H IH Hz]; cbn [map]; constructor; auto. apply Forall_map. cbn [fst]. exact Hz.
    + intros y c. rewrite in_map_iff.
      assert (count y ((x :: r) :: ls2) = zlen ((x :: r) :: ls2) <-> In y zs) as Hc.
      { rewrite count_all, Hz2. split.
        - intros Hf. split; [apply Forall_inv in Hf; exact Hf|apply Forall_inv_tail in Hf; exact Hf].
        - intros [Ha Hb2]. constructor; assumption. }
      pose proof (count_le y ((x :: r) :: ls2)). split.
      * intros (z & E & Hz). injection E as -> <-. apply Hc in Hz. lia.
      * intros (-> & H1 & H2). exists y. split; [|apply Hc; lia]. f_equal. lia.
Qed.
