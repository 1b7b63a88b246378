(** MergeSkip. *)
From Coq Require Import ZifyBool.
From Verif Require Import Base BaseLemmas Postings PostingsSpec PostingsDrive PostingsProofs Heap HeapProofs
  Merger MergerSpec MergerProofs MergerProofs2.
Local Open Scope Z_scope.
Ltac Zify.zify_post_hook ::= Z.div_mod_to_equations.

Lemma rle_trans : forall a b c, le rless a b -> le rless b c -> le rless a c.
Proof. unfold le, rless. intros. lia. Qed.
Lemma rless_asym : forall a b, rless a b = true -> rless b a = false.
Proof. unfold rless. intros. lia. Qed.
Definition rheap : list record -> Prop := is_heap rless.

Lemma rheap_min h x y : rheap h -> nth_error h 0 = Some x -> In y h -> snd x <= snd y.
Proof.
  intros H Hx Hy. pose proof (heap_top_min' rless rle_trans rless_asym h x y H Hx Hy) as Hm.
  unfold le, rless in Hm. lia.
Qed.
Lemma rheap_nil : rheap [].
Proof. intros i c _ _ Hc. cbn in Hc. lia. Qed.

Lemma index_0 {A} (x : A) l : index (x :: l) 0 = Ret x.
Proof. unfold index. rewrite zlen_cons. pose proof (zlen_nonneg l). replace ((0 <=? 0) && (0 <? 1 + zlen l)) with true by lia. reflexivity. Qed.

(* pop of the heap part of a slice *)
Lemma pop_app x t dead : rheap (x :: t) ->
  exists h, heap_pop rless ((x :: t) ++ dead) (length (x :: t)) = h ++ x :: dead /\ rheap h /\ Permutation h t.
Proof.
  intros H. destruct (heap_pop_heap rless rle_trans rless_asym (x :: t) x t H eq_refl) as (h & E & Hh & Hp).
  exists h. split; [|auto]. unfold heap_pop in *. 
  rewrite swap_app_l by (cbn [length]; lia).
  destruct t as [|y t].
  { cbn in *. destruct h; [|apply Permutation_length in Hp; discriminate]. reflexivity. }
  rewrite down_app by (rewrite ?swap_length; cbn [length]; lia). cbn [fst].
  rewrite E, <- app_assoc. reflexivity.
Qed.
Lemma push_app h r dead : rheap h ->
  exists h', heap_push rless (h ++ r :: dead) (S (length h)) = h' ++ dead /\ rheap h' /\ Permutation h' (r :: h).
Proof.
  intros H. destruct (heap_push_heap rless rle_trans rless_asym h r H) as [H1 H2].
  assert (length (h ++ [r]) = S (length h)) as El by (rewrite app_length; cbn; lia).
  rewrite El in *. exists (heap_push rless (h ++ [r]) (S (length h))). split; [|split; [exact H1|]].
  - unfold heap_push. replace (h ++ r :: dead) with ((h ++ [r]) ++ dead) by (rewrite <- app_assoc; reflexivity).
    apply up_app. rewrite El. lia.
  - rewrite H2. rewrite <- Permutation_cons_append. reflexivity.
Qed.

(** popping *)
Lemma pop_le_ok p : forall fuel h dead k, rheap h -> (length h < fuel)%nat ->
  exists h' P, pop_le fuel p (h ++ dead) (length h) k = Ret (h' ++ P ++ dead, length h', (k + length P)%nat) /\
    rheap h' /\ Permutation h (h' ++ P) /\ Forall (fun r => snd r <= p) P /\ Forall (fun r => p < snd r) h'.
Proof.
  induction fuel as [|fuel IH]; intros h dead k Hh Hf; [lia|]. cbn [pop_le].
  destruct h as [|x t].
  { exists [], []. cbn. rewrite Nat.add_0_r. split; [reflexivity|]. split; [apply rheap_nil|]. repeat constructor. }
  replace (0 <? Z.of_nat (length (x :: t))) with true by (cbn [length]; lia).
  assert (index ((x :: t) ++ dead) 0 = Ret x) as Ei0 by apply index_0. rewrite Ei0. cbn [bind].
  destruct (p >=? snd x) eqn:E.
  - destruct (pop_app x t dead Hh) as (h1 & E1 & Hh1 & Hp1). rewrite E1.
    assert (length (x :: t) - 1 = length h1)%nat as -> by (rewrite (Permutation_length Hp1); cbn; lia).
    destruct (IH h1 (x :: dead) (S k) Hh1) as (h' & P & E2 & H1 & H2 & H3 & H4).
    { rewrite (Permutation_length Hp1). cbn in Hf. lia. }
    rewrite E2. exists h', (P ++ [x]). split; [|split; [exact H1|split; [|split; [|exact H4]]]].
    + rewrite <- app_assoc, app_length. cbn [app length]. do 2 f_equal. lia.
    + rewrite app_assoc. rewrite <- Permutation_cons_append. constructor. rewrite <- Hp1. exact H2.
    + apply Forall_app. split; [exact H3|]. constructor; [lia|constructor].
  - exists (x :: t), []. rewrite Nat.add_0_r, app_nil_r. split; [reflexivity|]. split; [exact Hh|]. split; [reflexivity|].
    split; [constructor|]. apply Forall_forall. intros y Hy.
    pose proof (rheap_min (x :: t) x y Hh eq_refl Hy). lia.
Qed.
Lemma pop_n_ok : forall j h dead k, rheap h ->
  exists h' P, pop_n j (h ++ dead) (length h) k = (h' ++ P ++ dead, length h', (k + length P)%nat) /\
    rheap h' /\ Permutation h (h' ++ P) /\ (length P <= j)%nat.
Proof.
  induction j as [|j IH]; intros h dead k Hh; cbn [pop_n].
  { exists h, []. rewrite app_nil_r, Nat.add_0_r. auto. }
  destruct h as [|x t].
  { exists [], []. cbn. rewrite Nat.add_0_r. repeat split; auto; lia. }
  replace (0 <? Z.of_nat (length (x :: t))) with true by (cbn [length]; lia).
  destruct (pop_app x t dead Hh) as (h1 & E1 & Hh1 & Hp1). rewrite E1.
  assert (length (x :: t) - 1 = length h1)%nat as -> by (rewrite (Permutation_length Hp1); cbn; lia).
  destruct (IH h1 (x :: dead) (S k) Hh1) as (h' & P & E2 & H1 & H2 & H3).
  rewrite E2. exists h', (P ++ [x]). rewrite <- app_assoc, app_length. cbn [app length].
  split; [f_equal; lia|]. split; [exact H1|]. split; [|lia].
  rewrite app_assoc. rewrite <- Permutation_cons_append. constructor. rewrite <- Hp1. exact H2.
Qed.

(** the future of each list; records are the heads *)
Fixpoint heads (i : Z) (fs : list (list Z)) : list record :=
  match fs with
  | [] => []
  | [] :: fs' => heads (i + 1) fs'
  | (x :: _) :: fs' => (i, x) :: heads (i + 1) fs'
  end.
Definition hd_rec (id : Z) (f : list Z) : list record := match f with [] => [] | y :: _ => [(id, y)] end.

Lemma heads_cons i f fs : heads i (f :: fs) = hd_rec i f ++ heads (i + 1) fs.
Proof. destruct f; reflexivity. Qed.
Lemma heads_In fs : forall i id p, In (id, p) (heads i fs) ->
  exists k t, id = i + Z.of_nat k /\ nth_error fs k = Some (p :: t).
Proof.
  induction fs as [|f fs IH]; intros i id p H; [destruct H|]. rewrite heads_cons in H. apply in_app_or in H.
  destruct H as [H|H].
  - destruct f as [|x t]; [destruct H|]. destruct H as [E|[]]. injection E as <- <-. exists O, t. split; [lia|reflexivity].
  - destruct (IH _ _ _ H) as (k & t & -> & E). exists (S k), t. split; [lia|exact E].
Qed.
Lemma heads_split fs : forall i k p t, nth_error fs k = Some (p :: t) ->
  exists A B, heads i fs = A ++ (i + Z.of_nat k, p) :: B /\
    forall f', heads i (upd k f' fs) = A ++ hd_rec (i + Z.of_nat k) f' ++ B.
Proof.
  induction fs as [|f fs IH]; intros i k p t H; [destruct k; discriminate|].
  destruct k as [|k]; cbn [nth_error] in H.
  - injection H as ->. exists [], (heads (i + 1) fs). rewrite Z.add_0_r. split; [reflexivity|].
    intros f'. cbn [upd]. rewrite heads_cons. reflexivity.
  - destruct (IH (i + 1) k p t H) as (A & B & E1 & E2).
    replace (i + 1 + Z.of_nat k) with (i + Z.of_nat (S k)) in * by lia.
    exists (hd_rec i f ++ A), B. split.
    + rewrite heads_cons, E1, <- app_assoc. reflexivity.
    + intros f'. cbn [upd]. rewrite heads_cons, E2, <- !app_assoc. reflexivity.
Qed.

Definition RI (it : iter) (f : list Z) : Prop :=
  StronglySorted Z.lt f /\ Forall is_u32 f /\ (f = [] \/ exists n, 0 < n /\ behaves it n f).

Lemma Forall2_upd {A B} (R : A -> B -> Prop) k x y : forall l m, Forall2 R l m -> R x y -> Forall2 R (upd k x l) (upd k y m).
Proof.
  induction k as [|k IH]; intros l m H Hxy; inversion H; subst; cbn [upd]; constructor; auto.
Qed.
Lemma Forall2_nth {A B} (R : A -> B -> Prop) k y : forall l m, Forall2 R l m -> nth_error m k = Some y ->
  exists x, nth_error l k = Some x /\ R x y.
Proof.
  induction k as [|k IH]; intros l m H E; inversion H; subst; cbn [nth_error] in *; try discriminate.
  - injection E as ->. eauto.
  - eapply IH; eauto.
Qed.
Lemma index_nth_error {A} (l : list A) k x : nth_error l k = Some x -> index l (Z.of_nat k) = Ret x.
Proof.
  intros H. assert (k < length l)%nat as Hk by (apply nth_error_Some; congruence).
  unfold index, zlen. replace ((0 <=? Z.of_nat k) && (Z.of_nat k <? Z.of_nat (length l))) with true by lia.
  rewrite Nat2Z.id, H. reflexivity.
Qed.
Lemma drop_lt_idem q l : drop_lt q (drop_lt q l) = drop_lt q l.
Proof.
  induction l as [|x l IH]; [reflexivity|]. cbn [drop_lt]. destruct (x <? q) eqn:E; [exact IH|]. cbn [drop_lt]. rewrite E. reflexivity.
Qed.
Lemma map_upd {A B} (g : A -> B) k x y : forall l, nth_error l k = Some y -> g x = g y -> map g (upd k x l) = map g l.
Proof.
  induction k as [|k IH]; intros l H E; destruct l as [|z l]; try discriminate; cbn [upd map nth_error] in *.
  - injection H as ->. rewrite E. reflexivity.
  - f_equal. apply IH; auto.
Qed.

(* q and the mode of reinsert *)
Definition mode_ok (m q : Z) (topPos : option Z) : Prop :=
  match topPos with None => q = m + 1 | Some p => q = p end.

Lemma drop_lt_u32 q l : Forall is_u32 l -> Forall is_u32 (drop_lt q l).
Proof. intros H. destruct (drop_lt_suffix q l) as (p & E & _). rewrite E in H. apply Forall_app in H. apply H. Qed.

(* re-inserting the popped records P, all whose values are < q; [junk] are used slots *)
Lemma reinsert_ok m q topPos : mode_ok m q topPos ->
  forall P h junk dead rid fs i start, rheap h ->
  Permutation (h ++ P) (heads 0 fs) -> Forall2 RI rid fs ->
  (topPos = None -> Forall (fun r => snd r = m) P) ->
  Forall (fun r => q <= snd r) h ->
  (start + i = length h + length junk)%nat ->
  exists rid' h' dead' fs', reinsert (length P) start i topPos rid (h ++ junk ++ P ++ dead) (length h)
     = Ret (rid', h' ++ dead', length h') /\
    rheap h' /\ Permutation h' (heads 0 fs') /\ Forall2 RI rid' fs' /\ Forall (fun r => q <= snd r) h' /\
    map (drop_lt q) fs' = map (drop_lt q) fs.
Proof.
  intros Hmode. induction P as [|[id p] P IH]; intros h junk dead rid fs i start Hh Hperm HR Hm Hhq Hst.
  { cbn [length reinsert]. exists rid, h, (junk ++ dead), fs. rewrite app_nil_r in Hperm. cbn [app]. auto 10. }
  cbn [length reinsert].
  cbn [app] in *.
  match goal with |- context [index ?l (Z.of_nat (start + i))] => assert (index l (Z.of_nat (start + i)) = Ret (id, p)) as Ei end.
  { rewrite Hst. replace (Z.of_nat (length h + length junk)) with (zlen (h ++ junk)) by (unfold zlen; rewrite app_length; reflexivity).
    rewrite app_assoc. apply index_app_0. }
  rewrite Ei. cbn [bind fst].
  assert (In (id, p) (heads 0 fs)) as Hin.
  { eapply Permutation_in; [exact Hperm|]. apply in_or_app. right. left. reflexivity. }
  destruct (heads_In _ _ _ _ Hin) as (k & t & Eid & Ek). rewrite Z.add_0_l in Eid.
  destruct (Forall2_nth RI k _ _ _ HR Ek) as (it & Eit & Hsrt & Hu & [Habs|(n & Hn & Hb)]); [discriminate|].
  rewrite Eid, (index_nth_error _ _ _ Eit), Nat2Z.id. cbn [bind].
  destruct (heads_split fs 0 k p t Ek) as (A & B & E1 & E2). rewrite Z.add_0_l in *.
  assert (topPos = None -> Forall (fun r => snd r = m) P) as Hm' by (intros E; specialize (Hm E); apply Forall_inv_tail in Hm; exact Hm).
  assert (Permutation (h ++ P) (A ++ B)) as HpAB.
  { rewrite E1, Eid in Hperm. apply Permutation_app_inv in Hperm. exact Hperm. }
  (* the new future of this list *)
  set (f' := drop_lt q (p :: t)).
  assert (StronglySorted Z.lt f') as Hsf by (apply drop_lt_sorted; exact Hsrt).
  assert (Forall is_u32 f') as Huf by (apply drop_lt_u32; exact Hu).
  assert (map (drop_lt q) (upd k f' fs) = map (drop_lt q) fs) as Hmap by (eapply map_upd; [exact Ek|apply drop_lt_idem]).
  (* the two outcomes *)
  assert (forall r it', f' = r :: tl f' -> behaves it' n f' ->
    exists rid' h' dead' fs', reinsert (length P) start (S i) topPos (upd k it' rid)
       (heap_push rless (upd (length h) (Z.of_nat k, r) (h ++ junk ++ (id, p) :: P ++ dead)) (S (length h))) (S (length h))
      = Ret (rid', h' ++ dead', length h') /\
      rheap h' /\ Permutation h' (heads 0 fs') /\ Forall2 RI rid' fs' /\ Forall (fun r => q <= snd r) h' /\
      map (drop_lt q) fs' = map (drop_lt q) fs) as Hpush.
  { intros r it' Ef Hb'.
    assert (q <= r) as Hqr.
    { assert (In r f') as Hr by (rewrite Ef; left; reflexivity). unfold f' in Hr. apply drop_lt_In in Hr; [lia|exact Hsrt]. }
    assert (exists junk', upd (length h) (Z.of_nat k, r) (h ++ junk ++ (id, p) :: P ++ dead)
              = h ++ (Z.of_nat k, r) :: junk' ++ P ++ dead /\ length junk' = length junk) as (junk' & Eu & Hj).
    { assert (forall l x, upd (length h) (Z.of_nat k, r) (h ++ x :: l) = h ++ (Z.of_nat k, r) :: l) as Hu1.
      { clear. induction h as [|a h IHh]; intros l x; [reflexivity|]. cbn [length app upd]. rewrite IHh. reflexivity. }
      destruct junk as [|j junk]; cbn [app].
      - exists []. rewrite Hu1. split; reflexivity.
      - exists (junk ++ [(id, p)]). rewrite Hu1. rewrite <- app_assoc. cbn [app length]. split; [reflexivity|].
        rewrite app_length. cbn. lia. }
    rewrite Eu. destruct (push_app h (Z.of_nat k, r) (junk' ++ P ++ dead) Hh) as (h1 & Eh & Hh1 & Hp1).
    rewrite Eh. assert (S (length h) = length h1) as El by (rewrite (Permutation_length Hp1); reflexivity). rewrite El.
    destruct (IH h1 junk' dead (upd k it' rid) (upd k f' fs) (S i) start Hh1) as (rid' & h' & dead' & fs' & Er & R1 & R2 & R3 & R4 & R5); auto.
    - rewrite E2. rewrite Ef. cbn [hd_rec]. rewrite Hp1. cbn [app].
      rewrite <- Permutation_middle. constructor. exact HpAB.
    - apply Forall2_upd; [exact HR|]. split; [exact Hsf|]. split; [exact Huf|]. right. exists n. auto.
    - rewrite Hp1. constructor; [exact Hqr|exact Hhq].
    - lia.
    - exists rid', h', dead', fs'. rewrite Er. split; [reflexivity|]. rewrite R5, Hmap. auto 10. }
  assert (forall it', f' = [] ->
    exists rid' h' dead' fs', reinsert (length P) start (S i) topPos (upd k it' rid) (h ++ junk ++ (id, p) :: P ++ dead) (length h)
      = Ret (rid', h' ++ dead', length h') /\
      rheap h' /\ Permutation h' (heads 0 fs') /\ Forall2 RI rid' fs' /\ Forall (fun r => q <= snd r) h' /\
      map (drop_lt q) fs' = map (drop_lt q) fs) as Hskip.
  { intros it' Ef.
    destruct (IH h (junk ++ [(id, p)]) dead (upd k it' rid) (upd k f' fs) (S i) start Hh) as (rid' & h' & dead' & fs' & Er & R1 & R2 & R3 & R4 & R5); auto.
    - rewrite E2, Ef. cbn [hd_rec app]. exact HpAB.
    - apply Forall2_upd; [exact HR|]. split; [exact Hsf|]. split; [exact Huf|]. left. exact Ef.
    - rewrite app_length. cbn [length]. lia.
    - rewrite <- app_assoc in Er. cbn [app] in Er. exists rid', h', dead', fs'. rewrite Er. split; [reflexivity|]. rewrite R5, Hmap. auto 10. }
  rewrite Eid in Hpush, Hskip.
  destruct topPos as [tp|]; cbn [mode_ok] in Hmode.
  - subst tp. rewrite (behaves_len _ _ _ Hb). replace (n =? 0) with false by lia.
    destruct (behaves_lb it n (p :: t) q Hb) as (it' & Elb & Hb'). rewrite Elb. fold f' in Hb' |- *.
    destruct f' as [|r f''] eqn:Ef; cbn [first].
    + apply Hskip. reflexivity.
    + apply Hpush; [reflexivity|exact Hb'].
  - specialize (Hm eq_refl). apply Forall_inv in Hm. cbn in Hm. subst p.
    rewrite (behaves_hasNext _ _ _ Hb), zlen_cons.
    assert (f' = t) as Eft.
    { unfold f'. cbn [drop_lt]. replace (m <? q) with true by lia. apply StronglySorted_inv in Hsrt. destruct Hsrt as [_ Hmt]. destruct t as [|y t]; [reflexivity|].
      apply Forall_inv in Hmt. cbn [drop_lt]. replace (y <? q) with false by lia. reflexivity. }
    destruct t as [|y t].
    + rewrite zlen_nil. cbn [Z.add Z.leb Z.compare Pos.compare Pos.compare_cont]. apply Hskip. exact Eft.
    + rewrite zlen_cons. pose proof (zlen_nonneg t). replace (2 <=? 1 + (1 + zlen t)) with true by lia.
      destruct (behaves_next _ _ _ _ _ Hb) as (it' & En & Hb'). rewrite En.
      apply Hpush; rewrite Eft; [reflexivity|exact Hb'].
Qed.

(** counting heads *)
Definition total (fs : list (list Z)) : nat := length (concat fs).
Lemma heads_ge q fs : Forall (StronglySorted Z.lt) fs -> forall i, Forall (fun r => q <= snd r) (heads i fs) -> map (drop_lt q) fs = fs.
Proof.
  induction 1 as [|f fs Hf Hfs IH]; intros i H; [reflexivity|]. rewrite heads_cons in H. apply Forall_app in H. destruct H as [H1 H2].
  cbn [map]. rewrite (IH _ H2). f_equal. destruct f as [|x t]; [reflexivity|]. apply Forall_inv in H1. cbn in H1.
  cbn [drop_lt]. replace (x <? q) with false by lia. reflexivity.
Qed.
Lemma count_drop q fs x : Forall (StronglySorted Z.lt) fs -> q <= x -> count x (map (drop_lt q) fs) = count x fs.
Proof.
  induction 1 as [|f fs Hf Hfs IH]; intros Hx; [reflexivity|]. cbn [map]. rewrite !count_cons, IH by exact Hx. f_equal.
  assert (In x (drop_lt q f) <-> In x f) as E by (rewrite drop_lt_In by exact Hf; tauto).
  f_equal. destruct (mem x f) eqn:Em.
  - apply mem_In, E, mem_In, Em.
  - apply mem_false. rewrite E. apply mem_false. exact Em.
Qed.
Lemma count_drop_lt q fs x : Forall (StronglySorted Z.lt) fs -> x < q -> count x (map (drop_lt q) fs) = 0.
Proof.
  induction 1 as [|f fs Hf Hfs IH]; intros Hx; [reflexivity|]. cbn [map]. rewrite count_cons, IH by exact Hx.
  assert (mem x (drop_lt q f) = false) as ->; [|reflexivity].
  apply mem_false. rewrite drop_lt_In by exact Hf. lia.
Qed.
(* x occurs at most as often as there are heads <= x *)
Lemma count_heads fs x : Forall (StronglySorted Z.lt) fs -> forall i,
  count x fs <= zlen (filter (fun r => snd r <=? x) (heads i fs)).
Proof.
  induction 1 as [|f fs Hf Hfs IH]; intros i; [unfold count, zlen; cbn; lia|]. rewrite count_cons, heads_cons, filter_app, zlen_app.
  specialize (IH (i + 1)). destruct f as [|y t].
  - cbn. cbn in IH. lia.
  - cbn [hd_rec filter snd]. destruct (y <=? x) eqn:E.
    + rewrite zlen_cons. change (zlen (@nil (Z * Z))) with 0. destruct (mem x (y :: t)); cbn [b2z]; lia.
    + assert (mem x (y :: t) = false) as ->.
      { apply mem_false. intros [->|Hin]; [lia|]. apply StronglySorted_inv in Hf. destruct Hf as [_ Hf].
        rewrite Forall_forall in Hf. specialize (Hf x Hin). lia. }
      cbn [b2z]. unfold zlen in *; cbn [length] in *; lia.
Qed.
(* the minimum occurs exactly as often as there are heads equal to it *)
Lemma count_min fs m : Forall (StronglySorted Z.lt) fs -> forall i, Forall (fun r => m <= snd r) (heads i fs) ->
  count m fs = zlen (filter (fun r => snd r <=? m) (heads i fs)).
Proof.
  induction 1 as [|f fs Hf Hfs IH]; intros i H; [reflexivity|]. rewrite count_cons, heads_cons, filter_app, zlen_app.
  rewrite heads_cons in H. apply Forall_app in H. destruct H as [H1 H2]. rewrite (IH (i + 1) H2). f_equal.
  destruct f as [|y t]; [reflexivity|]. cbn [hd_rec filter snd]. apply Forall_inv in H1. cbn in H1.
  destruct (y <=? m) eqn:E.
  - assert (y = m) as -> by lia. rewrite mem_cons, Z.eqb_refl. reflexivity.
  - assert (mem m (y :: t) = false) as ->; [|reflexivity].
    apply mem_false. intros [->|Hin]; [lia|]. apply StronglySorted_inv in Hf. destruct Hf as [_ Hf].
    rewrite Forall_forall in Hf. specialize (Hf m Hin). lia.
Qed.
Lemma filter_perm {A} (f : A -> bool) a b : Permutation a b -> Permutation (filter f a) (filter f b).
Proof.
  induction 1; cbn [filter]; [constructor| | |etransitivity; eauto].
  - destruct (f x); [constructor|]; assumption.
  - destruct (f x), (f y); try reflexivity. apply perm_swap.
Qed.
Lemma filter_all {A} (f : A -> bool) l : Forall (fun x => f x = true) l -> filter f l = l.
Proof. induction 1 as [|x l H Hl IH]; [reflexivity|]. cbn. rewrite H, IH. reflexivity. Qed.
Lemma filter_none {A} (f : A -> bool) l : Forall (fun x => f x = false) l -> filter f l = [].
Proof. induction 1 as [|x l H Hl IH]; [reflexivity|]. cbn. rewrite H. exact IH. Qed.
Lemma zlen_perm {A} (a b : list A) : Permutation a b -> zlen a = zlen b.
Proof. intros H. unfold zlen. rewrite (Permutation_length H). reflexivity. Qed.
Lemma zlen_filter {A} (f : A -> bool) l : zlen (filter f l) <= zlen l.
Proof. induction l as [|x l IH]; [reflexivity|]. cbn [filter]. destruct (f x); rewrite ?zlen_cons; lia. Qed.

Lemma total_drop_le q fs : (total (map (drop_lt q) fs) <= total fs)%nat.
Proof.
  unfold total. induction fs as [|f fs IH]; [reflexivity|]. cbn [map concat]. rewrite !app_length.
  destruct (drop_lt_suffix q f) as (p & E & _). apply (f_equal (@length Z)) in E. rewrite app_length in E. lia.
Qed.
Lemma total_drop_lt q fs : forall i id p, In (id, p) (heads i fs) -> p < q -> (total (map (drop_lt q) fs) < total fs)%nat.
Proof.
  induction fs as [|f fs IH]; intros i id p Hin Hp; [destruct Hin|]. rewrite heads_cons in Hin. apply in_app_or in Hin.
  pose proof (total_drop_le q fs) as Hle. unfold total in *. cbn [map concat]. rewrite !app_length.
  destruct (drop_lt_suffix q f) as (pp & E & _). 
  destruct Hin as [Hin|Hin].
  - destruct f as [|x t]; [destruct Hin|]. destruct Hin as [E0|[]]. injection E0 as -> ->.
    cbn [drop_lt] in *. replace (p <? q) with true in * by lia.
    destruct (drop_lt_suffix q t) as (pt & Et & _). apply (f_equal (@length Z)) in Et. rewrite app_length in Et. cbn [length]. lia.
  - specialize (IH _ _ _ Hin Hp). apply (f_equal (@length Z)) in E. rewrite app_length in E. lia.
Qed.
Lemma RI_sorted rid fs : Forall2 RI rid fs -> Forall (StronglySorted Z.lt) fs.
Proof. induction 1 as [|it f rid fs [H _] HF IH]; constructor; auto. Qed.
Lemma RI_u32 rid fs : Forall2 RI rid fs -> forall i r, In r (heads i fs) -> is_u32 (snd r).
Proof.
  intros HF i [id p] Hin. destruct (heads_In _ _ _ _ Hin) as (k & t & _ & Ek).
  destruct (Forall2_nth RI k _ _ _ HF Ek) as (it & _ & _ & Hu & _). apply Forall_inv in Hu. exact Hu.
Qed.
Lemma heads_len fs : forall i, zlen (heads i fs) <= zlen fs.
Proof.
  induction fs as [|f fs IH]; intros i; [reflexivity|]. rewrite heads_cons, zlen_app, zlen_cons. specialize (IH (i + 1)).
  destruct f; cbn [hd_rec]; unfold zlen in *; cbn [length]; lia.
Qed.

Section MS.
Context {St : Type} (collect : St -> Z -> option err * St).
Lemma ms_loop_ok T : forall fuel rid fs h dead s,
  rheap h -> Permutation h (heads 0 fs) -> Forall2 RI rid fs -> zlen fs < 2 ^ 32 ->
  (total fs < fuel)%nat ->
  exists cs, is_answer fs T cs /\ ms_loop collect fuel T rid (h ++ dead) (length h) s = feed collect cs s.
Proof.
  induction fuel as [|fuel IH]; intros rid fs h dead s Hh Hp HR Hn Hf; [lia|]. cbn [ms_loop].
  pose proof (RI_sorted _ _ HR) as Hsrt.
  destruct h as [|t0 h0].
  { cbn. exists []. split; [|reflexivity]. split; [constructor|]. intros x c. split; [intros []|]. intros (-> & H1 & _).
    exfalso. pose proof (count_heads fs x Hsrt 0) as H2. apply Permutation_nil in Hp. rewrite Hp in H2. cbn in H2. lia. }
  replace (0 <? Z.of_nat (length (t0 :: h0))) with true by (cbn [length]; lia).
  assert (index ((t0 :: h0) ++ dead) 0 = Ret t0) as Ei0 by apply index_0. rewrite Ei0.
  set (m := snd t0).
  assert (In t0 (heads 0 fs)) as Ht0 by (eapply Permutation_in; [exact Hp|left; reflexivity]).
  assert (is_u32 m) as Hum by (apply (RI_u32 _ _ HR 0 t0 Ht0)).
  assert (Forall (fun r => m <= snd r) (t0 :: h0)) as Hmin.
  { apply Forall_forall. intros y Hy. exact (rheap_min _ t0 y Hh eq_refl Hy). }
  assert (Forall (fun r => m <= snd r) (heads 0 fs)) as Hmin' by (rewrite <- Hp; exact Hmin).
  destruct (pop_le_ok m (S (length (t0 :: h0))) (t0 :: h0) dead 0 Hh ltac:(lia)) as (h1 & P & E1 & Hh1 & Hp1 & HP & Hh1m).
  rewrite E1. cbn [Nat.add].
  assert (Forall (fun r => snd r = m) P) as HPm.
  { assert (Forall (fun r => m <= snd r) (h1 ++ P)) as Hm2 by (rewrite <- Hp1; exact Hmin).
    apply Forall_app in Hm2. destruct Hm2 as [_ Hm2]. clear - HP Hm2. induction P; constructor.
    - apply Forall_inv in HP. apply Forall_inv in Hm2. lia.
    - apply IHP; [apply Forall_inv_tail in HP|apply Forall_inv_tail in Hm2]; assumption. }
  assert (Permutation (h1 ++ P) (heads 0 fs)) as Hperm by (rewrite <- Hp1; exact Hp).
  assert (zlen P = count m fs) as HPc.
  { rewrite (count_min fs m Hsrt 0 Hmin'). rewrite <- (zlen_perm _ _ (filter_perm _ _ _ Hperm)). rewrite filter_app.
    rewrite (filter_none _ h1), (filter_all _ P); [reflexivity| |].
    - eapply Forall_impl; [|exact HPm]. intros r Hr. cbv beta in *. lia.
    - eapply Forall_impl; [|exact Hh1m]. intros r Hr. cbv beta in *. lia. }
  pose proof (count_le m fs) as Hcle.
  assert (P <> []) as HPne.
  { intros ->. rewrite app_nil_r in Hp1. assert (In t0 h1) as Hin by (eapply Permutation_in; [exact Hp1|left; reflexivity]).
    rewrite Forall_forall in Hh1m. specialize (Hh1m _ Hin). unfold m in Hh1m. lia. }
  assert (1 <= zlen P) as HP1 by (destruct P; [congruence|]; rewrite zlen_cons; pose proof (zlen_nonneg P); lia).
  destruct (Z.of_nat (length P) >=? T) eqn:HT.
  - (* an answer *)
    fold (zlen P) in HT |- *.
    rewrite wrap32_small by (unfold is_u32; lia). rewrite HPc.
    destruct (reinsert_ok m (m + 1) None eq_refl P h1 [] dead rid fs 0 (length h1) Hh1 Hperm HR) as (rid' & h' & dead' & fs' & Er & R1 & R2 & R3 & R4 & R5).
    { intros _. exact HPm. }
    { eapply Forall_impl; [|exact Hh1m]. intros r Hr. cbv beta in *. lia. }
    { cbn [length]. lia. }
    cbn [app] in Er. rewrite Er. clear Er E1.
    assert (fs' = map (drop_lt (m + 1)) fs) as Efs.
    { rewrite <- R5. symmetry. eapply heads_ge; [eapply RI_sorted; exact R3|]. rewrite <- R2. exact R4. }
    assert ((total fs' < total fs)%nat) as Htot.
    { rewrite Efs. destruct t0 as [id p]. apply (total_drop_lt _ _ 0 id p Ht0). unfold m. cbn. lia. }
    assert (zlen fs' = zlen fs) as Hlfs by (rewrite Efs; unfold zlen; rewrite map_length; reflexivity).
    assert (forall s', exists cs, is_answer fs' T cs /\ ms_loop collect fuel T rid' (h' ++ dead') (length h') s' = feed collect cs s') as IH'.
    { intros s'. apply (IH rid' fs'); auto; lia. }
    assert (forall cs', is_answer fs' T cs' -> is_answer fs T ((m, count m fs) :: cs')) as Hans.
    { intros cs' [Hc1 Hc2]. split.
      - constructor; [exact Hc1|]. apply Forall_forall. intros [y d] Hy. cbn [fst]. apply Hc2 in Hy. destruct Hy as (-> & Hy & _).
        destruct (Z.lt_ge_cases m y); [lia|]. exfalso. rewrite Efs, count_drop_lt in Hy by (auto; lia). lia.
      - intros x c. cbn [In]. rewrite Hc2. split.
        + intros [E|(-> & H1 & H2)].
          * injection E as <- <-. lia.
          * destruct (Z.lt_ge_cases m x) as [Hx|Hx].
            -- rewrite Efs, count_drop in * by (auto; lia). auto.
            -- exfalso. rewrite Efs, count_drop_lt in H1 by (auto; lia). lia.
        + intros (-> & H1 & H2). destruct (Z.eq_dec x m) as [->|Hne]; [left; reflexivity|]. right.
          destruct (Z.lt_ge_cases m x) as [Hx|Hx].
          * rewrite Efs, count_drop by (auto; lia). auto.
          * exfalso. pose proof (count_heads fs x Hsrt 0) as H3. rewrite filter_none in H3; [cbn in H3; lia|].
            eapply Forall_impl; [|exact Hmin']. intros r Hr. cbv beta in *. lia. }
    destruct (collect s (NewMergeCandidate m (count m fs))) as [[e|] s'] eqn:Ec.
    + destruct (IH' s') as (cs' & Hc' & _). exists ((m, count m fs) :: cs'). split; [apply Hans; exact Hc'|].
      cbn [feed]. rewrite Ec. destruct e; reflexivity.
    + destruct (IH' s') as (cs' & Hc' & E'). exists ((m, count m fs) :: cs'). split; [apply Hans; exact Hc'|].
      cbn [feed]. rewrite Ec. exact E'.
  - (* skip *)
    destruct (pop_n_ok (Z.to_nat (T - 1 - Z.of_nat (length P))) h1 (P ++ dead) (length P) Hh1) as (h2 & P2 & E2 & Hh2 & Hp2 & HP2).
    rewrite E2. clear E2 E1.
    assert (Permutation (h2 ++ (P2 ++ P)) (heads 0 fs)) as Hperm2.
    { rewrite <- Hperm, Hp2. rewrite <- app_assoc. reflexivity. }
    assert (zlen (P2 ++ P) <= T - 1) as HlenP by (rewrite zlen_app; unfold zlen; lia).
    destruct h2 as [|top h2'].
    + cbn [length Z.of_nat Z.eqb]. exists []. split; [|reflexivity]. split; [constructor|]. intros x c. split; [intros []|].
      intros (-> & _ & H2). exfalso. pose proof (count_heads fs x Hsrt 0) as H3.
      pose proof (zlen_filter (fun r => snd r <=? x) (heads 0 fs)) as H4. rewrite <- (zlen_perm _ _ Hperm2) in H4. cbn [app] in H4. lia.
    + replace (Z.of_nat (length (top :: h2')) =? 0) with false by (cbn [length]; lia).
      assert (index ((top :: h2') ++ P2 ++ P ++ dead) 0 = Ret top) as Ei2 by apply index_0. rewrite Ei2.
      assert (Forall (fun r => snd top <= snd r) (top :: h2')) as Hmin2.
      { apply Forall_forall. intros y Hy. exact (rheap_min _ top y Hh2 eq_refl Hy). }
      assert (m < snd top) as Hmt.
      { assert (Forall (fun r => m < snd r) ((top :: h2') ++ P2)) as Hq by (rewrite <- Hp2; exact Hh1m). apply Forall_inv in Hq. exact Hq. }
      set (q := snd top) in *.
      destruct (reinsert_ok m q (Some q) eq_refl (P2 ++ P) (top :: h2') [] dead rid fs 0 (length (top :: h2')) Hh2 Hperm2 HR)
        as (rid' & h' & dead' & fs' & Er & R1 & R2 & R3 & R4 & R5); [discriminate|exact Hmin2|cbn [length]; lia|].
      cbn [app] in Er. rewrite <- app_assoc, app_length, Nat.add_comm in Er. cbn [app] in *. rewrite Er. clear Er.
      assert (fs' = map (drop_lt q) fs) as Efs.
      { rewrite <- R5. symmetry. eapply heads_ge; [eapply RI_sorted; exact R3|]. rewrite <- R2. exact R4. }
      assert ((total fs' < total fs)%nat) as Htot.
      { rewrite Efs. destruct t0 as [id p]. apply (total_drop_lt _ _ 0 id p Ht0). exact Hmt. }
      assert (zlen fs' = zlen fs) as Hlfs by (rewrite Efs; unfold zlen; rewrite map_length; reflexivity).
      destruct (IH rid' fs' h' dead' s) as (cs' & [Hc1 Hc2] & E'); auto; try lia.
      exists cs'. split; [|exact E']. split; [exact Hc1|]. intros x c. rewrite Hc2.
      destruct (Z.lt_ge_cases x q) as [Hx|Hx].
      * rewrite Efs, count_drop_lt by auto.
        assert (count x fs < T); [|lia].
        pose proof (count_heads fs x Hsrt 0) as H3. rewrite <- (zlen_perm _ _ (filter_perm _ _ _ Hperm2)) in H3.
        change (top :: h2' ++ P2 ++ P) with ((top :: h2') ++ P2 ++ P) in H3. rewrite filter_app in H3.
        rewrite (filter_none _ (top :: h2')) in H3.
        2:{ eapply Forall_impl; [|exact Hmin2]. intros r Hr. cbv beta in *. lia. }
        cbn [app] in H3. pose proof (zlen_filter (fun r : record => snd r <=? x) (P2 ++ P)). lia.
      * rewrite Efs, count_drop by auto. reflexivity.
Qed.
End MS.
