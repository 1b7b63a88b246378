(** Proofs about the top-k queue. *)
From Coq Require Import ZifyBool Permutation Sorted.
From Verif Require Import Base BaseLemmas Float64 Heap HeapProofs TopK TopKSpec.
Local Open Scope Z_scope.

(** ** the order on doubles *)
Definition rank (x : f64) : Z * Z * Z :=
  match x with
  | S754_nan => (-3, 0, 0)
  | S754_infinity true => (-2, 0, 0)
  | S754_infinity false => (2, 0, 0)
  | S754_zero _ => (0, 0, 0)
  | S754_finite true m e => (-1, - e, Zneg m)
  | S754_finite false m e => (1, e, Zpos m)
  end.
Definition lt3 (x y : Z * Z * Z) : bool :=
  let '(a, b, c) := x in let '(a', b', c') := y in (a <? a') || ((a =? a') && ((b <? b') || ((b =? b') && (c <? c')))).
Definition eq3 (x y : Z * Z * Z) : bool := let '(a, b, c) := x in let '(a', b', c') := y in (a =? a') && (b =? b') && (c =? c').
Lemma compare_rank x y : x <> S754_nan -> y <> S754_nan ->
  SFcompare x y = Some (if lt3 (rank x) (rank y) then Lt else if eq3 (rank x) (rank y) then Eq else Gt).
Proof.
  intros Hx Hy. destruct x as [sx|sx| |sx mx ex], y as [sy|sy| |sy my ey]; try congruence; try destruct sx; try destruct sy; try reflexivity; cbn [SFcompare rank lt3 eq3]; f_equal.
  - destruct (Z.compare_spec ex ey) as [->|H|H].
    + rewrite !Z.eqb_refl, Z.ltb_irrefl. change (1 <? 1) with false. cbn [orb andb]. rewrite Z.ltb_irrefl. cbn [orb].
      change (Pos.compare_cont Eq mx my) with (Pos.compare mx my). destruct (Pos.compare_spec mx my) as [->|H|H]; cbn [CompOpp].
      * rewrite Z.ltb_irrefl, Z.eqb_refl. reflexivity.
      * assert (Zneg mx <? Zneg my = false) as -> by lia. assert (Zneg mx =? Zneg my = false) as -> by lia. reflexivity.
      * assert (Zneg mx <? Zneg my = true) as -> by lia. reflexivity.
    + assert (- ex <? - ey = false) as -> by lia. assert (- ex =? - ey = false) as -> by lia. reflexivity.
    + assert (- ex <? - ey = true) as -> by lia. reflexivity.
  - destruct (Z.compare_spec ex ey) as [->|H|H].
    + rewrite !Z.eqb_refl, !Z.ltb_irrefl. change (1 <? 1) with false. cbn [orb andb].
      change (Pos.compare_cont Eq mx my) with (Pos.compare mx my). destruct (Pos.compare_spec mx my) as [->|H|H].
      * rewrite !Z.ltb_irrefl, Z.eqb_refl. reflexivity.
      * assert (Zpos mx <? Zpos my = true) as -> by lia. reflexivity.
      * assert (Zpos mx <? Zpos my = false) as -> by lia. assert (Zpos mx =? Zpos my = false) as -> by lia. reflexivity.
    + assert (ex <? ey = true) as -> by lia. reflexivity.
    + assert (ex <? ey = false) as -> by lia. assert (ex =? ey = false) as -> by lia. reflexivity.
Qed.
Lemma lt3_eq3 x y : lt3 x y = true -> eq3 x y = false.
Proof. destruct x as [[a b] c], y as [[a' b'] c']. cbn. lia. Qed.
Lemma flt_rank x y : x <> S754_nan -> y <> S754_nan -> flt x y = lt3 (rank x) (rank y).
Proof. intros Hx Hy. unfold flt, SFltb. rewrite compare_rank by assumption. destruct (lt3 _ _); [reflexivity|]. destruct (eq3 _ _); reflexivity. Qed.
Lemma feq_rank x y : x <> S754_nan -> y <> S754_nan -> feq x y = eq3 (rank x) (rank y).
Proof. intros Hx Hy. unfold feq, SFeqb. rewrite compare_rank by assumption. destruct (lt3 _ _) eqn:E; [apply lt3_eq3 in E; rewrite E; reflexivity|]. destruct (eq3 _ _); reflexivity. Qed.
Lemma fle_rank x y : x <> S754_nan -> y <> S754_nan -> fle x y = lt3 (rank x) (rank y) || eq3 (rank x) (rank y).
Proof. intros Hx Hy. unfold fle, SFleb. rewrite compare_rank by assumption. destruct (lt3 _ _) eqn:E; [reflexivity|]. destruct (eq3 _ _); reflexivity. Qed.

(** ** a total order that agrees with Less on numbers *)
Definition less4 (c o : cand) : bool := lt3 (rank (Sc c)) (rank (Sc o)) || (eq3 (rank (Sc c)) (rank (Sc o)) && (Key o <? Key c)).
Definition num (c : cand) : Prop := Sc c <> S754_nan.
Lemma Less_less4 c o : num c -> num o -> Less c o = less4 c o.
Proof.
  intros Hc Ho. unfold Less, less4. rewrite feq_rank, flt_rank by assumption. destruct (eq3 _ _) eqn:E; [|lia].
  destruct (lt3 _ _) eqn:L; [apply lt3_eq3 in L; congruence|]. reflexivity.
Qed.
Lemma worse_less4 c o : num c -> num o -> (worse c o <-> less4 c o = true).
Proof. intros Hc Ho. unfold worse, less4. rewrite feq_rank, flt_rank by assumption. destruct (lt3 (rank (Sc c)) (rank (Sc o))), (eq3 (rank (Sc c)) (rank (Sc o))); cbn [orb andb]; intuition (try discriminate; try lia; auto). Qed.
Notation le4 := (HeapProofs.le less4).
Ltac three := repeat match goal with c : cand |- _ => let k := fresh "k" in let s := fresh "s" in destruct c as [k s]; cbn [Key Sc] in * ; let r := fresh "r" in set (r := rank s) in *; clearbody r; clear s; destruct r as [[? ?] ?] end.
Lemma le4_trans a b c : le4 a b -> le4 b c -> le4 a c.
Proof. unfold HeapProofs.le, less4. three. cbn. lia. Qed.
Lemma less4_asym a b : less4 a b = true -> less4 b a = false.
Proof. unfold less4. three. cbn. lia. Qed.
Lemma le4_refl a : le4 a a.
Proof. unfold HeapProofs.le, less4. three. cbn. lia. Qed.
Lemma less4_le a b : less4 a b = true -> le4 a b.
Proof. apply less4_asym. Qed.
Lemma le4_total a b : le4 a b \/ le4 b a.
Proof. unfold HeapProofs.le. destruct (less4 b a) eqn:E; [right; apply less4_asym; exact E|left; reflexivity]. Qed.
Lemma le4_antisym a b : num a -> num b -> le4 a b -> le4 b a -> same a b.
Proof. intros Ha Hb. unfold HeapProofs.le, same. rewrite feq_rank by assumption. clear Ha Hb. unfold less4. three. cbn. lia. Qed.

(** ** heap operations only compare elements of the slice *)
Section Ext.
Context {A : Type} (l1 l2 : A -> A -> bool) (P : A -> Prop).
Context (agree : forall x y, P x -> P y -> l1 x y = l2 x y).
Lemma less_at_ext l i j : Forall P l -> less_at l1 l i j = less_at l2 l i j.
Proof.
  intros H. unfold less_at. destruct (nth_error l i) eqn:E1; [|reflexivity]. destruct (nth_error l j) eqn:E2; [|reflexivity].
  apply nth_error_In in E1, E2. rewrite Forall_forall in H. apply agree; auto.
Qed.
Lemma swap_Forall i j (l : list A) : Forall P l -> Forall P (swap i j l).
Proof. apply Permutation_Forall. symmetry. apply swap_perm. Qed.
Lemma down_ext fuel : forall l i n, Forall P l -> down l1 fuel l i n = down l2 fuel l i n.
Proof.
  induction fuel as [|fuel IH]; intros l i n H; [reflexivity|]. cbn [down]. rewrite !(less_at_ext l) by exact H. destruct (Nat.leb n (2 * i + 1)); [reflexivity|]. cbn zeta.
  set (j := if _ && _ then _ else _). rewrite ?(less_at_ext l) by exact H. destruct (negb _); [reflexivity|]. apply IH, swap_Forall, H.
Qed.
Lemma up_ext fuel : forall l j, Forall P l -> up l1 fuel l j = up l2 fuel l j.
Proof.
  induction fuel as [|fuel IH]; intros l j H; [reflexivity|]. cbn [up]. rewrite !(less_at_ext l) by exact H. destruct (_ || _); [reflexivity|]. apply IH, swap_Forall, H.
Qed.
Lemma heap_push_ext l n : Forall P l -> heap_push l1 l n = heap_push l2 l n.
Proof. apply up_ext. Qed.
Lemma heap_pop_ext l n : Forall P l -> heap_pop l1 l n = heap_pop l2 l n.
Proof. intros H. unfold heap_pop. rewrite down_ext; [reflexivity|]. apply swap_Forall, H. Qed.
Lemma heap_fix_ext l i n : Forall P l -> heap_fix l1 l i n = heap_fix l2 l i n.
Proof.
  intros H. unfold heap_fix. rewrite down_ext by exact H. destruct (down l2 n l i n) as [l' k] eqn:E. destruct (Nat.ltb i k); [reflexivity|]. apply up_ext.
  apply (Permutation_Forall (x := l)); [|exact H]. symmetry. replace l' with (fst (down l2 n l i n)) by (rewrite E; reflexivity). apply down_perm.
Qed.
End Ext.
Lemma Less_agree : forall x y, num x -> num y -> Less x y = less4 x y. Proof. exact Less_less4. Qed.

(** ** heap.Fix at the root *)
Notation heap4 := (is_heap less4).
Lemma fix_root x h t : heap4 (h :: t) ->
  let l' := heap_fix less4 (x :: t) 0 (length (x :: t)) in heap4 l' /\ Permutation l' (x :: t).
Proof.
  intros H l'. unfold heap_fix in l'. destruct (down less4 (length (x :: t)) (x :: t) 0 (length (x :: t))) as [d k] eqn:E.
  assert (heap4 d /\ Permutation d (x :: t)) as [H1 H2].
  { replace d with (fst (down less4 (length (x :: t)) (x :: t) 0 (length (x :: t)))) by (rewrite E; reflexivity). split; [|apply down_perm].
    apply (down_heap less4 le4_trans less4_asym); [lia|lia| |].
    - intros a c _ Hne He Hc. cbn [length] in Hc. assert (le_at less4 (h :: t) a c) as Hac by (apply H; [lia|exact He|cbn [length]; lia]).
      unfold le_at, less_at in *. destruct a as [|a]; [congruence|]. destruct c as [|c]; [unfold edge in He; lia|]. exact Hac.
    - intros p c _ He. unfold edge in He. lia. }
  assert (l' = d) as ->; [|auto]. unfold l'. destruct (Nat.ltb 0 k); [reflexivity|]. cbn [length up]. reflexivity.
Qed.

(** ** the invariant *)
Definition Inv (q : queue) (k : Z) (l : list cand) : Prop :=
  qk q = k /\ 1 <= k /\ Forall num l /\ heap4 (qh q) /\ zlen (qh q) = Z.min k (zlen l) /\
  exists rest, Permutation l (qh q ++ rest) /\ forall a b, In a (qh q) -> In b rest -> le4 b a.
Lemma inv_num q k l : Inv q k l -> Forall num (qh q).
Proof.
  intros (_ & _ & Hn & _ & _ & rest & Hp & _). apply (Permutation_Forall Hp) in Hn. apply Forall_app in Hn. tauto.
Qed.
Lemma inv_perm q k l l' : Permutation l l' -> Inv q k l -> Inv q k l'.
Proof.
  intros Hp (H1 & H2 & H3 & H4 & H5 & rest & H6 & H7). repeat (split; [assumption|]). split; [eapply Permutation_Forall; eassumption|]. split; [exact H4|].
  split; [rewrite H5; unfold zlen; rewrite (Permutation_length Hp); reflexivity|]. exists rest. split; [|exact H7]. rewrite <- Hp. exact H6.
Qed.
Lemma upd_0 {A} (x h : A) t : upd 0 x (h :: t) = x :: t. Proof. reflexivity. Qed.
Lemma add_inv q k l c : Inv q k l -> num c -> exists q', Add q (Key c) (Sc c) = Ret q' /\ Inv q' k (l ++ [c]).
Proof.
  intros HI Hc. pose proof (inv_num _ _ _ HI) as Hnum. destruct HI as (H1 & H2 & H3 & H4 & H5 & rest & H6 & H7).
  assert (mkCand (Key c) (Sc c) = c) as Ec by (destruct c; reflexivity).
  assert (Forall num (l ++ [c])) as H3' by (apply Forall_app; split; [exact H3|repeat constructor; exact Hc]).
  assert (zlen (l ++ [c]) = zlen l + 1) as Hl by (unfold zlen; rewrite app_length; cbn [length]; lia). unfold Add, CanTakeWithScore, IsFull.
  destruct (Z.eqb_spec (zlen (qh q)) (qk q)) as [Hfull|Hn]; cbn [negb].
  - assert (zlen l >= k) as Hlk by lia. destruct (qh q) as [|t0 h'] eqn:Eh; [cbn in Hfull; lia|].
    assert (forall y, In y (t0 :: h') -> le4 t0 y) as Hmin.
    { intros y Hy. apply (heap_top_min' less4 le4_trans less4_asym (t0 :: h')); [exact H4|reflexivity|exact Hy]. }
    assert (top (t0 :: h') = Ret t0) as Etop.
    { unfold top, index. assert ((0 <=? 0) && (0 <? zlen (t0 :: h')) = true) as -> by (unfold zlen; cbn [length]; lia). reflexivity. }
    rewrite Etop. cbn [bind]. pose proof (Forall_inv Hnum) as Ht0.
    assert (zlen (t0 :: h') <? qk q = false) as Hlt by lia. rewrite Hlt, Ec, (Less_less4 t0 c Ht0 Hc).
    assert (less4 t0 c = false -> Inv q k (l ++ [c])) as Hskip.
    { intros El. split; [assumption|]. split; [assumption|]. split; [exact H3'|]. rewrite Eh. split; [exact H4|]. split; [lia|]. exists (rest ++ [c]).
      split; [rewrite app_assoc; apply Permutation_app_tail; exact H6|]. intros a b Ha Hb. apply in_app_iff in Hb. destruct Hb as [Hb|[<-|[]]]; [apply H7; assumption|].
      apply le4_trans with t0; [exact El|apply Hmin; exact Ha]. }
    destruct (fle (Sc t0) (Sc c)) eqn:Ef; cbn [negb].
    + destruct (less4 t0 c) eqn:El; [|eauto]. eexists. split; [reflexivity|].
      unfold updateTop. rewrite upd_0. change (length (t0 :: h')) with (length (c :: h')).
      rewrite (heap_fix_ext Less less4 num Less_agree) by (constructor; [exact Hc|exact (Forall_inv_tail Hnum)]).
      destruct (fix_root c t0 h' H4) as [F1 F2]. cbn zeta in F1, F2. set (l' := heap_fix less4 (c :: h') 0 (length (c :: h'))) in *.
      split; [exact H1|]. split; [assumption|]. split; [exact H3'|]. cbn [qh]. split; [exact F1|].
      split; [unfold zlen in *; rewrite (Permutation_length F2); cbn [length] in *; lia|]. exists (t0 :: rest). split.
      * rewrite F2, H6. cbn [app]. rewrite <- Permutation_cons_append. rewrite <- (Permutation_middle (h') rest t0). constructor.
      * intros a b Ha Hb. apply (Permutation_in _ F2) in Ha. assert (le4 t0 a) as Hta by (destruct Ha as [<-|Ha]; [apply less4_le; exact El|apply Hmin; right; exact Ha]).
        destruct Hb as [<-|Hb]; [exact Hta|]. apply le4_trans with t0; [|exact Hta]. apply H7; [left; reflexivity|exact Hb].
    + assert (less4 t0 c = false) as El.
      { rewrite fle_rank in Ef by assumption. unfold less4. apply orb_false_iff in Ef. destruct Ef as [-> ->]. reflexivity. }
      eauto.
  - assert (zlen (qh q) <? qk q = true) as -> by lia. cbn [bind]. eexists. split; [cbn [negb]; rewrite Ec; reflexivity|].
    assert (Forall num (qh q ++ [c])) as Hn' by (apply Forall_app; split; [exact Hnum|repeat constructor; exact Hc]).
    rewrite (heap_push_ext Less less4 num Less_agree) by exact Hn'. destruct (heap_push_heap less4 le4_trans less4_asym (qh q) c H4) as [F1 F2].
    set (l' := heap_push less4 _ _) in *. split; [exact H1|]. split; [assumption|]. split; [exact H3'|]. cbn [qh]. split; [exact F1|].
    split; [unfold zlen in *; rewrite (Permutation_length F2), app_length; cbn [length] in *; lia|].
    assert (rest = []) as ->.
    { apply Permutation_length in H6. rewrite app_length in H6. destruct rest; [reflexivity|]. unfold zlen in *. cbn [length] in *. lia. }
    exists []. split; [rewrite F2, H6, !app_nil_r; reflexivity|]. intros a b _ [].
Qed.
Lemma add_all_inv : forall cs q k l, Inv q k l -> Forall num cs -> exists q', add_all q cs = Ret q' /\ Inv q' k (l ++ cs).
Proof.
  induction cs as [|c cs IH]; intros q k l HI Hc; cbn [add_all].
  - exists q. rewrite app_nil_r. auto.
  - destruct (add_inv q k l c HI (Forall_inv Hc)) as (q1 & -> & H1). cbn [bind]. destruct (IH q1 k (l ++ [c]) H1 (Forall_inv_tail Hc)) as (q' & E & H2).
    exists q'. rewrite <- app_assoc in H2. auto.
Qed.
Lemma filter_length_le' {A} (f : A -> bool) l : (length (filter f l) <= length l)%nat.
Proof. induction l; cbn [filter]; [lia|]. destruct (f a); cbn [length]; lia. Qed.
(* dropping elements that are not among the k2 >= k best of a part changes nothing *)
Lemma inv_extend q k l h2 rest2 : Inv q k (l ++ h2) -> Forall num rest2 -> (forall a b, In a h2 -> In b rest2 -> le4 b a) -> (rest2 = [] \/ k <= zlen h2) ->
  Inv q k (l ++ h2 ++ rest2).
Proof.
  intros (H1 & H2 & H3 & H4 & H5 & rest & H6 & H7) Hn Hle Hlen. split; [assumption|]. split; [assumption|]. split; [rewrite app_assoc; apply Forall_app; split; assumption|].
  split; [assumption|]. destruct Hlen as [->|Hlen].
  { rewrite app_nil_r. split; [assumption|]. exists rest. auto. }
  assert (zlen (l ++ h2) = zlen l + zlen h2) as Z1 by (unfold zlen; rewrite app_length; lia). assert (zlen (l ++ h2 ++ rest2) = zlen l + zlen h2 + zlen rest2) as Z2 by (unfold zlen; rewrite !app_length; lia).
  assert (0 <= zlen l /\ 0 <= zlen rest2) as [Z3 Z4] by (unfold zlen; lia).
  split; [lia|]. exists (rest ++ rest2). split; [rewrite !app_assoc; apply Permutation_app_tail; rewrite H6; reflexivity|].
  intros a b Ha Hb. apply in_app_iff in Hb. destruct Hb as [Hb|Hb]; [apply H7; assumption|].
  (* some element of h2 is not above a: else k elements above a would be kept beside a *)
  destruct (existsb (fun x => negb (less4 a x)) h2) eqn:Ex.
  - apply existsb_exists in Ex. destruct Ex as (x & Hx & Hxa). apply le4_trans with x; [apply Hle; assumption|]. unfold HeapProofs.le. destruct (less4 a x); [discriminate|reflexivity].
  - exfalso. set (cnt := fun l => length (filter (less4 a) l)). assert (forall x y, cnt (x ++ y) = cnt x + cnt y)%nat as Capp by (intros; unfold cnt; rewrite filter_app, app_length; reflexivity).
    assert (forall x y, Permutation x y -> cnt x = cnt y) as Cperm.
    { clear. intros x y H. unfold cnt. induction H; cbn [filter]; try congruence; try lia; repeat (destruct (less4 a _)); cbn [length]; lia. }
    assert (cnt h2 = length h2) as C1.
    { clear - Ex. unfold cnt. induction h2 as [|y t IH]; [reflexivity|]. cbn [existsb filter] in *. apply orb_false_iff in Ex. destruct Ex as [E1 E2]. destruct (less4 a y); [|discriminate]. cbn [length]. rewrite IH; auto. }
    assert (cnt rest = 0)%nat as C2.
    { clear - H7 Ha. unfold cnt. induction rest as [|y t IH]; [reflexivity|]. cbn [filter]. assert (less4 a y = false) as -> by (apply (H7 a y Ha); left; reflexivity). apply IH. intros u v Hu Hv. apply H7; [exact Hu|right; exact Hv]. }
    assert (cnt (qh q) < length (qh q))%nat as C3.
    { clear - Ha. unfold cnt. induction (qh q) as [|y t IH]; [destruct Ha|]. cbn [filter]. pose proof (filter_length_le' (less4 a) t). destruct Ha as [->|Ha].
      - pose proof (le4_refl a) as Hr. unfold HeapProofs.le in Hr. rewrite Hr. cbn [length]. lia.
      - specialize (IH Ha). destruct (less4 a y); cbn [length]; lia. }
    pose proof (Cperm _ _ H6) as C4. rewrite !Capp in C4. unfold zlen in *. lia.
Qed.

(** ** listing *)
Definition desc : list cand -> Prop := StronglySorted (fun a b => le4 b a).
Lemma heap_pop_app p q : (0 < length p)%nat -> heap_pop less4 (p ++ q) (length p) = heap_pop less4 p (length p) ++ q.
Proof.
  intros H. unfold heap_pop. rewrite swap_app_l by lia. rewrite down_app; [reflexivity|rewrite swap_length; lia|lia].
Qed.
Lemma upd_mid {A} (p : list A) y x q : upd (length p) x (p ++ y :: q) = p ++ x :: q.
Proof. induction p as [|a p IH]; [reflexivity|]. cbn [length app upd]. rewrite IH. reflexivity. Qed.
Lemma desc_snoc r x : desc r -> (forall y, In y r -> le4 x y) -> desc (r ++ [x]).
Proof.
  induction r as [|a r IH]; intros Hd Hx; cbn [app]; [constructor; constructor|]. apply StronglySorted_inv in Hd. destruct Hd as [Hd Ha]. constructor.
  - apply IH; [exact Hd|]. intros y Hy. apply Hx. right. exact Hy.
  - apply Forall_app. split; [exact Ha|]. constructor; [|constructor]. apply Hx. left. reflexivity.
Qed.
Lemma pop_all_ok : forall n h done pre, length h = n -> length pre = n -> heap4 h -> Forall num (h ++ done) ->
  exists r, pop_all n (h ++ done) (pre ++ done) = (r ++ done, r ++ done) /\ Permutation r h /\ desc r /\ (forall x t, h = x :: t -> exists r', r = r' ++ [x]).
Proof.
  induction n as [|n IH]; intros h done pre Hh Hp Hheap Hnum.
  - destruct h; [|discriminate]. destruct pre; [|discriminate]. exists []. split; [reflexivity|]. split; [constructor|]. split; [constructor|discriminate].
  - destruct h as [|x t] eqn:Eh; [discriminate|]. rewrite <- Eh in *. cbn [pop_all].
    rewrite (heap_pop_ext Less less4 num Less_agree) by exact Hnum. rewrite <- Hh. rewrite heap_pop_app by lia.
    destruct (heap_pop_heap less4 le4_trans less4_asym h x t Hheap Eh) as (h' & -> & Hh' & Hperm).
    assert (length h' = n) as Hl by (rewrite (Permutation_length Hperm); rewrite Eh in Hh; cbn in Hh; lia).
    rewrite <- app_assoc. cbn [app]. rewrite nth_error_app2 by lia. replace (n - length h')%nat with 0%nat by lia. cbn [nth_error].
    destruct (exists_last (l := pre)) as (pre' & y & Ep); [destruct pre; [discriminate|congruence]|].
    assert (length pre' = n) as Hlp by (rewrite Ep, app_length in Hp; cbn in Hp; lia). rewrite Ep, <- app_assoc. cbn [app].
    assert (upd n x (pre' ++ y :: done) = pre' ++ x :: done) as -> by (rewrite <- Hlp; apply upd_mid). destruct (IH h' (x :: done) pre' Hl Hlp Hh') as (r & E & Hr & Hd & _).
    { rewrite Eh in Hnum. cbn [app] in Hnum. pose proof (Forall_inv Hnum) as Hx. apply Forall_inv_tail, Forall_app in Hnum. destruct Hnum as [Ht Hdone].
      apply Forall_app. split; [apply (Permutation_Forall (Permutation_sym Hperm)); exact Ht|constructor; assumption]. }
    exists (r ++ [x]). rewrite <- app_assoc. cbn [app]. split; [exact E|]. split; [|split; [|intros x' t' E'; exists r; congruence]].
    + rewrite Eh. rewrite <- Permutation_cons_append. constructor. rewrite Hr. exact Hperm.
    + apply desc_snoc; [exact Hd|]. intros z Hz. apply (Permutation_in _ Hr), (Permutation_in _ Hperm) in Hz.
      apply (heap_top_min' less4 le4_trans less4_asym h); [exact Hheap|rewrite Eh; reflexivity|rewrite Eh; right; exact Hz].
Qed.
Lemma nth_error_ext' {A} (l l' : list A) : (forall i, nth_error l i = nth_error l' i) -> l = l'.
Proof.
  revert l'. induction l as [|x l IH]; intros [|y l'] H; [reflexivity|specialize (H 0%nat); discriminate|specialize (H 0%nat); discriminate|].
  f_equal; [specialize (H 0%nat); cbn in H; congruence|]. apply IH. intros i. exact (H (S i)).
Qed.
Lemma nth_error_rev {A} (l : list A) i : (i < length l)%nat -> nth_error (rev l) i = nth_error l (length l - S i).
Proof.
  revert i. induction l as [|x l IH]; intros i Hi; [cbn in Hi; lia|]. cbn [rev length] in *. destruct (Nat.eq_dec i (length l)) as [->|].
  - rewrite nth_error_app2 by (rewrite rev_length; lia). rewrite rev_length. replace (length l - length l)%nat with 0%nat by lia. replace (S (length l) - S (length l))%nat with 0%nat by lia. reflexivity.
  - rewrite nth_error_app1 by (rewrite rev_length; lia). rewrite IH by lia. replace (S (length l) - S i)%nat with (S (length l - S i)) by lia. reflexivity.
Qed.
Lemma swap_ends_length k : forall l, length (swap_ends k l) = length l.
Proof. induction k as [|i IH]; intros l; cbn [swap_ends]; [reflexivity|]. rewrite IH. apply swap_length. Qed.
Lemma swap_ends_nth k : forall l j, (2 * k <= length l)%nat -> (j < length l)%nat ->
  nth_error (swap_ends k l) j = nth_error l (if (Nat.ltb j k || Nat.leb (length l - k) j)%bool then length l - 1 - j else j)%nat.
Proof.
  induction k as [|i IH]; intros l j Hk Hj; cbn [swap_ends].
  - replace (Nat.ltb j 0 || Nat.leb (length l - 0) j)%bool with false by lia. reflexivity.
  - rewrite IH by (rewrite swap_length; lia). rewrite swap_length.
    rewrite nth_swap by lia.
    destruct (Nat.ltb_spec j i), (Nat.leb_spec (length l - i) j); cbn [orb]; destruct (Nat.ltb_spec j (S i)), (Nat.leb_spec (length l - S i) j); cbn [orb]; try lia;
      repeat match goal with |- context [Nat.eqb ?a ?b] => destruct (Nat.eqb_spec a b) end; try lia; f_equal; lia.
Qed.
Lemma swap_ends_rev l : swap_ends (Nat.div (length l) 2) l = rev l.
Proof.
  apply nth_error_ext'. intros j. pose proof (Nat.div_mod (length l) 2 ltac:(lia)) as Hd. pose proof (Nat.mod_upper_bound (length l) 2 ltac:(lia)).
  destruct (Nat.lt_ge_cases j (length l)) as [Hj|Hj].
  - rewrite swap_ends_nth by lia. rewrite nth_error_rev by exact Hj.
    destruct (Nat.ltb_spec j (length l / 2)), (Nat.leb_spec (length l - length l / 2) j); cbn [orb]; f_equal; lia.
  - rewrite !(proj2 (nth_error_None _ _)); [reflexivity|rewrite rev_length; lia|rewrite swap_ends_length; lia].
Qed.
Lemma asc_heap r : desc r -> heap4 (rev r).
Proof.
  intros Hd i c _ He Hc. rewrite rev_length in Hc. unfold le_at, less_at.
  assert (i < c)%nat as Hic by (unfold edge in He; lia). rewrite !nth_error_rev by lia.
  destruct (nth_error r (length r - S c)) as [x|] eqn:Ex; [|reflexivity]. destruct (nth_error r (length r - S i)) as [y|] eqn:Ey; [|reflexivity].
  assert (length r - S c < length r - S i)%nat as Hab by lia. revert Ex Ey Hab. generalize (length r - S c)%nat (length r - S i)%nat. clear - Hd. intros a b Ex Ey Hab.
  revert a b Hab Ex Ey. induction Hd as [|z r Hd IH Hz]; intros a b Hab Ex Ey; [destruct a; discriminate|]. destruct b as [|b]; [lia|]. destruct a as [|a].
  - cbn in Ex, Ey. injection Ex as ->. apply nth_error_In in Ey. rewrite Forall_forall in Hz. apply Hz. exact Ey.
  - cbn in Ex, Ey. apply (IH a b); [lia|exact Ex|exact Ey].
Qed.
Lemma list_inv q k l : Inv q k l -> best_k k l (fst (GetCandidates q)) /\ Inv (snd (GetCandidates q)) k l /\ Permutation (fst (GetCandidates q)) (qh q).
Proof.
  intros HI. pose proof HI as (H1 & H2 & H3 & H4 & H5 & rest & H6 & H7). pose proof (inv_num _ _ _ HI) as Hnum. unfold GetCandidates.
  destruct (qh q) as [|x t] eqn:Eh.
  - cbn [fst snd]. split; [|split; [exact HI|rewrite ?Eh; constructor]]. unfold best_k. change (zlen (@nil cand)) with 0 in H5. unfold zlen in H5. split; [cbn; lia|]. split; [constructor|]. exists l. split; [reflexivity|]. intros a b [].
  - rewrite <- Eh in *. destruct (pop_all_ok (length (qh q)) (qh q) [] (repeat (mkCand 0 (of_int 0)) (length (qh q))) eq_refl (repeat_length _ _) H4) as (r & E & Hr & Hd & _); [rewrite app_nil_r; exact Hnum|].
    rewrite !app_nil_r in E. rewrite E. cbn [fst snd]. split; [|split; [|exact Hr]].
    + split; [rewrite (Permutation_length Hr); unfold zlen in H5; exact H5|]. assert (Forall num r) as Hnr by (apply (Permutation_Forall (Permutation_sym Hr)); exact Hnum). split.
      * clear - Hd Hnr. induction Hd as [|a r Hd IH Ha]; [constructor|]. constructor; [apply IH; exact (Forall_inv_tail Hnr)|].
        rewrite Forall_forall in *. intros b Hb. rewrite worse_less4 by (apply Hnr; first [left; reflexivity|right; exact Hb]). pose proof (Ha b Hb) as Hle. unfold HeapProofs.le in Hle. congruence.
      * exists rest. split; [rewrite Hr; exact H6|]. intros a b Ha Hb.
        assert (num a) as Na by (rewrite Forall_forall in Hnr; auto). assert (num b) as Nb by (apply (Permutation_Forall H6), Forall_app in H3; destruct H3 as [_ H3]; rewrite Forall_forall in H3; auto).
        rewrite (worse_less4 a b Na Nb). pose proof (H7 a b (Permutation_in _ Hr Ha) Hb) as Hle. unfold HeapProofs.le in Hle. congruence.
    + split; [exact H1|]. split; [exact H2|]. split; [exact H3|]. cbn [qh]. replace (Nat.div (length (qh q)) 2) with (Nat.div (length r) 2) by (rewrite (Permutation_length Hr); reflexivity).
      rewrite swap_ends_rev. split; [apply asc_heap; exact Hd|]. split; [unfold zlen in *; rewrite rev_length, (Permutation_length Hr); exact H5|].
      exists rest. split; [rewrite <- Permutation_rev, Hr; exact H6|]. intros a b Ha Hb. apply in_rev in Ha. apply H7; [|exact Hb]. apply (Permutation_in _ Hr). exact Ha.
Qed.
Lemma new_inv k q : 1 <= k -> NewTopKQueue k = Ret q -> Inv q k [].
Proof.
  intros Hk E. unfold NewTopKQueue in E. destruct (k <? 0) eqn:Ek; [discriminate|]. injection E as <-. unfold Inv. cbn [qk qh]. split; [reflexivity|]. split; [exact Hk|].
  split; [constructor|]. split; [intros i c _ _ Hc; cbn in Hc; lia|]. split; [cbn; lia|]. exists []. split; [constructor|]. intros a b [].
Qed.
Lemma merge_inv q k l q2 k2 l2 : Inv q k l -> Inv q2 k2 l2 -> exists q', Merge q q2 = Ret q' /\ Inv q' k (l ++ qh q2) /\ (k <= k2 -> Inv q' k (l ++ l2)).
Proof.
  intros HI HI2. unfold Merge. destruct (add_all_inv (qh q2) q k l HI (inv_num _ _ _ HI2)) as (q' & E & HI'). exists q'. split; [exact E|]. split; [exact HI'|].
  intros Hk. destruct HI2 as (A1 & A2 & A3 & A4 & A5 & rest & A6 & A7). apply (inv_perm q' k (l ++ qh q2 ++ rest)); [apply Permutation_app_head; symmetry; exact A6|].
  apply inv_extend; [exact HI'| |exact A7|].
  - apply (Permutation_Forall A6), Forall_app in A3. tauto.
  - destruct rest as [|z rest]; [left; reflexivity|right]. apply Permutation_length in A6. rewrite app_length in A6. cbn [length] in A6. unfold zlen in *. lia.
Qed.
Lemma history_inv q k l : history q k l -> Inv q k l.
Proof.
  induction 1 as [k q Hk E|q k l c q' H IH Hn E|q k l H IH|q k l q2 k2 l2 q' H IH H2 IH2 Hk E|q k l q2 k2 l2 q' H IH H2 IH2 E|q k l k' Hk H IH].
  - apply new_inv; assumption.
  - destruct (add_inv q k l c IH Hn) as (q1 & E1 & HI). congruence.
  - apply list_inv. exact IH.
  - destruct (merge_inv q k l q2 k2 l2 IH IH2) as (q1 & E1 & _ & HI). rewrite E in E1. injection E1 as <-. auto.
  - destruct (merge_inv q k l q2 k2 l2 IH IH2) as (q1 & E1 & HI & _). rewrite E in E1. injection E1 as <-. apply (inv_perm _ _ (l ++ qh q2)); [|exact HI].
    apply Permutation_app_head. symmetry. apply (list_inv q2 k2 l2 IH2).
  - unfold Reset. split; [reflexivity|]. split; [exact Hk|]. split; [constructor|]. cbn [qh]. split; [intros i c _ _ Hc; cbn in Hc; lia|]. split; [cbn; lia|]. exists []. split; [constructor|]. intros a b [].
Qed.
(** ** the k best are determined *)
Lemma filter_none {A} (f : A -> bool) l : (forall x, In x l -> f x = false) -> length (filter f l) = 0%nat.
Proof. induction l as [|a l IH]; intros H; [reflexivity|]. cbn [filter]. rewrite (H a) by (left; reflexivity). apply IH. intros x Hx. apply H. right. exact Hx. Qed.
Lemma filter_all {A} (f : A -> bool) l : (forall x, In x l -> f x = true) -> length (filter f l) = length l.
Proof. induction l as [|a l IH]; intros H; [reflexivity|]. cbn [filter]. rewrite (H a) by (left; reflexivity). cbn [length]. rewrite IH; [reflexivity|]. intros x Hx. apply H. right. exact Hx. Qed.
Lemma filter_perm {A} (f : A -> bool) l l' : Permutation l l' -> length (filter f l) = length (filter f l').
Proof. induction 1 as [|x l l' H IH|x y l|]; cbn [filter]; [reflexivity|destruct (f x); cbn [length]; lia|destruct (f x), (f y); reflexivity|congruence]. Qed.
Lemma sorted_split r1 a r2 : desc (r1 ++ a :: r2) -> (forall x, In x r1 -> le4 a x) /\ (forall x, In x r2 -> le4 x a).
Proof.
  induction r1 as [|y r1 IH]; cbn [app]; intros H; apply StronglySorted_inv in H; destruct H as [H1 H2].
  - split; [intros x []|]. rewrite Forall_forall in H2. exact H2.
  - destruct (IH H1) as [I1 I2]. split; [|exact I2]. intros x [<-|Hx]; [|auto]. rewrite Forall_forall in H2. apply H2. apply in_app_iff. right. left. reflexivity.
Qed.
Lemma best_num k l r : numeric l -> best_k k l r -> Forall num r /\ desc r /\ exists rest, Permutation l (r ++ rest) /\ forall a b, In a r -> In b rest -> le4 b a.
Proof.
  intros Hn (_ & Hs & rest & Hp & Hr). assert (Forall num (r ++ rest)) as Hnum by (apply (Permutation_Forall Hp); exact Hn). apply Forall_app in Hnum. destruct Hnum as [N1 N2].
  split; [exact N1|]. split.
  - clear - Hs N1. induction Hs as [|a r Hs IH Ha]; [constructor|]. constructor; [apply IH; exact (Forall_inv_tail N1)|]. rewrite Forall_forall in *. intros b Hb.
    specialize (Ha b Hb). rewrite worse_less4 in Ha by (apply N1; first [left; reflexivity|right; exact Hb]). unfold HeapProofs.le. destruct (less4 a b); congruence.
  - exists rest. split; [exact Hp|]. intros a b Ha Hb. rewrite Forall_forall in N1, N2. specialize (Hr a b Ha Hb). rewrite worse_less4 in Hr by auto. unfold HeapProofs.le. destruct (less4 a b); congruence.
Qed.
Lemma best_nth k l l' r r' i a b : numeric l -> Permutation l l' -> best_k k l r -> best_k k l' r' -> nth_error r i = Some a -> nth_error r' i = Some b -> le4 b a.
Proof.
  intros Hn Hp B B' Ea Eb. assert (numeric l') as Hn' by (apply (Permutation_Forall Hp); exact Hn).
  destruct (best_num k l r Hn B) as (_ & Hd & rest & P1 & R1). destruct (best_num k l' r' Hn' B') as (_ & Hd' & rest' & P2 & R2).
  apply nth_error_split in Ea, Eb. destruct Ea as (r1 & r2 & -> & L1), Eb as (r1' & r2' & -> & L2).
  destruct (sorted_split _ _ _ Hd) as [_ S1]. destruct (sorted_split _ _ _ Hd') as [S2 _].
  destruct (less4 a b) eqn:El; [exfalso|exact El]. set (f := fun y => negb (less4 y b)).
  assert (length (filter f (r1 ++ a :: r2 ++ rest)) <= length r1)%nat as C1.
  { rewrite filter_app, app_length. pose proof (filter_length_le' f r1). rewrite (filter_none f (a :: r2 ++ rest)); [lia|]. intros x Hx.
    assert (le4 x a) as Hxa by (destruct Hx as [<-|Hx]; [apply le4_refl|]; apply in_app_iff in Hx; destruct Hx as [Hx|Hx]; [auto|apply R1; [apply in_app_iff; right; left; reflexivity|exact Hx]]).
    unfold f. destruct (less4 x b) eqn:Ex; [reflexivity|]. exfalso. assert (le4 b a) as Hc by (apply le4_trans with x; [exact Ex|exact Hxa]). unfold HeapProofs.le in Hc. congruence. }
  assert (length r1' + 1 <= length (filter f (r1' ++ b :: r2' ++ rest')))%nat as C2.
  { rewrite filter_app, app_length. rewrite filter_all by (intros x Hx; unfold f; rewrite (S2 x Hx); reflexivity). cbn [filter].
    assert (f b = true) as -> by (unfold f; pose proof (le4_refl b) as Hr; unfold HeapProofs.le in Hr; rewrite Hr; reflexivity). cbn [length]. lia. }
  rewrite P1, P2 in Hp. rewrite <- !app_assoc in Hp. cbn [app] in Hp. apply (filter_perm f) in Hp. lia.
Qed.
Lemma best_unique k l l' r r' : numeric l -> Permutation l l' -> best_k k l r -> best_k k l' r' -> Forall2 same r r'.
Proof.
  intros Hn Hp B B'. assert (numeric l') as Hn' by (apply (Permutation_Forall Hp); exact Hn).
  assert (length r = length r') as Hlen by (destruct B as [B _], B' as [B' _]; rewrite (Permutation_length Hp) in B; lia).
  assert (forall i a b, nth_error r i = Some a -> nth_error r' i = Some b -> same a b) as H.
  { intros i a b Ea Eb. apply le4_antisym.
    - destruct (best_num k l r Hn B) as [N _]. rewrite Forall_forall in N. apply N. eapply nth_error_In. exact Ea.
    - destruct (best_num k l' r' Hn' B') as [N _]. rewrite Forall_forall in N. apply N. eapply nth_error_In. exact Eb.
    - eapply (best_nth k l' l r' r i b a); eauto. apply Permutation_sym. exact Hp.
    - eapply (best_nth k l l' r r' i a b); eauto. }
  clear - Hlen H. revert r' Hlen H. induction r as [|a r IH]; intros [|b r'] Hlen H; try discriminate; constructor; [apply (H 0%nat); reflexivity|]. apply IH; [cbn in Hlen; lia|]. intros i x y. apply (H (S i)).
Qed.
(** the lowest retained score *)
Lemma lowest_ok q k l : Inv q k l -> (l = [] -> GetLowestScore q = Ret f_neg_inf) /\
  (l <> [] -> exists r c, fst (GetCandidates q) = r ++ [c] /\ GetLowestScore q = Ret (Sc c)).
Proof.
  intros HI. pose proof HI as (H1 & H2 & H3 & H4 & H5 & rest & H6 & H7). pose proof (inv_num _ _ _ HI) as Hnum. unfold GetLowestScore, GetCandidates. split.
  - intros ->. apply Permutation_nil in H6. destruct (qh q); [reflexivity|discriminate].
  - intros Hl. destruct (qh q) as [|x t] eqn:Eh; [exfalso; change (zlen (@nil cand)) with 0 in H5; destruct l; [congruence|]; unfold zlen in H5; cbn [length] in H5; lia|].
    assert (0 <? zlen (x :: t) = true) as -> by (unfold zlen; cbn [length]; lia).
    destruct (pop_all_ok (length (x :: t)) (x :: t) [] (repeat (mkCand 0 (of_int 0)) (length (x :: t))) eq_refl (repeat_length _ _) H4) as (r & E & Hr & Hd & Hlast); [rewrite app_nil_r; exact Hnum|].
    rewrite !app_nil_r in E. rewrite E. cbn [fst]. destruct (Hlast x t eq_refl) as [r' ->]. exists r', x. split; [reflexivity|].
    unfold top, index. assert ((0 <=? 0) && (0 <? zlen (x :: t)) = true) as -> by (unfold zlen; cbn [length]; lia). reflexivity.
Qed.
