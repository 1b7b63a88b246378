From Coq Require Import Permutation.
From Verif Require Import Base Heap.

Section HP.
Context {A : Type} (less : A -> A -> bool).
Definition le (a b : A) : Prop := less b a = false.
Context (le_trans : forall a b c, le a b -> le b c -> le a c).
Context (less_asym : forall a b, less a b = true -> less b a = false).

Lemma upd_length i (x : A) l : length (upd i x l) = length l.
Proof. revert i. induction l; intros [|i]; cbn; auto. Qed.
Lemma nth_upd i j (x : A) l : i < length l ->
  nth_error (upd i x l) j = if Nat.eqb i j then Some x else nth_error l j.
Proof.
  revert i j. induction l; intros [|i] [|j] H; cbn in *; try lia; auto.
  apply IHl. lia.
Qed.
Lemma upd_app_l i (x : A) p q : i < length p -> upd i x (p ++ q) = upd i x p ++ q.
Proof. revert i. induction p; intros [|i] H; cbn in *; try lia; auto. rewrite IHp by lia. reflexivity. Qed.
Lemma swap_length i j (l : list A) : length (swap i j l) = length l.
Proof. unfold swap. destruct (nth_error l i), (nth_error l j); auto. rewrite !upd_length. reflexivity. Qed.
Lemma nth_swap i j k (l : list A) : i < length l -> j < length l ->
  nth_error (swap i j l) k =
  if Nat.eqb k i then nth_error l j else if Nat.eqb k j then nth_error l i else nth_error l k.
Proof.
  intros Hi Hj. unfold swap.
  destruct (nth_error l i) as [a|] eqn:Ea; [|apply nth_error_None in Ea; lia].
  destruct (nth_error l j) as [b|] eqn:Eb; [|apply nth_error_None in Eb; lia].
  rewrite nth_upd by (rewrite upd_length; lia). rewrite nth_upd by lia.
  destruct (Nat.eqb_spec j k), (Nat.eqb_spec i k), (Nat.eqb_spec k i), (Nat.eqb_spec k j); subst; try lia; congruence.
Qed.
Lemma swap_app_l i j (p q : list A) : i < length p -> j < length p -> swap i j (p ++ q) = swap i j p ++ q.
Proof.
  intros Hi Hj. unfold swap. rewrite !nth_error_app1 by lia.
  destruct (nth_error p i) eqn:E1; [|apply nth_error_None in E1; lia].
  destruct (nth_error p j) eqn:E2; [|apply nth_error_None in E2; lia].
  rewrite upd_app_l by lia. rewrite upd_app_l by (rewrite upd_length; lia). reflexivity.
Qed.
Lemma swap_perm i j (l : list A) : Permutation (swap i j l) l.
Proof.
  destruct (Nat.lt_ge_cases i (length l)) as [Hi|Hi].
  2:{ unfold swap. rewrite (proj2 (nth_error_None l i)) by lia. reflexivity. }
  destruct (Nat.lt_ge_cases j (length l)) as [Hj|Hj].
  2:{ unfold swap. rewrite (proj2 (nth_error_None l j)) by lia. destruct (nth_error l i); reflexivity. }
  symmetry. apply Permutation_nth_error. split; [symmetry; apply swap_length|].
  exists (fun k => if Nat.eqb k i then j else if Nat.eqb k j then i else k). split.
  - intros x y. repeat match goal with |- context [Nat.eqb ?a ?b] => destruct (Nat.eqb_spec a b) end; intros; subst; congruence.
  - intros k. rewrite nth_swap by lia.
    repeat match goal with |- context [Nat.eqb ?a ?b] => destruct (Nat.eqb_spec a b) end; subst; congruence.
Qed.

(** frame: only the first n elements are touched *)
Lemma less_at_app p q i j : i < length p -> j < length p -> less_at less (p ++ q) i j = less_at less p i j.
Proof. intros. unfold less_at. rewrite !nth_error_app1 by lia. reflexivity. Qed.
Lemma down_app fuel : forall p q i n, n <= length p -> i < n \/ n = 0 ->
  down less fuel (p ++ q) i n = (fst (down less fuel p i n) ++ q, snd (down less fuel p i n)).
Proof.
  induction fuel as [|fuel IH]; intros p q i n Hn Hi; cbn [down]; [reflexivity|].
  destruct (Nat.leb_spec n (2 * i + 1)); [reflexivity|].
  set (j := if Nat.ltb (2 * i + 1 + 1) n && less_at less p (2 * i + 1 + 1) (2 * i + 1) then 2 * i + 1 + 1 else 2 * i + 1).
  assert (j < n) as Hj.
  { unfold j. destruct (Nat.ltb_spec (2 * i + 1 + 1) n); cbn [andb]; [|lia].
    destruct (less_at less p (2 * i + 1 + 1) (2 * i + 1)); lia. }
  assert ((if Nat.ltb (2 * i + 1 + 1) n && less_at less (p ++ q) (2 * i + 1 + 1) (2 * i + 1) then 2 * i + 1 + 1 else 2 * i + 1) = j) as ->.
  { unfold j. destruct (Nat.ltb_spec (2 * i + 1 + 1) n); cbn [andb]; [|reflexivity]. rewrite less_at_app by lia. reflexivity. }
  rewrite less_at_app by lia. destruct (less_at less p j i); cbn [negb]; [|reflexivity].
  rewrite swap_app_l by lia. apply IH; [rewrite swap_length; lia|lia].
Qed.
Lemma down_perm fuel : forall l i n, Permutation (fst (down less fuel l i n)) l.
Proof.
  induction fuel as [|fuel IH]; intros l i n; cbn [down]; [reflexivity|].
  destruct (Nat.leb n (2 * i + 1)); [reflexivity|].
  match goal with |- context [negb ?b] => destruct b end; cbn [negb]; [|reflexivity].
  rewrite IH. apply swap_perm.
Qed.
Lemma up_perm fuel : forall l j, Permutation (up less fuel l j) l.
Proof.
  induction fuel as [|fuel IH]; intros l j; cbn [up]; [reflexivity|].
  match goal with |- context [if ?b then _ else _] => destruct b end; [reflexivity|].
  rewrite IH. apply swap_perm.
Qed.
Lemma up_app fuel : forall p q j, j < length p -> up less fuel (p ++ q) j = up less fuel p j ++ q.
Proof.
  induction fuel as [|fuel IH]; intros p q j Hj; cbn [up]; [reflexivity|].
  assert (Nat.div (j - 1) 2 <= j) as Hi.
  { destruct j; [cbn; lia|]. pose proof (Nat.div_lt (S j - 1) 2) as Hd. destruct j; [cbn; lia|]. specialize (Hd ltac:(lia) ltac:(lia)). lia. }
  rewrite less_at_app by lia.
  match goal with |- context [if ?b then _ else _] => destruct b end; [reflexivity|].
  rewrite swap_app_l by lia. apply IH. rewrite swap_length. lia.
Qed.
Lemma down_length fuel l i n : length (fst (down less fuel l i n)) = length l.
Proof. apply Permutation_length, down_perm. Qed.
Lemma init_loop_perm k : forall l n, Permutation (init_loop less k l n) l.
Proof. induction k; intros l n; cbn [init_loop]; [reflexivity|]. rewrite IHk. apply down_perm. Qed.

(** ** heap order *)
(* parent-child pairs with parent >= lo are in order *)
Definition edge (i c : nat) : Prop := c = 2 * i + 1 \/ c = 2 * i + 2.
Definition le_at (l : list A) (i j : nat) : Prop := less_at less l j i = false.
Definition hp (lo : nat) (l : list A) : Prop :=
  forall i c, lo <= i -> edge i c -> c < length l -> le_at l i c.
Definition is_heap (l : list A) : Prop := hp 0 l.

Lemma le_at_trans l i j k : j < length l -> le_at l i j -> le_at l j k -> le_at l i k.
Proof.
  unfold le_at, less_at. intros Hj.
  destruct (nth_error l j) as [b|] eqn:E; [|apply nth_error_None in E; lia].
  destruct (nth_error l i), (nth_error l k); auto. apply (le_trans a b a0).
Qed.
Lemma less_le_at l i j : less_at less l i j = true -> le_at l i j.
Proof. unfold le_at, less_at. destruct (nth_error l i), (nth_error l j); auto; try discriminate. Qed.
Lemma le_at_swap l i j a b : i < length l -> j < length l ->
  le_at (swap i j l) a b <->
  le_at l (if Nat.eqb a i then j else if Nat.eqb a j then i else a)
          (if Nat.eqb b i then j else if Nat.eqb b j then i else b).
Proof.
  intros Hi Hj. unfold le_at, less_at. rewrite !nth_swap by lia.
  destruct (Nat.eqb a i), (Nat.eqb a j), (Nat.eqb b i), (Nat.eqb b j); reflexivity.
Qed.

Lemma down_heap : forall fuel lo l i,
  lo <= i -> length l - i <= fuel ->
  (forall a c, lo <= a -> a <> i -> edge a c -> c < length l -> le_at l a c) ->
  (forall p c, lo <= p -> edge p i -> edge i c -> c < length l -> le_at l p c) ->
  hp lo (fst (down less fuel l i (length l))).
Proof.
  induction fuel as [|fuel IH]; intros lo l i Hlo Hf H1 H2; cbn [down].
  - cbn [fst]. intros a c Ha He Hc. destruct (Nat.eq_dec a i); [unfold edge in *; lia|]. apply H1; auto.
  - destruct (Nat.leb_spec (length l) (2 * i + 1)) as [Hl|Hl].
    { cbn [fst]. intros a c Ha He Hc. destruct (Nat.eq_dec a i); [unfold edge in *; lia|]. apply H1; auto. }
    set (j := if Nat.ltb (2 * i + 1 + 1) (length l) && less_at less l (2 * i + 1 + 1) (2 * i + 1) then 2 * i + 1 + 1 else 2 * i + 1).
    assert (edge i j /\ j < length l /\ forall c, edge i c -> c < length l -> le_at l j c) as (Hej & Hj & Hmin).
    { unfold j, edge. destruct (Nat.ltb_spec (2 * i + 1 + 1) (length l)) as [H|H]; cbn [andb].
      - destruct (less_at less l (2 * i + 1 + 1) (2 * i + 1)) eqn:E.
        + split; [lia|]. split; [lia|]. intros c [->| ->] Hc.
          * apply less_le_at. exact E.
          * replace (2 * i + 1 + 1) with (2 * i + 2) by lia. unfold le_at, less_at.
            destruct (nth_error l (2 * i + 2)) as [a|]; auto.
            destruct (less a a) eqn:Ea; [|reflexivity]. rewrite (less_asym _ _ Ea) in Ea. discriminate.
        + split; [lia|]. split; [lia|]. intros c [->| ->] Hc.
          * unfold le_at, less_at. destruct (nth_error l (2 * i + 1)) as [a|]; auto.
            destruct (less a a) eqn:Ea; [|reflexivity]. rewrite (less_asym _ _ Ea) in Ea. discriminate.
          * replace (2 * i + 2) with (2 * i + 1 + 1) by lia. exact E.
      - split; [lia|]. split; [lia|]. intros c [->| ->] Hc; [|lia].
        unfold le_at, less_at. destruct (nth_error l (2 * i + 1)) as [a|]; auto.
        destruct (less a a) eqn:Ea; [|reflexivity]. rewrite (less_asym _ _ Ea) in Ea. discriminate. }
    clearbody j. destruct (less_at less l j i) eqn:Hc0; cbn [negb].
    2:{ cbn [fst]. intros a c Ha He Hc. destruct (Nat.eq_dec a i) as [->|]; [|apply H1; auto].
        eapply le_at_trans; [exact Hj|exact Hc0|]. apply Hmin; auto. }
    apply less_le_at in Hc0.
    rewrite <- (swap_length i j l). apply IH.
    + unfold edge in Hej. lia.
    + rewrite swap_length. unfold edge in Hej. lia.
    + intros a c Ha Hne He Hc. rewrite swap_length in Hc. apply le_at_swap; [unfold edge in *; lia|lia|].
      destruct (Nat.eqb_spec a i) as [->|].
      * destruct (Nat.eqb_spec c i); [unfold edge in *; lia|].
        destruct (Nat.eqb_spec c j) as [->|]; [exact Hc0|]. apply Hmin; auto.
      * destruct (Nat.eqb_spec a j); [congruence|].
        destruct (Nat.eqb_spec c i) as [->|].
        -- (* a parent of i: le a j *) apply H2; auto.
        -- destruct (Nat.eqb_spec c j) as [->|]; [unfold edge in *; lia|]. apply H1; auto.
    + intros p c Hp He1 He2 Hc. rewrite swap_length in Hc. 
      assert (p = i) as -> by (unfold edge in *; lia).
      apply le_at_swap; [unfold edge in *; lia|lia|]. rewrite Nat.eqb_refl.
      destruct (Nat.eqb_spec c i); [unfold edge in *; lia|]. destruct (Nat.eqb_spec c j); [unfold edge in *; lia|].
      apply H1; auto; unfold edge in *; lia.
Qed.

Lemma up_heap : forall fuel l j, j < length l -> j < fuel ->
  (forall a c, c <> j -> edge a c -> c < length l -> le_at l a c) ->
  (forall p c, edge p j -> edge j c -> c < length l -> le_at l p c) ->
  is_heap (up less fuel l j).
Proof.
  induction fuel as [|fuel IH]; intros l j Hj Hf H1 H2; [lia|]. cbn [up].
  set (i := Nat.div (j - 1) 2).
  destruct (Nat.eqb_spec i j) as [Hij|Hij]; cbn [orb].
  { assert (j = 0) as -> .
    { destruct j; [reflexivity|]. exfalso. unfold i in Hij. pose proof (Nat.div_le_upper_bound (S j - 1) 2 j ltac:(lia) ltac:(lia)). lia. }
    intros a c _ He Hc. apply H1; auto. unfold edge in *. lia. }
  assert (edge i j) as He0.
  { assert (j <> 0) by (intros ->; apply Hij; reflexivity).
    unfold i, edge. pose proof (Nat.div_mod (j - 1) 2 ltac:(lia)). pose proof (Nat.mod_upper_bound (j - 1) 2 ltac:(lia)). lia. }
  assert (i < j) as Hlt by (unfold edge in He0; lia).
  destruct (less_at less l j i) eqn:Hc0; cbn [negb].
  2:{ intros a c _ He Hc. destruct (Nat.eq_dec c j) as [->|]; [|apply H1; auto].
      assert (a = i) as -> by (unfold edge in *; lia). exact Hc0. }
  clearbody i. apply less_le_at in Hc0. 
  apply IH.
  - rewrite swap_length. lia.
  - lia.
  - intros a c Hne He Hc. rewrite swap_length in Hc. apply le_at_swap; [lia|lia|].
    destruct (Nat.eqb_spec c i); [congruence|].
    destruct (Nat.eqb_spec a i) as [->|].
    + destruct (Nat.eqb_spec c j) as [->|]; [exact Hc0|].
      (* sibling: le j i, le i c *)
      eapply (le_at_trans l j i c); [lia|exact Hc0|]. apply H1; auto.
    + destruct (Nat.eqb_spec a j) as [->|].
      * destruct (Nat.eqb_spec c j); [unfold edge in *; lia|]. apply H2; auto.
      * destruct (Nat.eqb_spec c j) as [->|]; [unfold edge in *; lia|]. apply H1; auto.
  - intros p c He1 He2 Hc. rewrite swap_length in Hc. apply le_at_swap; [lia|lia|].
    destruct (Nat.eqb_spec p i); [unfold edge in *; lia|]. destruct (Nat.eqb_spec p j); [unfold edge in *; lia|].
    destruct (Nat.eqb_spec c i); [unfold edge in *; lia|].
    assert (le_at l p i) as Hpi by (apply H1; auto; lia).
    destruct (Nat.eqb_spec c j) as [->|].
    + exact Hpi.
    + eapply (le_at_trans l p i c); [lia|exact Hpi|]. apply H1; auto.
Qed.

(** ** the operations *)
Lemma init_loop_heap k : forall l, hp k l -> is_heap (init_loop less k l (length l)).
Proof.
  induction k as [|k IH]; intros l H; cbn [init_loop]; [exact H|].
  set (l' := fst (down less (length l) l k (length l))).
  assert (length l = length l') as -> by (symmetry; apply down_length).
  apply IH. apply down_heap; [lia|lia| |].
  - intros a c Ha Hne He Hc. apply H; auto. lia.
  - intros p c Hp He. unfold edge in He. lia.
Qed.
Lemma heap_init_heap l : is_heap (heap_init less l (length l)) /\ Permutation (heap_init less l (length l)) l.
Proof.
  split; [|apply init_loop_perm]. apply init_loop_heap. intros i c Hi He Hc. unfold edge in He.
  pose proof (Nat.div_mod (length l) 2 ltac:(lia)). pose proof (Nat.mod_upper_bound (length l) 2 ltac:(lia)). lia.
Qed.

Lemma le_at_app p q i j : i < length p -> j < length p -> le_at (p ++ q) i j <-> le_at p i j.
Proof. intros. unfold le_at. rewrite less_at_app by lia. reflexivity. Qed.

Lemma heap_push_heap l x : is_heap l ->
  is_heap (heap_push less (l ++ [x]) (length (l ++ [x]))) /\
  Permutation (heap_push less (l ++ [x]) (length (l ++ [x]))) (l ++ [x]).
Proof.
  intros H. split; [|apply up_perm]. unfold heap_push. rewrite app_length. cbn [length].
  apply up_heap; [rewrite app_length; cbn; lia|lia| |].
  - intros a c Hne He Hc. rewrite app_length in Hc. cbn in Hc. unfold edge in He.
    apply le_at_app; [lia|lia|]. apply H; [lia|exact He|lia].
  - intros p c He1 He2 Hc. rewrite app_length in Hc. cbn in Hc. unfold edge in *. lia.
Qed.

Lemma heap_top_min l : is_heap l -> forall i, i < length l -> le_at l 0 i.
Proof.
  intros H i. induction i as [i IH] using (well_founded_induction Wf_nat.lt_wf). intros Hi.
  destruct (Nat.eq_dec i 0) as [->|].
  - unfold le_at, less_at. destruct (nth_error l 0) as [a|]; auto.
    destruct (less a a) eqn:Ea; [|reflexivity]. rewrite (less_asym _ _ Ea) in Ea. discriminate.
  - set (p := Nat.div (i - 1) 2).
    assert (edge p i) as He.
    { unfold p, edge. pose proof (Nat.div_mod (i - 1) 2 ltac:(lia)). pose proof (Nat.mod_upper_bound (i - 1) 2 ltac:(lia)). lia. }
    eapply (le_at_trans l 0 p i); [unfold edge in He; lia|apply IH; unfold edge in He; lia|].
    apply H; [lia|exact He|exact Hi].
Qed.
Lemma heap_top_min' l x y : is_heap l -> nth_error l 0 = Some x -> In y l -> le x y.
Proof.
  intros H Hx Hy. destruct (In_nth_error _ _ Hy) as [i Ei].
  assert (i < length l) as Hi by (apply nth_error_Some; congruence).
  pose proof (heap_top_min l H i Hi) as Hm. unfold le_at, less_at in Hm. rewrite Hx, Ei in Hm. exact Hm.
Qed.

Lemma swap_first_last (x : A) l y : swap 0 (S (length l)) (x :: l ++ [y]) = (y :: l) ++ [x].
Proof.
  unfold swap. cbn [nth_error]. rewrite nth_error_app2 by lia. replace (length l - length l) with 0 by lia. cbn.
  f_equal. clear. induction l; cbn; congruence.
Qed.
(* pop puts the top at the end and restores the heap in front *)
Lemma heap_pop_heap l x t : is_heap l -> l = x :: t ->
  exists h, heap_pop less l (length l) = h ++ [x] /\ is_heap h /\ Permutation h t.
Proof.
  intros H ->. unfold heap_pop. cbn [length]. replace (S (length t) - 1) with (length t) by lia.
  destruct t as [|y0 t0] eqn:Et.
  { exists []. cbn. split; [reflexivity|]. split; [intros i c _ _ Hc; cbn in Hc; lia|reflexivity]. }
  rewrite <- Et in *. destruct (exists_last (l := t)) as (m & y & Em); [congruence|].
  assert (length t = S (length m)) as Hlen by (rewrite Em, app_length; cbn; lia).
  assert (fst (down less (S (length t)) (swap 0 (length t) (x :: t)) 0 (length t)) =
    fst (down less (S (S (length m))) (y :: m) 0 (length (y :: m))) ++ [x]) as ->.
  { rewrite Hlen. replace (x :: t) with (x :: m ++ [y]) by congruence. rewrite swap_first_last.
    rewrite down_app by (cbn [length]; lia). reflexivity. }
  exists (fst (down less (S (S (length m))) (y :: m) 0 (length (y :: m)))). split; [reflexivity|].
  split.
  - apply down_heap; [lia|cbn [length]; lia| |].
    + intros a c _ Hne He Hc. cbn [length] in Hc.
      assert (le_at (x :: t) a c) as Hac by (apply H; [lia|exact He|cbn [length]; lia]).
      rewrite Em in Hac. unfold le_at, less_at in *.
      destruct a as [|a]; [congruence|]. destruct c as [|c]; [unfold edge in He; lia|].
      cbn [nth_error] in *. rewrite !nth_error_app1 in Hac by (unfold edge in He; lia). exact Hac.
    + intros p c _ He. unfold edge in He. lia.
  - rewrite down_perm, Em. apply Permutation_cons_append.
Qed.
End HP.
