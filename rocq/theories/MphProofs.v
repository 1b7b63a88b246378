(** Proofs about Mph.v. *)
From Coq Require Import Permutation Sorting.Sorted ZifyBool.
From Verif Require Import Base BaseLemmas GoMap Mph.
Local Open Scope Z_scope.

Definition get (l : list Z) (i : Z) : Z := nth (Z.to_nat i) l 0.
Definition cnt (l : list Z) : nat := length (filter (Z.eqb unused) l).
Lemma modu_ok x n : n <> 0 -> modu x n = Ret (x mod n).
Proof. intros H. unfold modu. destruct (n =? 0) eqn:E; [lia|reflexivity]. Qed.
Lemma index_get l i : 0 <= i < zlen l -> index l i = Ret (get l i).
Proof. intros H. apply index_nth. exact H. Qed.
Lemma index_ret {A} (l : list A) i d : 0 <= i < zlen l -> index l i = Ret (nth (Z.to_nat i) l d).
Proof. intros H. apply index_nth. exact H. Qed.

Lemma set_index_split {A} (l : list A) i v : 0 <= i < zlen l ->
  exists l1 x l2, l = l1 ++ x :: l2 /\ zlen l1 = i /\ set_index l i v = Ret (l1 ++ v :: l2).
Proof.
  intros H. unfold set_index. destruct ((0 <=? i) && (i <? zlen l)) eqn:E; [|lia].
  destruct (nth_error l (Z.to_nat i)) as [x|] eqn:En; [|apply nth_error_None in En; unfold zlen in H; lia].
  exists (firstn (Z.to_nat i) l), x, (skipn (Z.to_nat i + 1) l). split; [|split].
  - destruct (nth_error_split l _ En) as (a & b & -> & Hl). rewrite <- Hl. rewrite firstn_app, Nat.sub_diag, firstn_all. cbn [firstn]. rewrite app_nil_r.
    rewrite skipn_app, skipn_all2 by lia. replace (length a + 1 - length a)%nat with 1%nat by lia. reflexivity.
  - unfold zlen in *. rewrite firstn_length. lia.
  - reflexivity.
Qed.
Lemma nth_mid {A} (l1 l2 : list A) x d : nth (length l1) (l1 ++ x :: l2) d = x.
Proof. rewrite app_nth2 by lia. rewrite Nat.sub_diag. reflexivity. Qed.
Lemma nth_other {A} (l1 l2 : list A) x y d j : j <> length l1 -> nth j (l1 ++ x :: l2) d = nth j (l1 ++ y :: l2) d.
Proof.
  intros H. destruct (lt_dec j (length l1)) as [Hl|Hl]; [rewrite !app_nth1 by exact Hl; reflexivity|].
  rewrite !app_nth2 by lia. destruct (j - length l1)%nat as [|m] eqn:E; [lia|reflexivity].
Qed.
Lemma set_index_ok l i v : 0 <= i < zlen l -> exists l', set_index l i v = Ret l' /\ zlen l' = zlen l
  /\ (forall j, 0 <= j -> get l' j = if j =? i then v else get l j)
  /\ (get l i = unused -> v <> unused -> S (cnt l') = cnt l).
Proof.
  intros H. destruct (set_index_split l i v H) as (l1 & x & l2 & E & Hl & Es). exists (l1 ++ v :: l2). split; [exact Es|].
  assert (Z.to_nat i = length l1) as Hi by (unfold zlen in Hl; lia). split; [|split].
  - rewrite E, !zlen_app, !zlen_cons. lia.
  - intros j Hj. unfold get. destruct (j =? i) eqn:Ej.
    + assert (j = i) by lia. subst j. rewrite Hi. apply nth_mid.
    + rewrite E. apply nth_other. lia.
  - unfold get, cnt. rewrite Hi, E, nth_mid. intros -> Hv. rewrite !filter_app, !app_length. cbn [filter]. rewrite Z.eqb_refl. destruct (Z.eqb_spec unused v); [congruence|]. cbn [length]. lia.
Qed.
Lemma cnt_repeat {A} (l : list A) : cnt (map (fun _ => unused) l) = length l.
Proof. unfold cnt. induction l as [|x l IH]; [reflexivity|]. cbn [map filter]. rewrite Z.eqb_refl. cbn [length]. lia. Qed.
Lemma cnt_zero l : cnt l = O -> Forall (fun v => v <> unused) l.
Proof.
  unfold cnt. induction l as [|x l IH]; intros H; [constructor|]. cbn [filter] in H. destruct (Z.eqb_spec unused x) as [E|E]; [discriminate|]. constructor; [congruence|apply IH; exact H].
Qed.

(** hash *)
Lemma lxor_u32 a b : 0 <= a < 2 ^ 32 -> 0 <= b < 2 ^ 32 -> 0 <= Z.lxor a b < 2 ^ 32.
Proof.
  intros Ha Hb. assert (0 <= Z.lxor a b) as Hn by (apply Z.lxor_nonneg; tauto). split; [exact Hn|].
  destruct (Z.eq_dec (Z.lxor a b) 0) as [->|Hz]; [lia|]. apply Z.log2_lt_pow2; [lia|].
  eapply Z.le_lt_trans; [apply Z.log2_lxor; lia|]. apply Z.max_lub_lt.
  - destruct (Z.eq_dec a 0) as [->|]; [cbn; lia|]. apply Z.log2_lt_pow2; lia.
  - destruct (Z.eq_dec b 0) as [->|]; [cbn; lia|]. apply Z.log2_lt_pow2; lia.
Qed.

Section Words.
Context (words : list bytes).
Notation n := (zlen words).
Context (Hn : 1 <= n < 2 ^ 32).
Definition word (k : Z) : bytes := DictGet words k.
Definition h0 (k : Z) : Z := hash 0 (word k) mod n.
Lemma h0_range k : 0 <= h0 k < n. Proof. apply Z.mod_pos_bound. lia. Qed.
Lemma size_eq : wrap32 (DictSize words) = n. Proof. unfold wrap32, DictSize. apply Z.mod_small. lia. Qed.

(** Step 1 *)
Definition keys (i : nat) : list Z := map Z.of_nat (seq 0 i).
Definition bucket_of (i : nat) (b : nat) : list Z := filter (fun k => h0 k =? Z.of_nat b) (keys i).
Definition buckets_of (i : nat) : list (list Z) := map (bucket_of i) (seq 0 (length words)).
Lemma keys_S i : keys (S i) = keys i ++ [Z.of_nat i].
Proof. unfold keys. rewrite seq_S, map_app. reflexivity. Qed.
Lemma in_keys i k : In k (keys i) <-> 0 <= k < Z.of_nat i.
Proof. unfold keys. rewrite in_map_iff. setoid_rewrite in_seq. split; [intros (j & <- & H); lia|]. intros H. exists (Z.to_nat k). split; [lia|lia]. Qed.
Lemma buckets_len i : length (buckets_of i) = length words.
Proof. unfold buckets_of. rewrite map_length, seq_length. reflexivity. Qed.
Lemma nth_buckets i j : (j < length words)%nat -> nth j (buckets_of i) [] = bucket_of i j.
Proof. intros Hj. unfold buckets_of. rewrite (nth_indep _ _ (bucket_of i 0)) by (rewrite map_length, seq_length; exact Hj). rewrite map_nth, seq_nth by exact Hj. reflexivity. Qed.
Lemma fill_ok : forall ws pre, words = pre ++ ws -> fill n (zlen pre) ws (buckets_of (length pre)) = Ret (buckets_of (length words)).
Proof.
  induction ws as [|w ws IH]; intros pre E; cbn [fill].
  - rewrite app_nil_r in E. rewrite E. reflexivity.
  - rewrite modu_ok by lia. cbn [bind]. assert (hash 0 w mod n = h0 (zlen pre)) as ->.
    { unfold h0, word, DictGet. destruct ((zlen pre <? 0) || (n <=? zlen pre)) eqn:Eb; [unfold zlen in Eb; rewrite E, app_length in Eb; cbn [length] in Eb; lia|].
      unfold zlen at 2. rewrite Nat2Z.id, E, nth_mid. reflexivity. }
    pose proof (h0_range (zlen pre)) as Hr. set (d := h0 (zlen pre)) in *.
    assert (zlen (buckets_of (length pre)) = n) as Hz by (unfold buckets_of, zlen; rewrite map_length, seq_length; reflexivity).
    rewrite (index_ret _ _ []) by lia. cbn [bind].
    destruct (set_index_split (buckets_of (length pre)) d (nth (Z.to_nat d) (buckets_of (length pre)) [] ++ [wrap32 (zlen pre)])) as (l1 & x & l2 & E1 & El & Es); [lia|].
    rewrite Es. cbn [bind].
    assert (l1 ++ (nth (Z.to_nat d) (buckets_of (length pre)) [] ++ [wrap32 (zlen pre)]) :: l2 = buckets_of (length (pre ++ [w]))) as ->.
    { apply nth_ext with (d := @nil Z) (d' := @nil Z).
      - apply (f_equal (@length (list Z))) in E1. rewrite app_length in E1. rewrite app_length. cbn [length] in *. rewrite buckets_len in *. lia.
      - intros j Hj. assert (length (l1 ++ (nth (Z.to_nat d) (buckets_of (length pre)) [] ++ [wrap32 (zlen pre)]) :: l2) = length words) as Hlen.
        { apply (f_equal (@length (list Z))) in E1. rewrite app_length in E1. rewrite app_length. cbn [length] in *. rewrite buckets_len in E1. lia. }
        rewrite Hlen in Hj. rewrite (nth_buckets (length (pre ++ [w]))) by exact Hj.
        unfold bucket_of. rewrite app_length. cbn [length]. rewrite Nat.add_1_r, keys_S, filter_app. cbn [filter].
        assert (nth j (buckets_of (length pre)) [] = filter (fun k => h0 k =? Z.of_nat j) (keys (length pre))) as Ej.
        { apply nth_buckets. exact Hj. }
        rewrite <- Ej. change (Z.of_nat (length pre)) with (zlen pre). fold d.
        destruct (Nat.eq_dec j (Z.to_nat d)) as [->|Hne].
        + assert (Z.to_nat d = length l1) as Hd by (unfold zlen in El; lia). rewrite Hd at 1. rewrite nth_mid. destruct (d =? Z.of_nat (Z.to_nat d)) eqn:Ed; [|lia]. do 2 f_equal.
          unfold wrap32. apply Z.mod_small. unfold zlen in *. rewrite E, app_length in Hn. cbn [length] in Hn. lia.
        + rewrite (nth_other l1 l2 _ x) by (unfold zlen in El; lia). rewrite <- E1. destruct (d =? Z.of_nat j) eqn:Ed; [lia|]. rewrite app_nil_r. reflexivity. }
    specialize (IH (pre ++ [w])). replace (zlen pre + 1) with (zlen (pre ++ [w])) by (rewrite zlen_app; reflexivity). apply IH. rewrite <- app_assoc. exact E.
Qed.
Lemma fill_all : fill (wrap32 (DictSize words)) 0 words (repeat [] (Z.to_nat (wrap32 (DictSize words)))) = Ret (buckets_of (length words)).
Proof.
  rewrite size_eq. pose proof (fill_ok words [] eq_refl) as H. change (zlen (@nil bytes)) with 0 in H. cbn [length] in H. rewrite <- H.
  assert (repeat [] (Z.to_nat n) = buckets_of 0) as ->; [|reflexivity].
  clear H. unfold buckets_of, bucket_of, keys, zlen. rewrite Nat2Z.id. cbn [seq map filter]. generalize 0%nat. induction (length words) as [|m IH]; intros s; [reflexivity|]. cbn [repeat seq map]. f_equal. apply IH.
Qed.

(** What is needed of the buckets. *)
Record good (bs : list (list Z)) : Prop := {
  g_nodup : NoDup (concat bs);
  g_keys : forall k, In k (concat bs) <-> 0 <= k < n;
  g_same : forall B k k', In B bs -> In k B -> In k' B -> h0 k = h0 k';
  g_diff : forall B B' k k', In B bs -> In B' bs -> In k B -> In k' B' -> h0 k = h0 k' -> In k B'
}.
Lemma NoDup_app_intro {A} (a b : list A) : NoDup a -> NoDup b -> (forall x, In x a -> ~ In x b) -> NoDup (a ++ b).
Proof.
  induction a as [|x a IH]; intros Ha Hb Hd; [exact Hb|]. inversion Ha; subst. cbn [app]. constructor.
  - rewrite in_app_iff. intros [H|H]; [contradiction|]. apply (Hd x); [left; reflexivity|exact H].
  - apply IH; [assumption|exact Hb|]. intros y Hy. apply Hd. right. exact Hy.
Qed.
Lemma concat_disjoint : forall bl, NoDup bl -> NoDup (concat (map (bucket_of (length words)) bl)).
Proof.
  assert (NoDup (keys (length words))) as Hk by (unfold keys; apply FinFun.Injective_map_NoDup; [intros x y; lia|apply seq_NoDup]).
  induction bl as [|b bl IH]; intros H; [constructor|]. inversion H; subst. cbn [map concat]. apply NoDup_app_intro.
  - apply NoDup_filter. exact Hk.
  - apply IH. assumption.
  - intros x Hx Hx'. apply in_concat in Hx'. destruct Hx' as (B & HB & HxB). apply in_map_iff in HB. destruct HB as (b' & <- & Hb').
    apply filter_In in Hx. apply filter_In in HxB. assert (b = b') by lia. subst. contradiction.
Qed.
Lemma buckets_good : good (buckets_of (length words)).
Proof.
  constructor.
  - apply concat_disjoint. apply seq_NoDup.
  - intros k. rewrite in_concat. split.
    + intros (B & HB & Hk). apply in_map_iff in HB. destruct HB as (b & <- & _). apply filter_In in Hk. destruct Hk as [Hk _]. apply in_keys in Hk. exact Hk.
    + intros Hk. exists (bucket_of (length words) (Z.to_nat (h0 k))). pose proof (h0_range k). split.
      * apply in_map. apply in_seq. unfold zlen in *. lia.
      * apply filter_In. split; [apply in_keys; exact Hk|lia].
  - intros B k k' HB Hk Hk'. apply in_map_iff in HB. destruct HB as (b & <- & _). apply filter_In in Hk. apply filter_In in Hk'. lia.
  - intros B B' k k' HB HB' Hk Hk' E. apply in_map_iff in HB. destruct HB as (b & <- & _). apply in_map_iff in HB'. destruct HB' as (b' & <- & _).
    apply filter_In in Hk. apply filter_In in Hk'. apply filter_In. split; [tauto|]. rewrite E. tauto.
Qed.
Lemma good_perm bs bs' : Permutation bs bs' -> good bs -> good bs'.
Proof.
  intros HP [H1 H2 H3 H4]. assert (Permutation (concat bs) (concat bs')) as HPc.
  { clear -HP. induction HP; cbn [concat].
    - constructor.
    - apply Permutation_app_head. exact IHHP.
    - rewrite !app_assoc. apply Permutation_app_tail. apply Permutation_app_comm.
    - etransitivity; eassumption. }
  assert (forall B, In B bs' -> In B bs) as Hin by (intros B HB; eapply Permutation_in; [apply Permutation_sym; exact HP|exact HB]).
  constructor.
  - eapply Permutation_NoDup; eassumption.
  - intros k. rewrite <- H2. split; intros H; (eapply Permutation_in; [|exact H]); [apply Permutation_sym|]; exact HPc.
  - intros B k k' HB. apply H3. apply Hin. exact HB.
  - intros B B' k k' HB HB'. apply H4; apply Hin; assumption.
Qed.

(** The search for a displacement. *)
Definition slot_of (d k : Z) : Z := hash d (word k) mod n.
Lemma slot_range d k : 0 <= slot_of d k < n. Proof. apply Z.mod_pos_bound. lia. Qed.
Lemma existsb_In x l : existsb (Z.eqb x) l = true <-> In x l.
Proof. rewrite existsb_exists. split; [intros (y & Hy & E); assert (x = y) by lia; subst; exact Hy|]. intros H. exists x. split; [exact H|lia]. Qed.
Lemma firstn_snoc {A} (l : list A) i d : (i < length l)%nat -> firstn (S i) l = firstn i l ++ [nth i l d].
Proof. revert i. induction l as [|x l IH]; intros i H; cbn [length] in H; [lia|]. destruct i as [|i]; [reflexivity|]. cbn [firstn nth app]. f_equal. apply IH. lia. Qed.
Lemma find_slots_ok vals bucket : zlen vals = n -> forall fuel item d,
  0 <= item <= zlen bucket -> 0 <= d < 2 ^ 32 ->
  let slots := map (slot_of d) (firstn (Z.to_nat item) bucket) in
  NoDup slots -> (forall s, In s slots -> get vals s = unused) ->
  find_slots fuel words n vals bucket item d slots = NoFuel
  \/ exists d', 0 <= d' < 2 ^ 32 /\ (d + Z.of_nat fuel < 2 ^ 32 -> d <= d' <= d + Z.of_nat fuel)
       /\ find_slots fuel words n vals bucket item d slots = Ret (d', map (slot_of d') bucket)
       /\ NoDup (map (slot_of d') bucket) /\ forall s, In s (map (slot_of d') bucket) -> get vals s = unused.
Proof.
  intros Hv. induction fuel as [|fuel IH]; intros item d Hi Hd slots Hnd Hun; cbn [find_slots]; [left; reflexivity|].
  destruct (item <? zlen bucket) eqn:E.
  - rewrite index_get by lia. cbn [bind]. rewrite modu_ok by lia. cbn [bind]. fold (word (get bucket item)). fold (slot_of d (get bucket item)).
    pose proof (slot_range d (get bucket item)) as Hs. rewrite (index_get vals) by lia. cbn [bind].
    destruct (negb (get vals (slot_of d (get bucket item)) =? unused) || existsb (Z.eqb (slot_of d (get bucket item))) slots) eqn:Eb.
    + assert (0 <= wrap32 (d + 1) < 2 ^ 32) as Hw by (apply Z.mod_pos_bound; lia).
      destruct (IH 0 (wrap32 (d + 1))) as [H|(d' & H1 & H2 & H3)]; [lia|exact Hw|cbn; constructor|intros s []|left; exact H|].
      right. exists d'. split; [exact H1|]. split; [|exact H3]. intros Hf. unfold wrap32 in H2. rewrite Z.mod_small in H2 by lia. lia.
    + apply orb_false_iff in Eb. destruct Eb as [Eb1 Eb2].
      assert (slots ++ [slot_of d (get bucket item)] = map (slot_of d) (firstn (Z.to_nat (item + 1)) bucket)) as E1.
      { replace (Z.to_nat (item + 1)) with (S (Z.to_nat item)) by lia. rewrite (firstn_snoc _ _ 0) by (unfold zlen in *; lia). rewrite map_app. reflexivity. }
      rewrite E1. destruct (IH (item + 1) d) as [H|(d' & H1 & H2 & H3)]; [lia|exact Hd| | |left; exact H|].
      * rewrite <- E1. apply NoDup_app_intro; [exact Hnd|constructor; [intros []|constructor]|]. intros x Hx [<-|[]]. apply existsb_In in Hx. congruence.
      * intros s Hin. rewrite <- E1 in Hin. apply in_app_iff in Hin. destruct Hin as [Hin|[<-|[]]]; [apply Hun; exact Hin|lia].
      * right. exists d'. split; [exact H1|]. split; [lia|exact H3].
  - assert (firstn (Z.to_nat item) bucket = bucket) as E1 by (apply firstn_all2; unfold zlen in *; lia). unfold slots in *. rewrite E1 in *.
    right. exists d. split; [exact Hd|]. split; [lia|]. split; [reflexivity|]. split; assumption.
Qed.

(** Filling the slots of a bucket. *)
Lemma set_values_ok f : forall bucket pre vals, zlen vals = n ->
  NoDup (map f bucket) -> (forall k, In k bucket -> 0 <= f k < n) -> (forall k, In k bucket -> get vals (f k) = unused) -> (forall k, In k bucket -> k <> unused) ->
  exists vals', set_values vals (map f (pre ++ bucket)) bucket (zlen pre) = Ret vals' /\ zlen vals' = n
    /\ (forall k, In k bucket -> get vals' (f k) = k)
    /\ (forall j, 0 <= j -> (forall k, In k bucket -> f k <> j) -> get vals' j = get vals j)
    /\ (cnt vals' + length bucket = cnt vals)%nat.
Proof.
  induction bucket as [|k bucket IH]; intros pre vals Hv Hnd Hr Hun Hne; cbn [set_values].
  - exists vals. split; [reflexivity|]. split; [exact Hv|]. split; [intros k []|]. split; [reflexivity|cbn [length]; lia].
  - assert (index (map f (pre ++ k :: bucket)) (zlen pre) = Ret (f k)) as ->.
    { rewrite map_app. cbn [map]. replace (zlen pre) with (zlen (map f pre)) by (unfold zlen; rewrite map_length; reflexivity). apply index_app_0. }
    cbn [bind]. cbn [map] in Hnd. inversion Hnd as [|? ? Hnin Hnd']; subst.
    pose proof (Hr k (or_introl eq_refl)) as Hk. destruct (set_index_ok vals (f k) k) as (v1 & E1 & Hl1 & Hg1 & Hc1); [lia|]. rewrite E1. cbn [bind].
    assert (forall j, In j bucket -> f j <> f k) as Hneq by (intros j Hj E; apply Hnin; rewrite <- E; apply in_map; exact Hj).
    destruct (IH (pre ++ [k]) v1) as (v2 & E2 & Hl2 & Hg2 & Ho2 & Hc2); [lia|exact Hnd'|intros j Hj; apply Hr; right; exact Hj| |intros j Hj; apply Hne; right; exact Hj|].
    { intros j Hj. pose proof (Hr j (or_intror Hj)). rewrite Hg1 by lia. specialize (Hneq j Hj). destruct (f j =? f k) eqn:E; [lia|]. apply Hun. right. exact Hj. }
    exists v2. rewrite <- app_assoc in E2. cbn [app] in E2. replace (zlen pre + 1) with (zlen (pre ++ [k])) by (rewrite zlen_app; reflexivity). split; [exact E2|]. split; [exact Hl2|]. split; [|split].
    + intros j [<-|Hj]; [|apply Hg2; exact Hj]. rewrite Ho2; [|lia|exact Hneq]. rewrite Hg1 by lia. rewrite Z.eqb_refl. reflexivity.
    + intros j Hj Hd. rewrite Ho2 by (try exact Hj; intros x Hx; apply Hd; right; exact Hx). rewrite Hg1 by exact Hj. specialize (Hd k (or_introl eq_refl)). destruct (j =? f k) eqn:E; [lia|reflexivity].
    + cbn [length]. specialize (Hc1 (Hun k (or_introl eq_refl)) (Hne k (or_introl eq_refl))). lia.
Qed.

(** The invariant: keys of the buckets done are found. *)
Definition found (aux vals : list Z) (k : Z) : Prop :=
  exists s, 0 <= s < n /\ get vals s = k /\ ((0 <= get aux (h0 k) /\ slot_of (get aux (h0 k)) k = s) \/ get aux (h0 k) = - s - 1).
Record inv (done : list (list Z)) (aux vals : list Z) : Prop := {
  v_aux : zlen aux = n;
  v_vals : zlen vals = n;
  v_range : forall j, 0 <= j < n -> - n <= get aux j < 2 ^ 31;
  v_found : forall k, In k (concat done) -> found aux vals k;
  v_cnt : (cnt vals + length (concat done) = length words)%nat;
  v_content : forall j, 0 <= j < n -> get vals j = unused \/ 0 <= get vals j < n
}.
Lemma to_i32_small x : - 2 ^ 31 <= x < 2 ^ 31 -> to_i32 x = x.
Proof. intros H. unfold to_i32. rewrite Z.mod_small by lia. lia. Qed.

Lemma inv_add done rest B aux vals f a : good (done ++ B :: rest) -> n <= 2 ^ 31 -> inv done aux vals -> B <> [] ->
  - n <= a < 2 ^ 31 ->
  NoDup (map f B) -> (forall k, In k B -> 0 <= f k < n) -> (forall k, In k B -> get vals (f k) = unused) ->
  (forall k, In k B -> (0 <= a /\ slot_of a k = f k) \/ a = - f k - 1) ->
  forall k0, In k0 B -> exists aux' vals', set_index aux (h0 k0) a = Ret aux' /\ set_values vals (map f B) B 0 = Ret vals' /\ inv (done ++ [B]) aux' vals'.
Proof.
  intros HG Hn31 [I1 I2 I3 I4 I5 I6] HB Ha Hnd Hr Hun Hf k0 Hk0. pose proof (h0_range k0) as Hh.
  destruct (set_index_ok aux (h0 k0) a) as (aux' & E1 & Hl1 & Hg1 & _); [lia|].
  assert (forall k, In k B -> 0 <= k < n) as Hkr by (intros k Hk; apply (g_keys _ HG); rewrite concat_app; cbn [concat]; rewrite !in_app_iff; tauto).
  assert (forall k, In k B -> k <> unused) as Hne by (intros k Hk; specialize (Hkr k Hk); unfold unused; lia).
  destruct (set_values_ok f B [] vals I2 Hnd Hr Hun Hne) as (vals' & E2 & Hl2 & Hg2 & Ho2 & Hc2). exists aux', vals'. split; [exact E1|]. split; [exact E2|].
  assert (In B (done ++ B :: rest)) as HinB by (apply in_or_app; right; left; reflexivity).
  constructor.
  - lia.
  - exact Hl2.
  - intros j Hj. rewrite Hg1 by lia. destruct (j =? h0 k0); [exact Ha|apply I3; exact Hj].
  - intros k Hk. rewrite concat_app in Hk. cbn [concat] in Hk. rewrite app_nil_r in Hk. apply in_app_iff in Hk. destruct Hk as [Hk|Hk].
    + destruct (I4 k Hk) as (s & Hs & Hgs & Ha'). exists s. split; [exact Hs|].
      assert (h0 k <> h0 k0) as Hh0.
      { intros E. apply in_concat in Hk. destruct Hk as (B' & HB' & HkB').
        assert (In k B) as HkB by (apply (g_diff _ HG B' B k k0); try assumption; apply in_or_app; left; exact HB').
        pose proof (g_nodup _ HG) as Hndc. rewrite concat_app in Hndc. cbn [concat] in Hndc. revert Hndc. clear -HB' HkB' HkB. intros Hndc.
        assert (In k (concat done)) as Hin by (apply in_concat; eauto). induction (concat done) as [|x l IH]; [destruct Hin|]. cbn [app] in Hndc. inversion Hndc; subst. destruct Hin as [->|Hin]; [|apply IH; assumption].
        apply H1. rewrite !in_app_iff. tauto. }
      split.
      * rewrite Ho2; [exact Hgs|lia|]. intros j Hj E. specialize (Hun j Hj). rewrite E, Hgs in Hun. pose proof (g_keys _ HG k) as Hkk. rewrite concat_app, in_app_iff in Hkk. assert (0 <= k < n) by (apply Hkk; left; exact Hk). unfold unused in Hun. lia.
      * pose proof (h0_range k). rewrite Hg1 by lia. destruct (h0 k =? h0 k0) eqn:E; [lia|exact Ha'].
    + exists (f k). split; [apply Hr; exact Hk|]. split; [apply Hg2; exact Hk|]. pose proof (h0_range k). rewrite Hg1 by lia. rewrite (g_same _ HG B k k0 HinB Hk Hk0), Z.eqb_refl. apply Hf. exact Hk.
  - rewrite concat_app. cbn [concat]. rewrite app_nil_r, app_length. lia.
  - intros j Hj. destruct (in_dec Z.eq_dec j (map f B)) as [Hin|Hin].
    + apply in_map_iff in Hin. destruct Hin as (k & <- & Hk). right. rewrite Hg2 by exact Hk. apply Hkr. exact Hk.
    + rewrite Ho2; [apply I6; exact Hj|lia|]. intros k Hk E. apply Hin. rewrite <- E. apply in_map. exact Hk.
Qed.

Definition big_first (bs : list (list Z)) : Prop := StronglySorted (fun a b => zlen b <= zlen a) bs.

Lemma place_big_ok fuel : n <= 2 ^ 31 -> Z.of_nat fuel < 2 ^ 31 - 1 -> forall bs done aux vals, good (done ++ bs) -> inv done aux vals ->
  place_big fuel words n aux vals bs = NoFuel
  \/ exists aux' vals' done' rest, bs = done' ++ rest /\ place_big fuel words n aux vals bs = Ret (aux', vals', rest) /\ inv (done ++ done') aux' vals'
       /\ (rest = [] \/ exists B r, rest = B :: r /\ zlen B <= 1).
Proof.
  intros Hn31 Hf. induction bs as [|B rest IH]; intros done aux vals HG HI; cbn [place_big].
  - right. exists aux, vals, [], []. rewrite (app_nil_r done). auto.
  - destruct (zlen B <=? 1) eqn:EB.
    { right. exists aux, vals, [], (B :: rest). rewrite (app_nil_r done). split; [reflexivity|]. split; [reflexivity|]. split; [exact HI|]. right. exists B, rest. split; [reflexivity|lia]. }
    change (@nil Z) with (map (slot_of 1) (firstn (Z.to_nat 0) B)).
    destruct (find_slots_ok vals B (v_vals _ _ _ HI) fuel 0 1) as [->|(d & Hd1 & Hd2 & -> & Hd3 & Hd4)]; [pose proof (zlen_nonneg B); lia|lia|constructor|intros s []|left; reflexivity|].
    cbn [bind]. assert (exists k0 B', B = k0 :: B') as (k0 & B' & EBk) by (destruct B as [|k0 B']; [change (zlen (@nil Z)) with 0 in EB; lia|eauto]).
    assert (index B 0 = Ret k0) as -> by (rewrite EBk; unfold index; rewrite zlen_cons; pose proof (zlen_nonneg B'); destruct ((0 <=? 0) && (0 <? 1 + zlen B')) eqn:E; [reflexivity|lia]).
    cbn [bind]. rewrite modu_ok by lia. cbn [bind]. fold (word k0). fold (h0 k0).
    rewrite (to_i32_small d) by lia.
    destruct (inv_add done rest B aux vals (slot_of d) d HG Hn31 HI) with (k0 := k0) as (aux' & vals' & E1 & E2 & HI'); [rewrite EBk; discriminate|lia|exact Hd3|intros; apply slot_range|intros k Hk; apply Hd4; apply in_map; exact Hk|intros k Hk; left; split; [lia|reflexivity]|rewrite EBk; left; reflexivity|].
    rewrite E1. cbn [bind]. rewrite E2. cbn [bind].
    destruct (IH (done ++ [B]) aux' vals') as [H|(aux2 & vals2 & done' & rest' & H1 & H2 & H3 & H4)]; [rewrite <- app_assoc; exact HG|exact HI'|left; exact H|].
    right. exists aux2, vals2, (B :: done'), rest'. split; [rewrite H1; reflexivity|]. split; [exact H2|]. split; [|exact H4]. rewrite <- app_assoc in H3. exact H3.
Qed.

Fixpoint free_list (i : Z) (vals : list Z) : list Z :=
  match vals with [] => [] | v :: vs => if v =? unused then i :: free_list (i + 1) vs else free_list (i + 1) vs end.
Lemma free_slots_eq vals : forall i acc, free_slots i vals acc = rev (free_list i vals) ++ acc.
Proof.
  induction vals as [|v vs IH]; intros i acc; cbn [free_slots free_list]; [reflexivity|]. rewrite IH. destruct (v =? unused); [cbn [rev]; rewrite <- app_assoc; reflexivity|reflexivity].
Qed.
Lemma free_list_spec vals : forall i, (forall s, In s (free_list i vals) -> i <= s < i + zlen vals /\ get vals (s - i) = unused) /\ NoDup (free_list i vals) /\ length (free_list i vals) = cnt vals.
Proof.
  induction vals as [|v vs IH]; intros i; cbn [free_list]; [split; [intros s []|split; [constructor|reflexivity]]|].
  destruct (IH (i + 1)) as (H1 & H2 & H3). pose proof (zlen_nonneg vs) as Hz.
  assert (forall s, In s (free_list (i + 1) vs) -> i <= s < i + zlen (v :: vs) /\ get (v :: vs) (s - i) = unused) as H1'.
  { intros s Hs. destruct (H1 s Hs) as [Hr Hg]. rewrite zlen_cons. split; [lia|]. unfold get in *. replace (Z.to_nat (s - i)) with (S (Z.to_nat (s - (i + 1)))) by lia. exact Hg. }
  destruct (v =? unused) eqn:E.
  - split; [|split].
    + intros s [<-|Hs]; [|apply H1'; exact Hs]. rewrite zlen_cons. split; [lia|]. unfold get. rewrite Z.sub_diag. change (v = unused). lia.
    + constructor; [|exact H2]. intros Hin. destruct (H1 i Hin). lia.
    + unfold cnt in *. cbn [filter]. assert (unused =? v = true) as -> by lia. cbn [length]. lia.
  - split; [exact H1'|]. split; [exact H2|]. unfold cnt in *. cbn [filter]. assert (unused =? v = false) as -> by lia. exact H3.
Qed.

Lemma place_one_ok : n <= 2 ^ 31 -> forall bs done aux vals free, good (done ++ bs) -> inv done aux vals -> big_first bs -> Forall (fun B => zlen B <= 1) bs ->
  NoDup free -> (forall s, In s free -> 0 <= s < n /\ get vals s = unused) -> length free = cnt vals ->
  exists aux' vals', place_one words n aux vals free bs = Ret (aux', vals') /\ inv (done ++ bs) aux' vals'.
Proof.
  intros Hn31. induction bs as [|B rest IH]; intros done aux vals free HG HI Hs Hone Hnd Hfree Hlen.
  - exists aux, vals. split; [destruct free; reflexivity|]. rewrite app_nil_r. exact HI.
  - destruct B as [|k B].
    + exists aux, vals. split; [destruct free; reflexivity|].
      assert (concat (done ++ [] :: rest) = concat done) as E.
      { rewrite concat_app. cbn [concat]. inversion Hs as [|? ? Hs1 Hs2]; subst. assert (concat rest = []) as ->; [|apply app_nil_r].
        clear -Hs2. induction rest as [|B rest IH]; [reflexivity|]. inversion Hs2 as [|? ? Hb Hr]; subst. cbn [concat]. rewrite IH by exact Hr. change (zlen (@nil Z)) with 0 in Hb. destruct B; [reflexivity|]. rewrite zlen_cons in Hb. pose proof (zlen_nonneg B). lia. }
      destruct HI as [I1 I2 I3 I4 I5 I6]. constructor; rewrite ?E; assumption.
    + inversion Hone as [|? ? Hk1 Hone']; subst. rewrite zlen_cons in Hk1. assert (B = []) as -> by (destruct B; [reflexivity|rewrite zlen_cons in Hk1; pose proof (zlen_nonneg B); lia]). cbn [place_one].
      destruct free as [|s free].
      { exfalso. pose proof (v_cnt _ _ _ HI) as Hc. cbn [length] in Hlen. rewrite <- Hlen in Hc.
        assert (length (concat (done ++ [k] :: rest)) <= length words)%nat as Hle.
        { rewrite <- (seq_length (length words) 0), <- (map_length Z.of_nat (seq 0 (length words))). apply NoDup_incl_length; [exact (g_nodup _ HG)|]. intros x Hx. apply (g_keys _ HG) in Hx. apply (in_keys (length words)). exact Hx. }
        rewrite concat_app, app_length in Hle. cbn [concat length app] in Hle. lia. }
      destruct (Hfree s (or_introl eq_refl)) as [Hsr Hsu]. cbn [place_one]. rewrite modu_ok by lia. cbn [bind]. fold (word k). fold (h0 k).
      rewrite (to_i32_small (- s - 1)) by lia.
      destruct (inv_add done rest [k] aux vals (fun _ => s) (- s - 1) HG Hn31 HI) with (k0 := k) as (aux' & vals' & E1 & E2 & HI'); [discriminate|lia|cbn; constructor; [intros []|constructor]|intros; exact Hsr|intros; exact Hsu|intros; right; reflexivity|left; reflexivity|].
      rewrite E1. cbn [bind]. cbn [map set_values] in E2. change (index [s] 0) with (Ret s) in E2. cbn [bind] in E2.
      destruct (set_index vals s k) as [v'|e| |] eqn:Ev; cbn [bind] in E2; try discriminate. injection E2 as <-. cbn [bind].
      destruct (set_index_ok vals s k) as (v2 & E3 & _ & Hg3 & Hc3); [rewrite (v_vals _ _ _ HI); lia|]. rewrite Ev in E3. injection E3 as <-.
      inversion Hnd as [|? ? Hnin Hnd']; subst. inversion Hs as [|? ? Hs1 Hs2]; subst.
      destruct (IH (done ++ [[k]]) aux' v' free) as (aux2 & vals2 & E4 & HI2); [rewrite <- app_assoc; exact HG|exact HI'|exact Hs1|exact Hone'|exact Hnd'| | |].
      * intros x Hx. destruct (Hfree x (or_intror Hx)) as [Hxr Hxu]. split; [exact Hxr|]. rewrite Hg3 by lia. destruct (x =? s) eqn:Ex; [assert (x = s) by lia; subst; contradiction|exact Hxu].
      * cbn [length] in Hlen. assert (k <> unused) as Hku.
        { assert (0 <= k < n) by (apply (g_keys _ HG); rewrite concat_app; cbn [concat app]; rewrite in_app_iff; right; left; reflexivity). unfold unused. lia. }
        specialize (Hc3 Hsu Hku). lia.
      * exists aux2, vals2. split; [exact E4|]. rewrite <- app_assoc in HI2. exact HI2.
Qed.
Lemma inv_init : inv [] (repeat 0 (Z.to_nat n)) (map (fun _ => unused) words).
Proof.
  assert (zlen (repeat 0 (Z.to_nat n)) = n) as Hl by (unfold zlen; rewrite repeat_length; lia).
  constructor.
  - exact Hl.
  - unfold zlen. rewrite map_length. reflexivity.
  - intros j Hj. unfold get. rewrite nth_repeat. lia.
  - intros k [].
  - cbn [concat length]. rewrite cnt_repeat. lia.
  - intros j Hj. left. unfold get. assert (In (nth (Z.to_nat j) (map (fun _ : bytes => unused) words) 0) (map (fun _ => unused) words)) as Hin by (apply nth_In; rewrite map_length; unfold zlen in Hj; lia). apply in_map_iff in Hin. destruct Hin as (x & <- & _). reflexivity.
Qed.

Context (srt : list (list Z) -> list (list Z)) (Hsrt : forall bs, Permutation bs (srt bs) /\ big_first (srt bs)).
Lemma build_ok fuel : n <= 2 ^ 31 -> Z.of_nat fuel < 2 ^ 31 - 1 ->
  BuildMph fuel srt words = NoFuel
  \/ exists m bs, BuildMph fuel srt words = Ret m /\ good bs /\ inv bs (auxiliary m) (values m).
Proof.
  intros Hn31 Hf. unfold BuildMph. rewrite fill_all. cbn [bind]. rewrite size_eq. destruct (Hsrt (buckets_of (length words))) as [HP HS].
  pose proof (good_perm _ _ HP buckets_good) as HG. set (bs := srt (buckets_of (length words))) in *. clearbody bs.
  destruct (place_big_ok fuel Hn31 Hf bs [] _ _ HG inv_init) as [->|(aux & vals & done & rest & Eb & -> & HI & Hrest)]; [left; reflexivity|]. cbn [bind app] in *.
  assert (big_first rest /\ Forall (fun B => zlen B <= 1) rest) as [Hs1 Hs2].
  { rewrite Eb in HS. clear -HS Hrest. induction done as [|D done IH]; cbn [app] in HS; [|inversion HS; subst; apply IH; assumption]. split; [exact HS|].
    destruct Hrest as [->|(B & r & -> & HB)]; [constructor|]. inversion HS as [|? ? H1 H2]; subst. constructor; [exact HB|]. eapply Forall_impl; [|exact H2]. cbn. intros; lia. }
  destruct (free_list_spec vals 0) as (F1 & F2 & F3). rewrite free_slots_eq, app_nil_r.
  destruct (place_one_ok Hn31 rest done aux vals (rev (free_list 0 vals))) as (aux' & vals' & -> & HI'); [rewrite <- Eb; exact HG|exact HI|exact Hs1|exact Hs2|apply NoDup_rev; exact F2| |rewrite rev_length; exact F3|].
  { intros s Hs. apply in_rev in Hs. destruct (F1 s Hs) as [Hr Hg]. rewrite Z.sub_0_r in Hg. rewrite (v_vals _ _ _ HI) in Hr. split; [lia|exact Hg]. }
  cbn [bind]. right. exists (mkMph aux' vals'), bs. split; [reflexivity|]. split; [exact HG|]. rewrite Eb. exact HI'.
Qed.

Lemma get_found m bs k : n <= 2 ^ 31 -> inv bs (auxiliary m) (values m) -> In k (concat bs) -> GetMph m (word k) = Ret k.
Proof.
  intros Hn31 HI Hk. destruct HI as [I1 I2 I3 I4 I5 I6]. destruct (I4 k Hk) as (s & Hs & Hg & Ha). unfold GetMph. rewrite I1, I2.
  assert (wrap32 n = n) as -> by (apply Z.mod_small; lia). rewrite modu_ok by lia. cbn [bind]. fold (h0 k). pose proof (h0_range k) as Hh. rewrite index_get by lia. cbn [bind].
  pose proof (I3 (h0 k) Hh) as Hr. destruct Ha as [[Ha0 Ha]|Ha].
  - destruct (get (auxiliary m) (h0 k) <? 0) eqn:E; [lia|]. assert (wrap32 (get (auxiliary m) (h0 k)) = get (auxiliary m) (h0 k)) as -> by (apply Z.mod_small; lia).
    rewrite modu_ok by lia. cbn [bind]. fold (slot_of (get (auxiliary m) (h0 k)) k). rewrite Ha. rewrite index_get by lia. rewrite Hg. reflexivity.
  - rewrite Ha. destruct (- s - 1 <? 0) eqn:E; [|lia]. assert (to_i32 (to_i32 (- (- s - 1)) - 1) = s) as ->.
    { unfold to_i32. destruct (Z.eq_dec s (2 ^ 31 - 1)) as [->|]; [reflexivity|]. rewrite (Z.mod_small (- (- s - 1) + 2 ^ 31)) by lia. rewrite Z.mod_small by lia. lia. }
    rewrite index_get by lia. rewrite Hg. reflexivity.
Qed.
Lemma get_total m bs : n <= 2 ^ 31 -> good bs -> inv bs (auxiliary m) (values m) -> forall s, exists k, GetMph m s = Ret k /\ 0 <= k < n.
Proof.
  intros Hn31 HG HI s. destruct HI as [I1 I2 I3 I4 I5 I6].
  assert (forall j, 0 <= j < n -> 0 <= get (values m) j < n) as Hall.
  { intros j Hj. destruct (I6 j Hj) as [H|H]; [|exact H]. exfalso.
    assert (length words <= length (concat bs))%nat as Hle.
    { rewrite <- (seq_length (length words) 0), <- (map_length Z.of_nat (seq 0 (length words))). apply NoDup_incl_length; [apply FinFun.Injective_map_NoDup; [intros x y; lia|apply seq_NoDup]|].
      intros x Hx. apply (g_keys _ HG). apply (in_keys (length words)). exact Hx. }
    assert (cnt (values m) = O) as Hc by lia. apply cnt_zero in Hc. rewrite Forall_forall in Hc. apply (Hc (get (values m) j)); [|exact H]. apply nth_In. unfold zlen in *. lia. }
  unfold GetMph. rewrite I1, I2. assert (wrap32 n = n) as -> by (apply Z.mod_small; lia). rewrite modu_ok by lia. cbn [bind].
  assert (0 <= hash 0 s mod n < n) as Hh by (apply Z.mod_pos_bound; lia). rewrite index_get by lia. cbn [bind]. pose proof (I3 _ Hh) as Hr. set (d := get (auxiliary m) (hash 0 s mod n)) in *.
  destruct (d <? 0) eqn:E.
  - assert (0 <= to_i32 (to_i32 (- d) - 1) < n) as Hs.
    { unfold to_i32. destruct (Z.eq_dec d (- 2 ^ 31)) as [->|]; [change (((- - 2 ^ 31 + 2 ^ 31) mod 2 ^ 32 - 2 ^ 31 - 1 + 2 ^ 31) mod 2 ^ 32 - 2 ^ 31) with (2 ^ 31 - 1); lia|]. rewrite (Z.mod_small (- d + 2 ^ 31)) by lia. rewrite Z.mod_small by lia. lia. }
    rewrite index_get by lia. eexists. split; [reflexivity|]. apply Hall. exact Hs.
  - rewrite modu_ok by lia. cbn [bind]. assert (0 <= hash (wrap32 d) s mod n < n) as Hs by (apply Z.mod_pos_bound; lia). rewrite index_get by lia. eexists. split; [reflexivity|]. apply Hall. exact Hs.
Qed.
End Words.
