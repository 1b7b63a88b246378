(** Proofs about the n-gram tokenizer. *)
From Coq Require Import ZifyBool.
From Verif Require Import Base BaseLemmas GoMap Text Analysis AnalysisSpec TextProofs.
Local Open Scope Z_scope.
Ltac Zify.zify_post_hook ::= Z.div_mod_to_equations.

(** ** first occurrences *)
Lemma memb_In (t : bytes) l : existsb (beqb t) l = true <-> In t l.
Proof.
  rewrite existsb_exists. split.
  - intros (x & Hx & E). apply beqb_ok in E. subst. exact Hx.
  - intros H. exists t. split; [exact H|]. apply beqb_ok. reflexivity.
Qed.
Lemma fo_app_one l x : first_occurrences (l ++ [x]) = first_occurrences l ++ (if existsb (beqb x) l then [] else [x]).
Proof.
  unfold first_occurrences. rewrite app_length. cbn [length]. rewrite seq_app, filter_app, map_app. f_equal.
  - transitivity (map (fun i => nth i (l ++ [x]) []) (filter (fun i => negb (existsb (beqb (nth i l [])) (firstn i l))) (seq 0 (length l)))).
    + f_equal. apply filter_ext_in. intros i Hi. apply in_seq in Hi. rewrite app_nth1 by lia. rewrite firstn_app.
      replace (i - length l)%nat with 0%nat by lia. cbn [firstn]. rewrite app_nil_r. reflexivity.
    + apply map_ext_in. intros i Hi. apply filter_In in Hi. destruct Hi as [Hi _]. apply in_seq in Hi. apply app_nth1. lia.
  - cbn [seq filter plus]. rewrite nth_middle. rewrite firstn_app. replace (length l - length l)%nat with 0%nat by lia. cbn [firstn]. rewrite app_nil_r.
    rewrite firstn_all. destruct (existsb (beqb x) l); cbn [negb map]; [reflexivity|]. rewrite nth_middle. reflexivity.
Qed.
Lemma fo_In l x : In x (first_occurrences l) <-> In x l.
Proof.
  induction l as [|y l IH] using rev_ind; [reflexivity|]. rewrite fo_app_one, !in_app_iff, IH.
  destruct (existsb (beqb y) l) eqn:E; [|reflexivity]. apply memb_In in E. cbn. split; [tauto|]. intros [H|[<-|[]]]; auto.
Qed.
Lemma fo_NoDup l : NoDup (first_occurrences l).
Proof.
  induction l as [|y l IH] using rev_ind; [constructor|]. rewrite fo_app_one.
  destruct (existsb (beqb y) l) eqn:E; [rewrite app_nil_r; exact IH|].
  apply NoDup_rev in IH. rewrite <- (rev_involutive (first_occurrences l ++ [y])). apply NoDup_rev. rewrite rev_app_distr. cbn.
  constructor; [|exact IH]. rewrite <- in_rev, fo_In. intros H. apply memb_In in H. congruence.
Qed.
Lemma appendUnique_fo l x : appendUnique (first_occurrences l) x = first_occurrences (l ++ [x]).
Proof.
  unfold appendUnique. rewrite fo_app_one. 
  assert (existsb (beqb x) (first_occurrences l) = existsb (beqb x) l) as ->.
  { destruct (existsb (beqb x) l) eqn:E.
    - apply memb_In, fo_In, memb_In. exact E.
    - apply not_true_iff_false. intros H. apply memb_In in H. apply (proj1 (fo_In l x)) in H. apply (proj2 (memb_In x l)) in H. congruence. }
  destruct (existsb (beqb x) l); [rewrite app_nil_r|]; reflexivity.
Qed.

(** ** slots *)
Lemma rem_pos i n : 0 < n -> 0 <= i -> rem i n = Ret (i mod n).
Proof. intros. unfold rem. replace (n =? 0) with false by lia. rewrite Z.rem_mod_nonneg by lia. reflexivity. Qed.
Lemma upd_ok arr k v : 0 <= k < zlen arr -> exists arr', upd arr k v = Ret arr' /\ zlen arr' = zlen arr /\
  forall j, 0 <= j -> nth (Z.to_nat j) arr' 0 = if j =? k then v else nth (Z.to_nat j) arr 0.
Proof.
  intros H. unfold upd. replace ((0 <=? k) && (k <? zlen arr)) with true by lia.
  eexists. split; [reflexivity|]. unfold zlen in *. split.
  - rewrite app_length, firstn_length. cbn [length]. rewrite skipn_length. lia.
  - intros j Hj. destruct (Z.lt_trichotomy j k) as [Hlt|[->|Hgt]].
    + replace (j =? k) with false by lia. rewrite app_nth1 by (rewrite firstn_length; lia).
      rewrite <- (firstn_skipn (Z.to_nat k) arr) at 2. rewrite app_nth1 by (rewrite firstn_length; lia). reflexivity.
    + rewrite Z.eqb_refl. rewrite app_nth2 by (rewrite firstn_length; lia). rewrite firstn_length.
      replace (Z.to_nat k - min (Z.to_nat k) (length arr))%nat with 0%nat by lia. reflexivity.
    + replace (j =? k) with false by lia. rewrite app_nth2 by (rewrite firstn_length; lia). rewrite firstn_length.
      replace (Z.to_nat j - min (Z.to_nat k) (length arr))%nat with (S (Z.to_nat j - Z.to_nat k - 1))%nat by lia. cbn [nth].
      rewrite <- (firstn_skipn (Z.to_nat k + 1) arr) at 2. rewrite app_nth2 by (rewrite firstn_length; lia). rewrite firstn_length. f_equal. lia.
Qed.
Definition off (cs : list bytes) (j : Z) : Z := zlen (@concat Z (firstn (Z.to_nat j) cs)).
Definition gram (cs : list bytes) (n : Z) (k : nat) : bytes := concat (firstn (Z.to_nat n) (skipn k cs)).
Lemma off_0 cs j : j <= 0 -> off cs j = 0.
Proof. intros. unfold off. replace (Z.to_nat j) with 0%nat by lia. reflexivity. Qed.
Lemma slice_firstn {A} (l : list A) i j : 0 <= i -> i <= j -> j <= zlen l -> slice l i j = Ret (firstn (Z.to_nat (j - i)) (skipn (Z.to_nat i) l)).
Proof. intros. unfold slice. replace ((0 <=? i) && (i <=? j) && (j <=? zlen l)) with true by lia. reflexivity. Qed.
Lemma slice_three {A} (a b c : list A) : slice (a ++ b ++ c) (zlen a) (zlen a + zlen b) = Ret b.
Proof.
  rewrite slice_firstn by (rewrite ?zlen_app; unfold zlen; lia).
  rewrite skipn_app, skipn_all2 by (unfold zlen; lia). cbn [app].
  replace (Z.to_nat (zlen a) - length a)%nat with 0%nat by (unfold zlen; lia). cbn [skipn].
  rewrite firstn_app. replace (Z.to_nat (zlen a + zlen b - zlen a) - length b)%nat with 0%nat by (unfold zlen; lia). cbn [firstn].
  rewrite app_nil_r, firstn_all2 by (unfold zlen; lia). reflexivity.
Qed.
Lemma slice_chars (cs : list bytes) n i : 0 < n -> n <= i -> i <= zlen cs ->
  slice (concat cs) (off cs (i - n)) (off cs i) = Ret (gram cs n (Z.to_nat (i - n))).
Proof.
  intros Hn Hi Hl. set (k := Z.to_nat (i - n)).
  assert (cs = firstn k cs ++ firstn (Z.to_nat n) (skipn k cs) ++ skipn (Z.to_nat n) (skipn k cs)) as E by (rewrite !firstn_skipn; reflexivity).
  unfold off. fold k.
  assert (firstn (Z.to_nat i) cs = firstn k cs ++ firstn (Z.to_nat n) (skipn k cs)) as ->.
  { replace (Z.to_nat i) with (k + Z.to_nat n)%nat by lia. 
    rewrite <- (firstn_skipn k cs) at 1. rewrite firstn_app, firstn_length. unfold zlen in *.
    replace (k + Z.to_nat n - min k (length cs))%nat with (Z.to_nat n) by lia. f_equal. rewrite firstn_firstn. f_equal. lia. }
  rewrite E at 1. rewrite !concat_app, zlen_app. apply slice_three.
Qed.

Record inv (n : Z) (cs : list bytes) (i : Z) (prev : list Z) (result : list bytes) : Prop := {
  iv_len : zlen prev = 8;
  iv_i : 0 <= i <= zlen cs;
  iv_slots : forall j, i - n < j -> j <= i -> nth (Z.to_nat (j mod n)) prev 0 = off cs (j - 1);
  iv_res : result = first_occurrences (map (gram cs n) (seq 0 (Z.to_nat (i - n)))) }.
Lemma gram_loop_ok n cs : 1 <= n <= 8 -> forall rest i prev result, inv n cs i prev result -> rest = skipn (Z.to_nat i) cs ->
  exists prev', ngram_loop n (concat cs) rest i (off cs i) prev result =
    Ret (zlen cs, prev', first_occurrences (map (gram cs n) (seq 0 (Z.to_nat (zlen cs - n))))) /\
    inv n cs (zlen cs) prev' (first_occurrences (map (gram cs n) (seq 0 (Z.to_nat (zlen cs - n))))).
Proof.
  intros Hn. induction rest as [|c rest IH]; intros i prev result HI Hr; cbn [ngram_loop].
  - pose proof (iv_i _ _ _ _ _ HI) as Hi. assert (i = zlen cs) as ->.
    { apply (f_equal (@length _)) in Hr. rewrite skipn_length in Hr. cbn in Hr. unfold zlen in *. lia. }
    pose proof (iv_res _ _ _ _ _ HI) as ->. exists prev. auto.
  - pose proof (iv_i _ _ _ _ _ HI) as Hi. pose proof (iv_len _ _ _ _ _ HI) as Hlen. pose proof (iv_slots _ _ _ _ _ HI) as Hs. pose proof (iv_res _ _ _ _ _ HI) as Hres.
    assert (i < zlen cs) as Hlt.
    { apply (f_equal (@length _)) in Hr. rewrite skipn_length in Hr. cbn in Hr. unfold zlen in *. lia. }
    assert (Hm : forall a, 0 <= a mod n < n) by (intros; apply Z.mod_pos_bound; lia).
    assert (forall K : list bytes -> res (Z * list Z * list bytes),
      bind (if i + 1 >? n then k <- rem (i + 1 - n) n;; top <- index prev k;; g <- slice (concat cs) top (off cs i);; Ret (appendUnique result g) else Ret result) K =
      K (first_occurrences (map (gram cs n) (seq 0 (Z.to_nat (i + 1 - n)))))) as ->.
    { intros K. destruct (i + 1 >? n) eqn:E.
      - rewrite rem_pos by lia. cbn [bind]. rewrite (index_nth prev _ 0) by (specialize (Hm (i + 1 - n)); lia). cbn [bind].
        rewrite Hs by lia. replace (i + 1 - n - 1) with (i - n) by lia. rewrite slice_chars by lia. cbn [bind].
        rewrite Hres, appendUnique_fo. do 2 f_equal. replace (Z.to_nat (i + 1 - n)) with (S (Z.to_nat (i - n))) by lia.
        rewrite seq_S, map_app. reflexivity.
      - cbn [bind]. rewrite Hres. do 2 f_equal. replace (Z.to_nat (i + 1 - n)) with (Z.to_nat (i - n)) by lia. reflexivity. }
    rewrite rem_pos by lia. cbn [bind].
    destruct (upd_ok prev ((i + 1) mod n) (off cs i)) as (prev' & -> & Hl' & Hnth); [specialize (Hm (i + 1)); lia|]. cbn [bind].
    assert (skipn (Z.to_nat (i + 1)) cs = rest) as Hrest.
    { replace (Z.to_nat (i + 1)) with (S (Z.to_nat i)) by lia. clear - Hr. revert cs Hr. induction (Z.to_nat i) as [|k IHk]; intros [|x cs] Hr; cbn [skipn] in *; try congruence. apply IHk. exact Hr. }
    replace (off cs i + zlen c) with (off cs (i + 1)).
    2:{ unfold off. replace (Z.to_nat (i + 1)) with (Z.to_nat i + 1)%nat by lia.
        assert (firstn (Z.to_nat i + 1) cs = firstn (Z.to_nat i) cs ++ [c]) as ->.
        { clear - Hr. revert cs Hr. induction (Z.to_nat i) as [|k IHk]; intros [|x cs] Hr; cbn [skipn] in Hr; try discriminate.
          - injection Hr as -> _. reflexivity.
          - cbn [plus firstn app]. f_equal. apply IHk. exact Hr. }
        rewrite concat_app, zlen_app. cbn [concat]. rewrite app_nil_r. reflexivity. }
    apply IH; [|symmetry; exact Hrest]. constructor.
    + lia.
    + lia.
    + intros j Hj1 Hj2. rewrite Hnth by (specialize (Hm j); lia). destruct (Z.eqb_spec (j mod n) ((i + 1) mod n)) as [E|E].
      * assert (j = i + 1) as ->; [|f_equal; lia].
        assert ((i + 1 - j) mod n = 0) as Hz by (rewrite Zminus_mod, E, Z.sub_diag; apply Z.mod_0_l; lia).
        rewrite Z.mod_small in Hz by lia. lia.
      * apply Hs; [|destruct (Z.eq_dec j (i + 1)) as [->|]; [congruence|lia]]. lia.
    + reflexivity.
Qed.
Lemma off_all (cs : list bytes) : off cs (zlen cs) = zlen (concat cs).
Proof. unfold off. replace (Z.to_nat (zlen cs)) with (length cs) by (unfold zlen; lia). rewrite firstn_all. reflexivity. Qed.
Lemma repeat_nth (k : nat) m : nth k (repeat 0 m) 0 = 0.
Proof. revert k. induction m as [|m IH]; intros [|k]; cbn; auto. Qed.
Lemma tokenize_ok n text : 1 <= n <= 8 -> n <= zlen text ->
  NGramTokenize n text = Ret (if zlen (chars text) <? n then [text]
    else first_occurrences (map (gram (chars text) n) (seq 0 (Z.to_nat (zlen (chars text) - n + 1))))).
Proof.
  intros Hn Ht. unfold NGramTokenize. replace (zlen text <? n) with false by lia.
  set (cs := chars text). assert (concat cs = text) as Hc by apply chars_concat. rewrite <- Hc.
  assert (inv n cs 0 (repeat 0 maxN) []) as HI.
  { constructor.
    - reflexivity.
    - unfold zlen. lia.
    - intros j _ Hj. rewrite repeat_nth, off_0 by lia. reflexivity.
    - replace (Z.to_nat (0 - n)) with 0%nat by lia. reflexivity. }
  destruct (gram_loop_ok n cs Hn cs 0 _ _ HI eq_refl) as (prev & E & HI').
  rewrite off_0 in E by lia. rewrite E. cbn [bind].
  pose proof (iv_len _ _ _ _ _ HI') as Hlen. pose proof (iv_slots _ _ _ _ _ HI') as Hs.
  assert (Hm : forall a, 0 <= a mod n < n) by (intros; apply Z.mod_pos_bound; lia).
  pose proof (zlen_nonneg cs) as Hnn.
  rewrite rem_pos by lia. cbn [bind]. rewrite (index_nth prev _ 0) by (specialize (Hm (zlen cs + 1)); lia). cbn [bind].
  replace ((zlen cs + 1) mod n) with ((zlen cs + 1 - n) mod n).
  2:{ replace (zlen cs + 1) with (zlen cs + 1 - n + 1 * n) at 2 by lia. rewrite Z.mod_add by lia. reflexivity. }
  rewrite Hs by lia. rewrite <- off_all. replace (zlen cs + 1 - n - 1) with (zlen cs - n) by lia.
  destruct (zlen cs <? n) eqn:Ecs.
  - rewrite off_0 by lia. rewrite off_all, slice_firstn by (unfold zlen; lia). cbn [bind].
    replace (Z.to_nat 0) with 0%nat by lia. cbn [skipn]. rewrite firstn_all2 by (unfold zlen; lia).
    replace (Z.to_nat (zlen cs - n)) with 0%nat by lia. reflexivity.
  - rewrite slice_chars by lia. cbn [bind]. rewrite appendUnique_fo.
    replace (Z.to_nat (zlen cs - n + 1)) with (S (Z.to_nat (zlen cs - n))) by lia. rewrite seq_S, map_app. reflexivity.
Qed.
Lemma chars_zlen_le text : zlen (chars text) <= zlen text.
Proof. pose proof (chars_length_le text). unfold zlen. lia. Qed.
Lemma tokenize_windows n text : (1 <= n <= 8)%nat -> (n <= length (chars text))%nat ->
  NGramTokenize (Z.of_nat n) text = Ret (first_occurrences (windows n (chars text))).
Proof.
  intros Hn Hl. pose proof (chars_length_le text). rewrite tokenize_ok by (unfold zlen; lia).
  replace (zlen (chars text) <? Z.of_nat n) with false by (unfold zlen; lia).
  do 2 f_equal. unfold windows, gram. rewrite Nat2Z.id. f_equal. f_equal. unfold zlen. lia.
Qed.
Lemma tokenize_short n text : (1 <= n <= 8)%nat -> (length (chars text) < n)%nat ->
  NGramTokenize (Z.of_nat n) text = Ret (if (length text <? n)%nat then [] else [text]).
Proof.
  intros Hn Hl. destruct (Nat.ltb_spec (length text) n) as [H|H].
  - unfold NGramTokenize. replace (zlen text <? Z.of_nat n) with true by (unfold zlen; lia). reflexivity.
  - rewrite tokenize_ok by (unfold zlen; lia). replace (zlen (chars text) <? Z.of_nat n) with true by (unfold zlen; lia). reflexivity.
Qed.
(** panics *)
Lemma tokenize_zero text : NGramTokenize 0 text = Panic.
Proof.
  unfold NGramTokenize. replace (zlen text <? 0) with false by (unfold zlen; lia).
  destruct (chars text); reflexivity.
Qed.
(* negative sizes: the first character of the text is enough to see what happens *)
Lemma upd_out arr k v : zlen arr <= k -> upd arr k v = Panic.
Proof. intros. unfold upd. replace ((0 <=? k) && (k <? zlen arr)) with false by lia. reflexivity. Qed.
Definition inv9 (prev : list Z) (i : Z) := zlen prev = 8 /\ nth (Z.to_nat (i + 1)) prev 0 = 0 /\ forall j, i < j -> nth (Z.to_nat j) prev 0 = 0.
Lemma big_loop n text : 9 <= n -> forall rest i idx prev, 0 <= i <= 7 -> inv9 prev i ->
  (8 <= i + zlen rest -> ngram_loop n text rest i idx prev [] = Panic) /\
  (i + zlen rest <= 7 -> exists prev', ngram_loop n text rest i idx prev [] = Ret (i + zlen rest, prev', []) /\ inv9 prev' (i + zlen rest)).
Proof.
  intros Hn. induction rest as [|c rest IH]; intros i idx prev Hi HI; cbn [ngram_loop].
  - change (zlen (@nil bytes)) with 0. split; [lia|]. intros _. rewrite Z.add_0_r. eauto.
  - rewrite zlen_cons. replace (i + 1 >? n) with false by lia. cbn [bind]. rewrite rem_pos by lia. cbn [bind]. rewrite Z.mod_small by lia.
    destruct HI as (Hl & H1 & Hj). destruct (Z.eq_dec i 7) as [->|Hne].
    + rewrite upd_out by lia. cbn [bind]. split; [reflexivity|]. pose proof (zlen_nonneg rest). lia.
    + destruct (upd_ok prev (i + 1) idx) as (prev' & -> & Hl' & Hnth); [lia|]. cbn [bind].
      replace (i + (1 + zlen rest)) with (i + 1 + zlen rest) by lia. apply IH; [lia|]. split; [lia|]. split; [|intros j Hj2]; (rewrite Hnth by lia; match goal with |- context [?a =? ?b] => replace (a =? b) with false by lia end; apply Hj; lia).
Qed.
Lemma tokenize_big n text : 9 <= n -> n <= zlen text ->
  NGramTokenize n text = if zlen (chars text) <? 7 then Ret [text] else Panic.
Proof.
  intros Hn Ht. unfold NGramTokenize. replace (zlen text <? n) with false by lia.
  assert (inv9 (repeat 0 maxN) 0) as HI by (split; [reflexivity|split; [reflexivity|intros; apply repeat_nth]]).
  destruct (big_loop n text Hn (chars text) 0 0 (repeat 0 maxN) ltac:(lia) HI) as [Hp Hr]. rewrite Z.add_0_l in *.
  destruct (Z_lt_le_dec (zlen (chars text)) 8) as [Hlt|Hge].
  - destruct (Hr ltac:(lia)) as (prev & -> & Hl & Hz & _). cbn [bind]. pose proof (zlen_nonneg (chars text)). rewrite rem_pos by lia. cbn [bind]. rewrite Z.mod_small by lia.
    destruct (zlen (chars text) <? 7) eqn:E7.
    + rewrite (index_nth prev _ 0) by lia. cbn [bind]. rewrite Hz, slice_firstn by (unfold zlen; lia). cbn [bind].
      replace (Z.to_nat 0) with 0%nat by lia. cbn [skipn]. rewrite firstn_all2 by (unfold zlen; lia). reflexivity.
    + rewrite index_out by lia. reflexivity.
  - rewrite Hp by lia. replace (zlen (chars text) <? 7) with false by lia. reflexivity.
Qed.
