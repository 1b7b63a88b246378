From Coq Require Import Bool Lia ZifyBool.
From Verif Require Import Base BaseLemmas Snowball SnowballSearch.
Local Open Scope nat_scope.

Fixpoint blt (a b : bytes) : bool :=
  match a, b with
  | _, [] => false
  | [], _ :: _ => true
  | x :: a', y :: b' => (x <? y)%Z || ((x =? y)%Z && blt a' b')
  end.
Lemma blt_before a : forall b, blt a b = true <-> before a b.
Proof.
  induction a as [|x a IH]; intros [|y b]; cbn [blt before]; try tauto; try (split; [discriminate|tauto]).
  specialize (IH b). destruct (x <? y)%Z eqn:E1; cbn [orb]; [split; [left; lia|reflexivity]|]. destruct (x =? y)%Z eqn:E2; cbn [andb].
  - split; [right; split; [lia|apply IH; assumption]|]. intros [H|(_ & H)]; [lia|apply IH; exact H].
  - split; [discriminate|]. intros [H|(H & _)]; lia.
Qed.
Fixpoint lcp (a b : bytes) : nat :=
  match a, b with
  | x :: a', y :: b' => if (x =? y)%Z then S (lcp a' b') else 0
  | _, _ => 0
  end.
Lemma cmp_ok w : forall r n, exists d, cmp r w n = (d, n + lcp r w) /\ (d <? 0)%Z = blt r w.
Proof.
  induction w as [|y w IH]; intros r n; [exists 0%Z; destruct r; cbn; rewrite Nat.add_0_r; split; reflexivity|].
  destruct r as [|x r]; cbn [cmp lcp blt]; [exists (-1)%Z; rewrite Nat.add_0_r; split; reflexivity|].
  destruct (x - y =? 0)%Z eqn:E.
  - assert ((x =? y)%Z = true) as -> by lia. assert ((x <? y)%Z = false) as -> by lia. cbn [orb andb]. destruct (IH r (S n)) as (d & -> & Hd). exists d. rewrite Nat.add_succ_r. split; [reflexivity|exact Hd].
  - assert ((x =? y)%Z = false) as -> by lia. exists (x - y)%Z. rewrite Nat.add_0_r. split; [reflexivity|]. cbn [andb]. rewrite orb_false_r. lia.
Qed.
Lemma skip_ok n : forall r w, n <= lcp r w -> n + lcp (skipn n r) (skipn n w) = lcp r w /\ blt (skipn n r) (skipn n w) = blt r w.
Proof.
  induction n as [|n IH]; intros r w H; [split; reflexivity|]. destruct r as [|x r], w as [|y w]; cbn [lcp] in *; try lia. destruct (x =? y)%Z eqn:E; [|lia].
  destruct (IH r w ltac:(lia)) as (H1 & H2). cbn [skipn blt]. rewrite E, H2. assert ((x <? y)%Z = false) as -> by lia. split; [lia|reflexivity].
Qed.
Lemma blt_irrefl a : blt a a = false.
Proof. induction a as [|x a IH]; [reflexivity|]. cbn [blt]. rewrite IH, andb_false_r, orb_false_r. lia. Qed.
Lemma blt_trans a : forall b c, blt a b = true -> blt b c = true -> blt a c = true.
Proof.
  induction a as [|x a IH]; intros [|y b] [|z c]; cbn [blt]; try discriminate; try reflexivity. intros H1 H2.
  destruct (x <? z)%Z eqn:E; [reflexivity|]. cbn [orb]. destruct (x =? y)%Z eqn:E1, (y =? z)%Z eqn:E2; cbn [andb] in *; try lia.
  assert ((x =? z)%Z = true) as -> by lia. cbn [andb]. apply (IH b); [|]; destruct (_ <? _)%Z eqn:K in H1; destruct (y <? z)%Z eqn:K2; cbn [orb] in *; try lia; assumption.
Qed.
Lemma blt_total a b : blt a b = true \/ a = b \/ blt b a = true.
Proof.
  revert b. induction a as [|x a IH]; intros [|y b]; cbn [blt]; auto. destruct (x <? y)%Z eqn:E1; [left; reflexivity|]. destruct (y <? x)%Z eqn:E2; [right; right; reflexivity|].
  assert (x = y) as -> by lia. rewrite Z.eqb_refl. cbn [orb andb]. destruct (IH b) as [H|[->|H]]; auto.
Qed.
(* a <= k <= b *)
Lemma lcp_between r : forall a k b, blt k a = false -> blt b k = false -> Nat.min (lcp r a) (lcp r b) <= lcp r k.
Proof.
  induction r as [|x r IH]; intros a k b H1 H2; [cbn; lia|]. destruct a as [|ya a]; [cbn; lia|]. destruct b as [|yb b]; [cbn; lia|]. destruct k as [|yk k]; [cbn in H1; discriminate|].
  cbn [lcp blt] in *. apply orb_false_iff in H1, H2. destruct (x =? ya)%Z eqn:Ea; [|apply Nat.le_0_l]. destruct (x =? yb)%Z eqn:Eb; [|rewrite Nat.min_0_r; apply Nat.le_0_l]. destruct H1 as (H1 & H1'), H2 as (H2 & H2'). assert ((x =? yk)%Z = true) as -> by lia.
  assert ((yk =? ya)%Z = true) as K1 by lia. assert ((yb =? yk)%Z = true) as K2 by lia. rewrite K1 in H1'. rewrite K2 in H2'. cbn [andb] in *. specialize (IH a k b H1' H2'). lia.
Qed.
Lemma lcp_len r : forall w, lcp r w <= length w.
Proof. induction r as [|x r IH]; intros [|y w]; cbn; try lia. destruct (x =? y)%Z; [specialize (IH w); lia|lia]. Qed.
Lemma lcp_begins r : forall w, begins r w <-> lcp r w = length w.
Proof.
  induction r as [|x r IH]; intros w; split.
  - intros (q & H). symmetry in H. apply app_eq_nil in H. destruct H as (-> & _). reflexivity.
  - destruct w; [exists []; reflexivity|discriminate].
  - intros (q & H). destruct w as [|y w]; [reflexivity|]. injection H as -> H. cbn. rewrite Z.eqb_refl. f_equal. apply IH. exists q. exact H.
  - destruct w as [|y w]; [exists (x :: r); reflexivity|]. cbn. destruct (x =? y)%Z eqn:E; [|discriminate]. intros H. injection H as H. apply IH in H. destruct H as (q & ->). exists q. apply Z.eqb_eq in E. rewrite E. reflexivity.
Qed.
(* a prefix of r that is <= k <= r is a prefix of k *)
Lemma begins_between r : forall p k, begins r p -> blt k p = false -> blt r k = false -> begins k p.
Proof.
  induction r as [|x r IH]; intros p k (q & H) H1 H2.
  - symmetry in H. apply app_eq_nil in H. destruct H as (-> & _). exists k. reflexivity.
  - destruct p as [|y p]; [exists k; reflexivity|]. injection H as -> H. destruct k as [|z k]; [discriminate H1|]. cbn [blt] in *. apply orb_false_iff in H1, H2.
    destruct H1 as (H1 & H1'), H2 as (H2 & H2'). assert (z = y) as -> by lia. rewrite Z.eqb_refl in *. cbn [andb] in *. destruct (IH p k (ex_intro _ q H) H1' H2') as (q' & ->). exists q'. reflexivity.
Qed.
(* a prefix of k is a prefix of r exactly if it is not longer than what r and k share *)
Lemma begins_lcp r : forall k p, begins k p -> (begins r p <-> length p <= lcp r k).
Proof.
  intros k p (q & ->). rewrite lcp_begins. revert p. induction r as [|x r IH]; intros [|y p]; cbn; try lia. destruct (x =? y)%Z; [|lia]. specialize (IH p). lia.
Qed.
Lemma begins_ble r p : begins r p -> blt r p = false.
Proof.
  intros (q & ->). revert q. induction p as [|x p IH]; intros q; [destruct q; reflexivity|]. cbn. rewrite IH, andb_false_r, orb_false_r. lia.
Qed.

Section Search.
  Context (dir : bytes -> bytes) (t : list among) (Hs : sorted dir t).
  Definition key (a : among) : bytes := dir (Str a).
  Lemma ordered i j a b : i <= j -> nth_error t i = Some a -> nth_error t j = Some b -> blt (key b) (key a) = false.
  Proof.
    intros H Ha Hb. destruct (Nat.eq_dec i j) as [->|Hn]; [rewrite Ha in Hb; injection Hb as ->; apply blt_irrefl|].
    pose proof (proj2 (blt_before _ _) (Hs i j a b ltac:(lia) Ha Hb)) as K. fold (key a) (key b) in K. destruct (blt (key b) (key a)) eqn:E; [|reflexivity].
    pose proof (blt_trans _ _ _ K E) as C. rewrite blt_irrefl in C. discriminate.
  Qed.
  Context (r : bytes).
  Definition low (i ci : nat) : Prop := exists a, nth_error t i = Some a /\ blt r (key a) = false /\ ci = lcp r (key a).
  Definition high (j cj : nat) : Prop := exists b, nth_error t j = Some b /\ blt r (key b) = true /\ cj = lcp r (key b).
  Definition found (i ci : nat) : Prop :=
    (exists a, nth_error t i = Some a /\ blt r (key a) = false /\ ci = lcp r (key a) /\ forall j b, i < j -> nth_error t j = Some b -> blt r (key b) = true) \/
    (i = 0 /\ ci = 0 /\ forall j b, nth_error t j = Some b -> blt r (key b) = true).
  Lemma above j cj j' b : (j = length t /\ cj = 0) \/ high j cj -> j <= j' -> nth_error t j' = Some b -> blt r (key b) = true.
  Proof.
    intros [(-> & _)|(b0 & Hb0 & H & _)] Hj Hb; [assert (j' < length t) by (apply nth_error_Some; congruence); lia|].
    pose proof (ordered _ _ _ _ Hj Hb0 Hb) as Ho. destruct (blt_total (key b0) (key b)) as [K|[<-|K]]; [exact (blt_trans _ _ _ H K)|exact H|congruence].
  Qed.
  Lemma narrow_ok : forall fuel i j ci cj first, i < j -> j <= length t -> (1 < j - i \/ i = 0) -> (first = true -> i = 0 /\ j = 1) ->
    (i = 0 /\ ci = 0) \/ low i ci -> (j = length t /\ cj = 0) \/ high j cj -> (j - i) + (if first then 0 else 1) < fuel ->
    exists i' ci', narrow dir t r fuel i j ci cj first = Ret (i', ci') /\ found i' ci'.
  Proof.
    induction fuel as [|f IH]; intros i j ci cj first H1 H2 H3 H4 Hl Hh Hf; [lia|]. cbn [narrow].
    assert (i <= i + Nat.div2 (j - i) < j) as Hk. { pose proof (Nat.lt_div2 (j - i) ltac:(lia)). lia. }
    assert (1 < j - i -> i < i + Nat.div2 (j - i)) as Hk2. { intros K. destruct (j - i) as [|[|n]]; [lia|lia|]. cbn [Nat.div2]. lia. }
    assert (j - i <= 1 -> i + Nat.div2 (j - i) = 0) as Hk3. { intros K. assert (j - i = 1) as -> by lia. cbn [Nat.div2]. lia. }
    set (k := i + Nat.div2 (j - i)) in *. clearbody k. destruct (nth_error t k) as [w|] eqn:Ew; [|apply nth_error_None in Ew; lia].
    assert (Nat.min ci cj <= lcp r (key w)) as Hc.
    { destruct Hl as [(_ & ->)|(a & Ha & _ & ->)]; [lia|]. destruct Hh as [(_ & ->)|(b & Hb & _ & ->)]; [lia|]. apply lcp_between; [apply (ordered i k); [lia|assumption..]|apply (ordered k j); [lia|assumption..]]. }
    destruct (cmp_ok (skipn (Nat.min ci cj) (key w)) (skipn (Nat.min ci cj) r) (Nat.min ci cj)) as (d & Hd & Hd0). unfold key in Hd, Hd0 at 1. rewrite Hd.
    destruct (skip_ok _ _ _ Hc) as (E1 & E2). unfold key in E1, E2. rewrite E1. rewrite E2 in Hd0. rewrite Hd0. fold (key w) in *. destruct (blt r (key w)) eqn:Eb.
    - assert (high k (lcp r (key w))) as Hhk by (exists w; auto). destruct (k - i <=? 1) eqn:E.
      + destruct (0 <? i) eqn:Ei; cbn [orb].
        { exists i, ci. split; [reflexivity|]. left. destruct Hl as [(-> & _)|(a & Ha & Ha2 & ->)]; [discriminate|]. exists a. repeat (split; [assumption || reflexivity|]). intros j' b Hj Hb. apply (above k _ j' b (or_intror Hhk)); [lia|exact Hb]. }
        destruct (k =? i) eqn:Ek; cbn [orb].
        { assert (k = 0) by lia. assert (i = 0) by lia. subst k i. exists 0, ci. split; [reflexivity|]. right. destruct Hl as [(_ & ->)|(a & Ha & Ha2 & _)].
          - split; [reflexivity|]. split; [reflexivity|]. intros j' b Hb. apply (above 0 _ j' b (or_intror Hhk)); [lia|exact Hb].
          - rewrite Ha in Ew. injection Ew as ->. congruence. }
        destruct first; [exfalso; destruct (H4 eq_refl); lia|]. apply (IH i k ci (lcp r (key w)) true); try lia; auto.
      + apply IH; try lia; auto.
    - assert (low k (lcp r (key w))) as Hlk by (exists w; auto). destruct (j - k <=? 1) eqn:E.
      + destruct ((0 <? k) || (j =? k) || first) eqn:Ex.
        { exists k, (lcp r (key w)). split; [reflexivity|]. left. exists w. repeat (split; [assumption || reflexivity|]). intros j' b Hj Hb. apply (above j cj j' b Hh); [lia|exact Hb]. }
        apply orb_false_iff in Ex. destruct Ex as (Ex & ->). apply orb_false_iff in Ex. apply (IH k j (lcp r (key w)) cj true); try lia; auto.
      + apply IH; try lia; auto.
  Qed.
End Search.

Section Contract.
  Context (dir : bytes -> bytes) (Hdir : forall a b, dir a = dir b -> a = b) (Hlen : forall a, length (dir a) = length a) (t : list among) (Hs : sorted dir t) (Hl : linked dir t) (Hne : t <> []) (r : bytes).
  (* the longest entry the text begins with *)
  Definition is_longest (m : option among) : Prop :=
    match m with
    | Some a => In a t /\ begins r (dir (Str a)) /\ forall b, In b t -> begins r (dir (Str b)) -> length (Str b) <= length (Str a)
    | None => forall b, In b t -> ~ begins r (dir (Str b))
    end.
  Lemma link_down i a b j : nth_error t i = Some a -> nth_error t j = Some b -> Str b <> Str a -> begins (dir (Str a)) (dir (Str b)) -> j < i.
  Proof.
    intros Ha Hb Hn Hp. destruct (Nat.lt_ge_cases j i) as [H|H]; [exact H|]. exfalso. pose proof (ordered dir t Hs _ _ _ _ H Ha Hb) as Ho. pose proof (begins_ble _ _ Hp) as Hp'. unfold key in Ho.
    destruct (blt_total (dir (Str b)) (dir (Str a))) as [K|[K|K]]; [congruence|apply Hn, Hdir; exact K|congruence].
  Qed.
  (* a is a prefix of the last entry not above r, and every entry r begins with is a prefix of a *)
  Lemma follow_ok : forall fuel i ci a k, nth_error t i = Some a -> begins k (key dir a) -> (forall p, begins k p -> (begins r p <-> length p <= ci)) ->
    (forall b, In b t -> begins r (key dir b) -> begins (key dir a) (key dir b)) -> (i < fuel) -> exists m, follow t fuel i ci = Ret m /\ is_longest m.
  Proof.
    induction fuel as [|f IH]; intros i ci a k Ha Hk Hci Hall Hf; [lia|]. cbn [follow]. rewrite Ha. destruct (length (Str a) <=? ci) eqn:E.
    - exists (Some a). split; [reflexivity|]. split; [exact (nth_error_In _ _ Ha)|]. split; [apply Hci; [exact Hk|]; unfold key; rewrite Hlen; lia|].
      intros b Hb Hbr. destruct (Hall b Hb Hbr) as (q & Eq). apply (f_equal (@length _)) in Eq. unfold key in Eq. rewrite app_length, !Hlen in Eq. lia.
    - assert (~ begins r (key dir a)) as Hna by (intros K; apply (Hci _ Hk) in K; unfold key in K; rewrite Hlen in K; lia).
      destruct (Hl a (nth_error_In _ _ Ha)) as [(-> & Hno)|(Hpos & b & Hb & Hne' & Hpre & Hmax)].
      + cbn [Z.ltb Z.compare]. exists None. split; [reflexivity|]. intros b Hb Hbr. apply Hna. unfold key. rewrite <- (Hno b Hb (Hall b Hb Hbr)). exact Hbr.
      + assert ((Sub a <? 0)%Z = false) as -> by lia.
        apply (IH (Z.to_nat (Sub a)) ci b k Hb); [| exact Hci| |pose proof (link_down i a b _ Ha Hb Hne' Hpre); lia].
        * destruct Hk as (q & ->). destruct Hpre as (q' & Eq). exists (q' ++ q). unfold key. rewrite Eq, app_assoc. reflexivity.
        * intros c Hc Hcr. pose proof (Hall c Hc Hcr) as Hca. assert (Str c <> Str a) as Hn by (intros K; apply Hna; unfold key in *; rewrite <- K; exact Hcr).
          specialize (Hmax c Hc Hn Hca). apply (begins_lcp (key dir b) (key dir a) (key dir c)); [exact Hca|]. destruct Hpre as (q & Eq). unfold key in *. rewrite Eq.
          transitivity (length (dir (Str b))); [rewrite !Hlen; exact Hmax|]. rewrite <- (proj1 (lcp_begins (dir (Str b) ++ q) (dir (Str b)))); [|exists q; reflexivity]. 
          clear. generalize (dir (Str b)). intros l. induction l as [|x l IHl]; [destruct q; cbn; lia|]. cbn. rewrite Z.eqb_refl. lia.
  Qed.
  Lemma search_ok : exists m, search dir t r = Ret m /\ is_longest m.
  Proof.
    unfold search. assert (0 < length t) as Hp by (destruct t; [contradiction|cbn; lia]).
    destruct (narrow_ok dir t Hs r (length t + 2) 0 (length t) 0 0 false) as (i & ci & -> & Hf); try lia; auto. cbn [bind].
    destruct Hf as [(a & Ha & Hle & -> & Hup)|(-> & -> & Hup)].
    - apply (follow_ok (length t) i (lcp r (key dir a)) a (key dir a) Ha); [exists []; symmetry; apply app_nil_r|intros p Hp'; apply begins_lcp; exact Hp'| |apply nth_error_Some; congruence].
      intros b Hb Hbr. apply In_nth_error in Hb. destruct Hb as (j & Hb). apply (begins_between r); [exact Hbr| |exact Hle].
      destruct (Nat.lt_ge_cases i j) as [K|K]; [|exact (ordered dir t Hs _ _ _ _ K Hb Ha)]. specialize (Hup j b K Hb). rewrite (begins_ble _ _ Hbr) in Hup. discriminate.
    - assert (is_longest None) as HN.
      { intros b Hb Hbr. apply In_nth_error in Hb. destruct Hb as (j & Hb). specialize (Hup j b Hb). unfold key in Hup. rewrite (begins_ble _ _ Hbr) in Hup. discriminate. }
      exists None. split; [|exact HN]. destruct (length t) as [|n]; [lia|]. cbn [follow]. destruct (nth_error t 0) as [a|] eqn:Ha; [|destruct t; [contradiction|discriminate]].
      destruct (length (Str a) <=? 0) eqn:E.
      + exfalso. specialize (Hup 0 a Ha). unfold key in Hup. assert (dir (Str a) = []) as E' by (apply length_zero_iff_nil; rewrite Hlen; lia). rewrite E' in Hup. destruct r; discriminate.
      + destruct (Hl a (nth_error_In _ _ Ha)) as [(-> & _)|(_ & b & Hb & Hne' & Hpre & _)]; [reflexivity|]. pose proof (link_down _ _ _ _ Ha Hb Hne' Hpre). lia.
  Qed.
  Lemma longest_ok (ok : bytes -> bool) : (forall s, ok s = true <-> begins r (dir s)) -> is_longest (longest ok t).
  Proof.
    intros Hok. unfold is_longest. clear Hs Hl Hne. induction t as [|a l IH]; [intros b []|]. cbn [longest]. destruct (longest ok l) as [b|].
    - destruct IH as (H1 & H2 & H3). destruct (ok (Str a)) eqn:Ea; cbn [andb].
      + unfold zlen. destruct (_ <=? _)%Z eqn:E.
        * split; [left; reflexivity|]. split; [apply Hok; exact Ea|]. intros c [->|Hc] Hcr; [lia|]. specialize (H3 c Hc Hcr). lia.
        * split; [right; exact H1|]. split; [exact H2|]. intros c [->|Hc] Hcr; [lia|]. exact (H3 c Hc Hcr).
      + split; [right; exact H1|]. split; [exact H2|]. intros c [->|Hc] Hcr; [apply Hok in Hcr; congruence|]. exact (H3 c Hc Hcr).
    - destruct (ok (Str a)) eqn:Ea.
      + split; [left; reflexivity|]. split; [apply Hok; exact Ea|]. intros c [->|Hc] Hcr; [lia|]. destruct (IH c Hc Hcr).
      + intros c [->|Hc] Hcr; [apply Hok in Hcr; congruence|]. exact (IH c Hc Hcr).
  Qed.
  Lemma longest_unique m m' : is_longest m -> is_longest m' -> m = m'.
  Proof.
    destruct m as [a|], m' as [b|]; cbn [is_longest]; [|intros (H1 & H2 & _) K; destruct (K a H1 H2)|intros K (H1 & H2 & _); destruct (K b H1 H2)|reflexivity].
    intros (H1 & H2 & H3) (K1 & K2 & K3). f_equal. specialize (H3 b K1 K2). specialize (K3 a H1 H2).
    assert (dir (Str a) = dir (Str b)) as E.
    { destruct H2 as (q & Eq), K2 as (q' & Eq'). rewrite Eq in Eq'. assert (length (dir (Str a)) = length (dir (Str b))) as El by (rewrite !Hlen; lia). clear - Eq' El.
      revert Eq' El. generalize (dir (Str a)) (dir (Str b)). intros x. induction x as [|c x IH]; intros [|d y] Eq El; try discriminate; [reflexivity|]. injection Eq as -> Eq. f_equal. apply IH; [exact Eq|cbn in El; lia]. }
    apply In_nth_error in H1, K1. destruct H1 as (i & Hi), K1 as (j & Hj). assert (forall n, blt n n = false) as Hirr by apply blt_irrefl.
    destruct (Nat.lt_trichotomy i j) as [L|[L|L]].
    - pose proof (Hs i j a b L Hi Hj) as Hb. apply blt_before in Hb. rewrite E, Hirr in Hb. discriminate.
    - subst j. rewrite Hi in Hj. injection Hj as ->. reflexivity.
    - pose proof (Hs j i b a L Hj Hi) as Hb. apply blt_before in Hb. rewrite E, Hirr in Hb. discriminate.
  Qed.
  Theorem search_longest (ok : bytes -> bool) : (forall s, ok s = true <-> begins r (dir s)) -> search dir t r = Ret (longest ok t).
  Proof. intros Hok. destruct search_ok as (m & -> & Hm). f_equal. exact (longest_unique _ _ Hm (longest_ok ok Hok)). Qed.
End Contract.
