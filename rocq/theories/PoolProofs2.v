(** The search over pooled objects computes what the search over fresh objects
    computes. *)
From Coq Require Import Permutation.
From Verif Require Import Base BaseLemmas GoMap Store Compression Postings Merger Index Pool PoolProofs.
Local Open Scope Z_scope.

Definition holds (m : mem) (a : addr) (it : iter) : Prop :=
  exists c, m a = Some c /\ iter_of c = Some it.
Definition buf (m : mem) (s : addr * nat) (l : list Z) : Prop :=
  exists arr, m (fst s) = Some (CBuf arr) /\ (snd s <= length arr)%nat /\ firstn (snd s) arr = l.
(* nothing held is lost, and everything stays in its kind *)
Definition keeps (m m' : mem) : Prop :=
  forall a c q, m a = Some c -> fits q c -> exists c', m' a = Some c' /\ fits q c'.
(* posting lists not in L are untouched *)
Definition unmoved (L : list addr) (m m' : mem) : Prop :=
  forall a c it, m a = Some c -> iter_of c = Some it -> ~ In a L -> m' a = Some c.
Definition bufs_kept (m m' : mem) : Prop :=
  forall b arr, m b = Some (CBuf arr) -> m' b = Some (CBuf arr).

Lemma keeps_refl : forall m, keeps m m.
Proof. intros m a c q H1 H2. eauto. Qed.
Lemma keeps_trans : forall m1 m2 m3, keeps m1 m2 -> keeps m2 m3 -> keeps m1 m3.
Proof.
  intros m1 m2 m3 H1 H2 a c q Ha Hf. destruct (H1 a c q Ha Hf) as (c' & Ha' & Hf').
  exact (H2 a c' q Ha' Hf').
Qed.
Lemma unmoved_refl : forall L m, unmoved L m m.
Proof. intros L m a c it H _ _. exact H. Qed.
Lemma unmoved_trans : forall L L' m1 m2 m3, unmoved L m1 m2 -> unmoved L' m2 m3 ->
  unmoved (L ++ L') m1 m3.
Proof.
  intros L L' m1 m2 m3 H1 H2 a c it Ha Hi Hn.
  apply (H2 a c it); [|exact Hi|].
  - apply (H1 a c it Ha Hi). intros H. apply Hn, in_or_app. now left.
  - intros H. apply Hn, in_or_app. now right.
Qed.
Lemma unmoved_incl : forall L L' m m', unmoved L m m' -> incl L L' -> unmoved L' m m'.
Proof. intros L L' m m' H Hi a c it Ha Hc Hn. apply (H a c it Ha Hc). intros Hx. apply Hn. now apply Hi. Qed.
Lemma holds_unmoved : forall L m m' a it, unmoved L m m' -> ~ In a L -> holds m a it -> holds m' a it.
Proof. intros L m m' a it H Hn (c & Ha & Hi). exists c. split; [exact (H a c it Ha Hi Hn)|exact Hi]. Qed.
Lemma holds_all_unmoved : forall L m m' rid its, unmoved L m m' -> (forall a, In a rid -> ~ In a L) ->
  Forall2 (holds m) rid its -> Forall2 (holds m') rid its.
Proof.
  intros L m m' rid its H Hd F. induction F as [|a it rid its Ha F IH]; constructor.
  - apply (holds_unmoved L m m'); [exact H| |exact Ha]. apply Hd. now left.
  - apply IH. intros b Hb. apply Hd. now right.
Qed.

(** *** Methods keep the kind of an object *)
Definition same_kind (i i' : iter) : Prop :=
  match i, i' with
  | IVb _, IVb _ | IBit _, IBit _ | ISlice _, ISlice _ => True
  | ISkip s, ISkip s' => sk_gap s' = sk_gap s
  | _, _ => False
  end.
Definition tame {A} (f : iter -> res A * iter) : Prop :=
  forall i, same_kind i (snd (f i)).
Lemma same_kind_refl : forall i, same_kind i i.
Proof. intros []; cbn; auto. Qed.

Lemma gap_readSkipping : forall s, sk_gap (snd (sk_readSkipping s)) = sk_gap s.
Proof.
  intros s. unfold sk_readSkipping. destruct (ReadUInt16 (sk_in s)) as [[d|e| |] r1]; try reflexivity.
  destruct (UnpackPos d) as [p l]. destruct (ReadVUInt32 r1) as [[c|e| |] r2]; reflexivity.
Qed.
Lemma gap_next : forall s, sk_gap (snd (sk_next s)) = sk_gap s.
Proof.
  intros s. unfold sk_next. destruct (negb (sk_hasNext s)); [reflexivity|].
  destruct (Seek (sk_in s) 0 1) as [[p|e| |] r0]; try reflexivity.
  cbv zeta. destruct (p =? sk_nextpos (sk_set_in s r0)).
  - pose proof (gap_readSkipping (sk_set_in s r0)) as G.
    destruct (sk_readSkipping (sk_set_in s r0)) as [[u|e| |] s']; cbn in *; exact G.
  - destruct (ReadVUInt32 (sk_in (sk_set_in s r0))) as [[c|e| |] r1]; reflexivity.
Qed.
Lemma gap_scan : forall fuel s to, sk_gap (snd (sk_scan fuel s to)) = sk_gap s.
Proof.
  induction fuel as [|f IH]; intros s to; [reflexivity|]. cbn [sk_scan].
  destruct (sk_hasNext s); [|reflexivity].
  pose proof (gap_next s) as G. destruct (sk_next s) as [[c|e| |] s']; cbn in *; try exact G.
  destruct (c >=? to); cbn; [exact G|]. now rewrite IH.
Qed.
Lemma gap_move : forall s p, sk_gap (snd (sk_move s p)) = sk_gap s.
Proof. intros s p. unfold sk_move. destruct (Seek (sk_in s) p 0) as [[x|e| |] r]; reflexivity. Qed.
Lemma gap_skip : forall fuel k s to, sk_gap (snd (sk_skip fuel k s to)) = sk_gap s.
Proof.
  induction fuel as [|f IH]; intros k s to; [reflexivity|]. cbn [sk_skip].
  destruct (negb (sk_last s) && sk_hasNext s); [|reflexivity].
  destruct (Seek (sk_in s) 0 1) as [[pp|e| |] r0]; try reflexivity.
  pose proof (gap_move s (sk_nextpos s)) as G1.
  destruct (sk_move s (sk_nextpos s)) as [[u|e| |] s1]; cbn in G1; try exact G1.
  cbv zeta.
  match goal with |- context [sk_next ?x] => set (s2 := x) end.
  assert (G2 : sk_gap s2 = sk_gap s).
  { unfold s2. match goal with |- context [if ?b then _ else _] => destruct b end; exact G1. }
  pose proof (gap_next s2) as G3. destruct (sk_next s2) as [[c|e| |] s3]; cbn in G3; cbn; try congruence.
  destruct ((c <? to) && negb (sk_last s3)); [rewrite IH; congruence|].
  destruct (c >=? to); [|rewrite IH; congruence].
  pose proof (gap_move s3 pp) as G4. destruct (sk_move s3 pp) as [[u'|e| |] s4]; cbn in *; congruence.
Qed.
Lemma gap_lowerBound : forall s to, sk_gap (snd (sk_lowerBound s to)) = sk_gap s.
Proof.
  intros s to. unfold sk_lowerBound. destruct (negb (sk_valid s)); [reflexivity|].
  destruct (sk_cur s >=? to); [reflexivity|]. cbv zeta.
  destruct ((sk_index s >? 0) && (sk_gap s =? 0)); [reflexivity|].
  match goal with |- context [sk_skip ?a ?b ?c ?d] =>
    pose proof (gap_skip a b c d) as G; destruct (sk_skip a b c d) as [[u|e| |] s'] end; cbn [snd] in *; try exact G.
  rewrite gap_scan. exact G.
Qed.
Lemma tame_next : tame it_next.
Proof.
  intros [s|s|s|s]; cbn.
  - now destruct (sl_next s).
  - now destruct (vl_next s).
  - pose proof (gap_next s). now destruct (sk_next s).
  - now destruct (bl_next s).
Qed.
Lemma tame_lower : forall to, tame (fun i => it_lowerBound i to).
Proof.
  intros to [s|s|s|s]; cbn.
  - now destruct (sl_lowerBound s to).
  - now destruct (vl_lowerBound s to).
  - pose proof (gap_lowerBound s to). now destruct (sk_lowerBound s to).
  - now destruct (bl_lowerBound s to).
Qed.
Lemma tame_step : tame step_next.
Proof.
  intros i. unfold step_next. destruct (it_hasNext i); [|apply same_kind_refl].
  pose proof (tame_next i) as H. destruct (it_next i) as [[v|e| |] i']; exact H.
Qed.

Lemma put_fits : forall q c i i', iter_of c = Some i -> same_kind i i' -> fits q c ->
  fits q (put_iter c i') /\ iter_of (put_iter c i') = Some i'.
Proof.
  intros q c i i' Hi Hk Hf. destruct c as [s|s|b s|arr]; cbn in Hi; try discriminate;
    injection Hi as <-; destruct i'; cbn in Hk; try contradiction; destruct q; cbn in *;
    try contradiction; split; auto; congruence.
Qed.
Lemma put_iter_of : forall c i i', iter_of c = Some i -> same_kind i i' ->
  iter_of (put_iter c i') = Some i'.
Proof.
  intros c i i' Hi Hk. destruct c as [s|s|b s|arr]; cbn in Hi; try discriminate;
    injection Hi as <-; destruct i'; cbn in Hk; try contradiction; reflexivity.
Qed.

(** *** The rules *)
Lemma wp_rbind {A B} : forall (p : prog (res A)) (f : A -> prog (res B)) m Q,
  wp m p (fun r m' => match r with
                      | Ret a => wp m' (f a) Q
                      | Fail e => Q (Fail e) m' | Panic => Q Panic m' | NoFuel => Q NoFuel m'
                      end) -> wp m (rbind p f) Q.
Proof.
  intros p f m Q H. unfold rbind. apply wp_bind. eapply wp_mono; [|exact H].
  intros [a|e| |] m' Hr; exact Hr.
Qed.

Lemma wp_call {A} : forall m a i (f : iter -> res A * iter) (Q : res A -> mem -> Prop),
  holds m a i -> tame f ->
  (forall m', holds m' a (snd (f i)) -> keeps m m' -> unmoved [a] m m' -> bufs_kept m m' ->
     Q (fst (f i)) m') ->
  wp m (call a f) Q.
Proof.
  intros m a i f Q (c & Ha & Hi) Ht HQ. unfold call. cbn. exists c. split; [exact Ha|].
  rewrite Hi. specialize (Ht i). destruct (f i) as [x i'] eqn:Ef. cbn in *.
  split; [now exists c|]. apply HQ.
  - exists (put_iter c i'). split; [apply heap_set_same|]. exact (put_iter_of c i i' Hi Ht).
  - intros b c' q Hb Hf. destruct (Nat.eq_dec b a) as [-> |Hne].
    + rewrite Ha in Hb. injection Hb as <-. exists (put_iter c i'). split; [apply heap_set_same|].
      exact (proj1 (put_fits q c i i' Hi Ht Hf)).
    + exists c'. rewrite heap_set_other by exact Hne. auto.
  - intros b c' it Hb _ Hn. rewrite heap_set_other; [exact Hb|]. intros ->. apply Hn. now left.
  - intros b arr Hb. rewrite heap_set_other; [exact Hb|]. intros ->. rewrite Ha in Hb.
    injection Hb as ->. discriminate.
Qed.
Lemma wp_ask {A} : forall m a i (f : iter -> res A) (Q : res A -> mem -> Prop),
  holds m a i -> Q (f i) m -> wp m (ask a f) Q.
Proof. intros m a i f Q (c & Ha & Hi) HQ. cbn. exists c. split; [exact Ha|]. rewrite Hi. exact HQ. Qed.

Lemma upd_length : forall l n x, length (upd l n x) = length l.
Proof. induction l as [|y l IH]; intros [|n] x; cbn; auto. Qed.
Lemma firstn_upd : forall l n x, (n < length l)%nat -> firstn (S n) (upd l n x) = firstn n l ++ [x].
Proof.
  induction l as [|y l IH]; intros [|n] x H; cbn in H; try lia; [reflexivity|].
  cbn [upd]. change (firstn (S (S n)) (y :: upd l n x)) with (y :: firstn (S n) (upd l n x)).
  rewrite IH by lia. reflexivity.
Qed.
Lemma firstn_upd_swap : forall l n k x, firstn k (upd l n x) = upd (firstn k l) n x.
Proof.
  induction l as [|y l IH]; intros n k x; [destruct n, k; reflexivity|].
  destruct k as [|k]; [now destruct n|]. destruct n as [|n]; cbn; [reflexivity|]. now rewrite IH.
Qed.
Lemma skipn_upd : forall l n x, skipn (S n) (upd l n x) = skipn (S n) l.
Proof. induction l as [|y l IH]; intros [|n] x; try reflexivity. cbn [upd]. apply IH. Qed.
Lemma nth_upd : forall l n x, (n < length l)%nat -> nth_error (upd l n x) n = Some x.
Proof. induction l as [|y l IH]; intros [|n] x H; cbn in *; try lia; [reflexivity|]. apply IH. lia. Qed.

Lemma wp_append : forall grow m ta n l x (Q : res (addr * nat) -> mem -> Prop),
  buf m (ta, n) l ->
  (forall m' s', buf m' s' (l ++ [x]) ->
     (forall b arr, b <> ta -> m b = Some (CBuf arr) -> m' b = Some (CBuf arr)) ->
     keeps m m' -> unmoved [] m m' -> (fst s' = ta \/ m (fst s') = None) -> Q (Ret s') m') ->
  wp m (append grow (ta, n) x) Q.
Proof.
  intros grow m ta n l x Q (arr & Ha & Hn & Hl) HQ. cbn in Ha, Hn, Hl. unfold append. cbn [wp]. exists (CBuf arr).
  split; [exact Ha|]. destruct (Nat.ltb_spec n (length arr)) as [Hlt|Hge].
  - cbn. split; [now exists (CBuf arr)|]. apply HQ.
    + exists (upd arr n x). cbn [fst snd]. rewrite heap_set_same. rewrite upd_length.
      split; [reflexivity|]. split; [lia|]. rewrite firstn_upd by exact Hlt. now rewrite Hl.
    + intros b arr' Hb Hm. now rewrite heap_set_other by exact Hb.
    + intros b c q Hb Hf. destruct (Nat.eq_dec b ta) as [-> |Hne].
      * rewrite Ha in Hb. injection Hb as <-. destruct q; cbn in Hf; try contradiction.
        exists (CBuf (upd arr n x)). rewrite heap_set_same. now split.
      * exists c. rewrite heap_set_other by exact Hne. auto.
    + intros b c it Hb Hi _. rewrite heap_set_other; [exact Hb|]. intros ->. rewrite Ha in Hb.
      injection Hb as <-. discriminate.
    + now left.
  - cbn. intros a' Hnew. assert (Hne : forall b c, m b = Some c -> b <> a') by congruence.
    assert (n = length arr) by lia. subst n. rewrite firstn_all in *. subst arr. apply HQ.
    + exists (l ++ x :: repeat 0 (grow (length l))). cbn [fst snd]. rewrite heap_set_same.
      split; [reflexivity|]. split; [rewrite app_length; cbn; lia|].
      replace (S (length l)) with (length (l ++ [x])) by (rewrite app_length; cbn; lia).
      change (l ++ x :: repeat 0 (grow (length l))) with (l ++ [x] ++ repeat 0 (grow (length l))).
      rewrite app_assoc, firstn_app, Nat.sub_diag, firstn_all. cbn. now rewrite app_nil_r.
    + intros b arr' _ Hm. now rewrite heap_set_other by (eapply Hne; exact Hm).
    + intros b c q Hb Hf. exists c. rewrite heap_set_other by (eapply Hne; exact Hb). auto.
    + intros b c it Hb Hi _. now rewrite heap_set_other by (eapply Hne; exact Hb).
    + right. exact Hnew.
Qed.

Lemma buf_length : forall m s l, buf m s l -> length l = snd s.
Proof. intros m s l (arr & _ & Hn & <-). rewrite firstn_length. lia. Qed.
Lemma nth_skipn {X} : forall (l : list X) j c cs, skipn j l = c :: cs ->
  nth_error l j = Some c /\ (j < length l)%nat /\ skipn (S j) l = cs.
Proof.
  induction l as [|y l IH]; intros [|j] c cs H; cbn in *; try discriminate.
  - injection H as -> ->. repeat split. lia.
  - destruct (IH j c cs H) as (H1 & H2 & H3). repeat split; [exact H1|lia|exact H3].
Qed.
Lemma nth_firstn {X} : forall (l : list X) n j, (j < n)%nat -> nth_error (firstn n l) j = nth_error l j.
Proof. induction l as [|y l IH]; intros [|n] [|j] H; cbn; try reflexivity; try lia. apply IH. lia. Qed.

Lemma wp_elem : forall m s l j c (Q : res Z -> mem -> Prop),
  buf m s l -> nth_error l j = Some c -> Q (Ret c) m -> wp m (elem s j) Q.
Proof.
  intros m [a n] l j c Q B Hj HQ. pose proof (buf_length _ _ _ B) as L. cbn in L.
  destruct B as (arr & Ha & Hn & Hl). cbn [fst snd] in *. unfold elem, incr. cbn [wp]. exists (CBuf arr). split; [exact Ha|].
  assert (Hlt : (j < length l)%nat) by (apply nth_error_Some; congruence).
  destruct (Nat.ltb_spec j n); [|lia]. rewrite <- Hl, nth_firstn in Hj by assumption.
  rewrite Hj. exact HQ.
Qed.
Lemma wp_incr : forall m s l j c (Q : res unit -> mem -> Prop),
  buf m s l -> nth_error l j = Some c ->
  (forall y m', increment c = Ret y -> buf m' s (upd l j y) ->
     (forall b arr, b <> fst s -> m b = Some (CBuf arr) -> m' b = Some (CBuf arr)) ->
     keeps m m' -> unmoved [] m m' -> Q (Ret tt) m') ->
  (increment c = Panic -> Q Panic m) ->
  wp m (incr s j) Q.
Proof.
  intros m [a n] l j c Q B Hj HQ HP. pose proof (buf_length _ _ _ B) as L. cbn in L.
  destruct B as (arr & Ha & Hn & Hl). cbn [fst snd] in *. unfold elem, incr. cbn [wp]. exists (CBuf arr). split; [exact Ha|].
  assert (Hlt : (j < length l)%nat) by (apply nth_error_Some; congruence).
  destruct (Nat.ltb_spec j n); [|lia]. pose proof Hj as Hj'. rewrite <- Hl, nth_firstn in Hj' by assumption.
  rewrite Hj'. destruct (increment c) as [y|e| |] eqn:E.
  - cbn. split; [now exists (CBuf arr)|]. apply (HQ y); [reflexivity|..].
    + exists (upd arr j y). cbn [fst snd]. rewrite heap_set_same, upd_length.
      split; [reflexivity|]. split; [exact Hn|]. now rewrite firstn_upd_swap, Hl.
    + intros b arr' Hb Hm. now rewrite heap_set_other by exact Hb.
    + intros b c' q Hb Hf. destruct (Nat.eq_dec b a) as [-> |Hne].
      * rewrite Ha in Hb. injection Hb as <-. destruct q; cbn in Hf; try contradiction.
        exists (CBuf (upd arr j y)). rewrite heap_set_same. now split.
      * exists c'. rewrite heap_set_other by exact Hne. auto.
    + intros b c' it Hb Hi _. rewrite heap_set_other; [exact Hb|]. intros ->. rewrite Ha in Hb.
      injection Hb as <-. discriminate.
  - unfold increment in E. destruct (_ =? _); discriminate.
  - cbn. now apply HP.
  - unfold increment in E. destruct (_ =? _); discriminate.
Qed.
Lemma buf_kept : forall m m' s l, bufs_kept m m' -> buf m s l -> buf m' s l.
Proof. intros m m' s l H (arr & Ha & R). exists arr. split; [now apply H|exact R]. Qed.
Lemma buf_other : forall m m' s l ta,
  (forall b arr, b <> ta -> m b = Some (CBuf arr) -> m' b = Some (CBuf arr)) ->
  fst s <> ta -> buf m s l -> buf m' s l.
Proof. intros m m' s l ta H Hs (arr & Ha & R). exists arr. split; [now apply H|exact R]. Qed.
Lemma buf_some : forall m s l, buf m s l -> m (fst s) <> None.
Proof. intros m s l (arr & Ha & _). congruence. Qed.

(** *** One list of CPMerge *)
Definition scan_post (m : mem) (it : list addr) (cand : addr * nat) (pure : res (list Z))
    (r : res (addr * nat)) (m' : mem) : Prop :=
  keeps m m' /\ unmoved it m m' /\
  match pure with
  | Ret l => exists tmp' cl', r = Ret tmp' /\ buf m' tmp' l /\ buf m' cand cl' /\ fst cand <> fst tmp'
  | Fail e => r = Fail e | Panic => r = Panic | NoFuel => r = NoFuel
  end.
Lemma scan_post_step : forall m m1 it cand pure r m',
  keeps m m1 -> unmoved it m m1 -> scan_post m1 it cand pure r m' -> scan_post m it cand pure r m'.
Proof.
  intros m m1 it cand pure r m' K U (K' & U' & R). split; [exact (keeps_trans _ _ _ K K')|].
  split; [|exact R]. eapply unmoved_incl; [exact (unmoved_trans _ _ _ _ _ U U')|].
  intros x Hx. apply in_app_or in Hx. tauto.
Qed.
Lemma unmoved_nil : forall L m m', unmoved [] m m' -> unmoved L m m'.
Proof. intros L m m' H. eapply unmoved_incl; [exact H|]. intros x []. Qed.

Section Scan.
Context (grow : nat -> nat).
Lemma append_it : forall m cand cl tmp tl it i x (Q : res (addr * nat) -> mem -> Prop),
  buf m cand cl -> buf m tmp tl -> fst cand <> fst tmp -> holds m it i ->
  (forall m' s', buf m' s' (tl ++ [x]) -> buf m' cand cl -> fst cand <> fst s' -> holds m' it i ->
     keeps m m' -> unmoved [] m m' -> Q (Ret s') m') ->
  wp m (append grow tmp x) Q.
Proof.
  intros m cand cl [ta n] tl it i x Q Bc Bt Hne Hi HQ.
  eapply wp_append; [exact Bt|]. intros m' s' B' Ho K U Hs. apply HQ.
  - exact B'.
  - exact (buf_other _ _ _ _ ta Ho Hne Bc).
  - destruct Hs as [-> |Hs]; [exact Hne|]. intros E. apply (buf_some _ _ _ Bc). now rewrite E.
  - apply (holds_unmoved [] m m'); [exact U|intros []|exact Hi].
  - exact K. - exact U.
Qed.

Lemma scan_wp : forall fuel m cand j cur it tmp cl cs tl i,
  buf m cand cl -> skipn j cl = cs -> buf m tmp tl -> fst cand <> fst tmp -> holds m it i ->
  wp m (scan_p grow fuel cand j cur it tmp) (scan_post m [it] cand (scan_loop fuel cs cur i tl)).
Proof.
  induction fuel as [|f IH]; intros m cand j cur it tmp cl cs tl i Bc Hcs Bt Hne Hi.
  { cbn. split; [apply keeps_refl|]. split; [apply unmoved_refl|reflexivity]. }
  pose proof (buf_length _ _ _ Bc) as L.
  (* append a new candidate, then advance *)
  assert (Push : forall current cs',
    skipn j cl = cs' ->
    wp m (rbind (append grow tmp (NewMergeCandidate current 1)) (fun tmp' =>
          rbind (advance_it it) (fun cur' => scan_p grow f cand j cur' it tmp')))
       (scan_post m [it] cand
         (match step_next i with
          | (Ret cur', it') => scan_loop f cs' cur' it' (tl ++ [NewMergeCandidate current 1])
          | (Fail e, _) => Fail e | (Panic, _) => Panic | (NoFuel, _) => NoFuel
          end))).
  { intros current cs' Hcs'. apply wp_rbind. eapply append_it; [exact Bc|exact Bt|exact Hne|exact Hi|].
    intros m1 s1 B1 Bc1 Hne1 Hi1 K1 U1. apply wp_rbind. unfold advance_it.
    eapply wp_call; [exact Hi1|exact tame_step|]. intros m2 Hi2 K2 U2 F2.
    assert (K : keeps m m2) by (eapply keeps_trans; eassumption).
    assert (U : unmoved [it] m m2).
    { exact (unmoved_trans [] [it] m m1 m2 U1 U2). }
    destruct (step_next i) as [[cur'|e| |] i']; cbn [fst snd] in *.
    - eapply wp_mono; [intros r m3 Hr; exact (scan_post_step _ _ _ _ _ _ _ K U Hr)|].
      apply (IH m2 cand j cur' it s1 cl cs' (tl ++ [NewMergeCandidate current 1]) i'); auto.
      + exact (buf_kept _ _ _ _ F2 Bc1). + exact (buf_kept _ _ _ _ F2 B1).
    - split; [exact K|]. split; [exact U|reflexivity].
    - split; [exact K|]. split; [exact U|reflexivity].
    - split; [exact K|]. split; [exact U|reflexivity]. }
  (* append an old candidate *)
  assert (Copy : forall c cs' curc, skipn j cl = c :: cs' ->
    wp m (rbind (append grow tmp c) (fun tmp' => scan_p grow f cand (S j) curc it tmp'))
       (scan_post m [it] cand (scan_loop f cs' curc i (tl ++ [c])))).
  { intros c cs' curc Hcs'. destruct (nth_skipn _ _ _ _ Hcs') as (_ & _ & Hcs2).
    apply wp_rbind. eapply append_it; [exact Bc|exact Bt|exact Hne|exact Hi|].
    intros m1 s1 B1 Bc1 Hne1 Hi1 K1 U1.
    eapply wp_mono; [intros r m3 Hr; exact (scan_post_step _ _ _ _ _ _ _ K1 (unmoved_nil _ _ _ U1) Hr)|].
    now apply (IH m1 cand (S j) curc it s1 cl cs' (tl ++ [c]) i). }
  cbn [scan_p scan_loop]. destruct (Nat.leb_spec (snd cand) j) as [Hj|Hj].
  - assert (cs = []) as ->.
    { rewrite <- Hcs. apply skipn_all2. lia. }
    destruct cur as [current|].
    + now apply Push.
    + cbn. split; [apply keeps_refl|]. split; [apply unmoved_refl|].
      exists tmp, cl. auto.
  - destruct cs as [|c cs'].
    { exfalso. assert (H : length (skipn j cl) = 0%nat) by now rewrite Hcs.
      rewrite skipn_length in H. lia. }
    destruct (nth_skipn _ _ _ _ Hcs) as (Hc & Hjl & Hcs2).
    apply wp_rbind. eapply wp_elem; [exact Bc|exact Hc|].
    destruct cur as [current|].
    + destruct (Position c >? current); [now apply Push|].
      destruct (Position c <? current); [now apply Copy|].
      apply wp_rbind. eapply wp_incr; [exact Bc|exact Hc|..].
      * intros y m0 Hy Bc0 Ho0 K0 U0. rewrite Hy. cbn [bind].
        assert (Bt0 : buf m0 tmp tl).
        { eapply buf_other; [exact Ho0| |exact Bt]. congruence. }
        assert (Hi0 : holds m0 it i) by (apply (holds_unmoved [] m m0); [exact U0|intros []|exact Hi]).
        apply wp_rbind. eapply wp_elem; [exact Bc0|apply nth_upd; exact Hjl|].
        apply wp_rbind. eapply append_it; [exact Bc0|exact Bt0|exact Hne|exact Hi0|].
        intros m1 s1 B1 Bc1 Hne1 Hi1 K1 U1. apply wp_rbind. unfold advance_it.
        eapply wp_call; [exact Hi1|exact tame_step|]. intros m2 Hi2 K2 U2 F2.
        assert (K : keeps m m2).
        { eapply keeps_trans; [exact K0|]. eapply keeps_trans; eassumption. }
        assert (U : unmoved [it] m m2).
        { exact (unmoved_trans [] [it] m m0 m2 U0 (unmoved_trans [] [it] m0 m1 m2 U1 U2)). }
        destruct (step_next i) as [[cur'|e| |] i']; cbn [fst snd] in *.
        -- eapply wp_mono; [intros r m3 Hr; exact (scan_post_step _ _ _ _ _ _ _ K U Hr)|].
           apply (IH m2 cand (S j) cur' it s1 (upd cl j y) cs' (tl ++ [y]) i'); auto.
           ++ exact (buf_kept _ _ _ _ F2 Bc1). ++ now rewrite skipn_upd.
           ++ exact (buf_kept _ _ _ _ F2 B1).
        -- split; [exact K|]. split; [exact U|reflexivity].
        -- split; [exact K|]. split; [exact U|reflexivity].
        -- split; [exact K|]. split; [exact U|reflexivity].
      * intros Hp. rewrite Hp. cbn. split; [apply keeps_refl|]. split; [apply unmoved_refl|reflexivity].
    + now apply Copy.
Qed.

Definition lists_post (m : mem) (rid : list addr) (pure : res (list Z))
    (r : res ((addr * nat) * (addr * nat))) (m' : mem) : Prop :=
  keeps m m' /\ unmoved rid m m' /\
  match pure with
  | Ret l => exists cand' tmp' tl', r = Ret (cand', tmp') /\ buf m' cand' l /\ buf m' tmp' tl' /\
                                    fst cand' <> fst tmp'
  | Fail e => r = Fail e | Panic => r = Panic | NoFuel => r = NoFuel
  end.
Lemma lists_post_step : forall m m1 a rid pure r m',
  keeps m m1 -> unmoved [a] m m1 -> lists_post m1 rid pure r m' -> lists_post m (a :: rid) pure r m'.
Proof.
  intros m m1 a rid pure r m' K U (K' & U' & R). split; [exact (keeps_trans _ _ _ K K')|].
  split; [|exact R]. exact (unmoved_trans [a] rid m m1 m' U U').
Qed.
Lemma buf_empty : forall m s l, buf m s l -> buf m (fst s, O) [].
Proof. intros m s l (arr & Ha & _ & _). exists arr. cbn. repeat split; [exact Ha|lia]. Qed.

Lemma scans_wp : forall rid m cand tmp cl tl its,
  buf m cand cl -> buf m tmp tl -> fst cand <> fst tmp ->
  Forall2 (holds m) rid its -> NoDup rid ->
  wp m (scans_p grow rid cand tmp) (lists_post m rid (scan_lists its cl)).
Proof.
  induction rid as [|a rid IH]; intros m cand tmp cl tl its Bc Bt Hne F N.
  { inversion F; subst. cbn. split; [apply keeps_refl|]. split; [apply unmoved_refl|].
    exists cand, tmp, tl. auto. }
  inversion F as [|a' i rid' its' Ha F' E1 E2]; subst. cbn [scans_p scan_lists].
  inversion N as [|a' rid' Hnin N']; subst.
  apply wp_rbind. eapply wp_ask; [exact Ha|].
  destruct (get_valid i) as [cur|e| |]; cbn [bind].
  2-4: (split; [apply keeps_refl|]; split; [apply unmoved_refl|reflexivity]).
  apply wp_rbind. eapply wp_ask; [exact Ha|]. cbn beta iota.
  apply wp_rbind. rewrite <- (buf_length _ _ _ Bc).
  eapply wp_mono; [|apply (scan_wp _ m cand 0 cur a (fst tmp, O) cl cl [] i Bc eq_refl (buf_empty _ _ _ Bt) Hne Ha)].
  intros r m1 (K & U & R).
  destruct (scan_loop (S (length cl + Z.to_nat (it_len i))) cl cur i []) as [l|e| |]; cbn [bind].
  - destruct R as (tmp' & cl' & -> & B1 & B2 & Hne').
    eapply wp_mono; [intros r m2 Hr; exact (lists_post_step _ _ _ _ _ _ _ K U Hr)|].
    apply (IH m1 tmp' cand l cl' its'); auto.
    apply (holds_all_unmoved [a] m m1); [exact U| |exact F'].
    intros b Hb [<- |[]]. contradiction.
  - subst r. split; [exact K|]. split; [|reflexivity].
    eapply unmoved_incl; [exact U|]. intros x [<- |[]]. now left.
  - subst r. split; [exact K|]. split; [|reflexivity].
    eapply unmoved_incl; [exact U|]. intros x [<- |[]]. now left.
  - subst r. split; [exact K|]. split; [|reflexivity].
    eapply unmoved_incl; [exact U|]. intros x [<- |[]]. now left.
Qed.

(** *** The long lists *)
Definition prune_f (c : Z) (i : iter) : res Z * iter :=
  let '(r, i') := it_lowerBound i (Position c) in
  (match r with
   | Ret current => if current =? Position c then increment c else Ret c
   | Fail ErrIteratorIsNotDereferencable => Ret c
   | Fail e => Fail e
   | Panic => Panic | NoFuel => NoFuel
   end, i').
Lemma tame_prune : forall c, tame (prune_f c).
Proof.
  intros c i. unfold prune_f. pose proof (tame_lower (Position c) i) as H. cbn in H.
  destruct (it_lowerBound i (Position c)) as [r i']. exact H.
Qed.
Lemma prune_eq : forall i left T c cs,
  prune i left T (c :: cs) =
  (c' <- fst (prune_f c i) ;; cs'' <- prune (snd (prune_f c i)) left T cs ;;
   Ret (if Overlap c' + left >=? T then c' :: cs'' else cs'')).
Proof.
  intros i left T c cs. cbn [prune]. unfold prune_f. destruct (it_lowerBound i (Position c)) as [r i'].
  reflexivity.
Qed.
Lemma prune_wp : forall cs m cand j it left T tmp cl tl i,
  buf m cand cl -> skipn j cl = cs -> buf m tmp tl -> fst cand <> fst tmp -> holds m it i ->
  wp m (prune_p grow (length cs) cand j it left T tmp)
     (scan_post m [it] cand (l <- prune i left T cs ;; Ret (tl ++ l))).
Proof.
  induction cs as [|c cs IH]; intros m cand j it left T tmp cl tl i Bc Hcs Bt Hne Hi.
  { cbn. rewrite app_nil_r. split; [apply keeps_refl|]. split; [apply unmoved_refl|].
    exists tmp, cl. auto. }
  destruct (nth_skipn _ _ _ _ Hcs) as (Hc & Hjl & Hcs2).
  rewrite prune_eq. cbn [length prune_p].
  apply wp_rbind. eapply wp_elem; [exact Bc|exact Hc|].
  apply wp_rbind. match goal with |- wp _ _ ?Q => change (wp m (call it (prune_f c)) Q) end.
  eapply wp_call; [exact Hi|apply tame_prune|]. intros m1 Hi1 K1 U1 F1.
  destruct (fst (prune_f c i)) as [c'|e| |]; cbn [bind].
  2-4: (split; [exact K1|]; split; [exact U1|reflexivity]).
  pose proof (buf_kept _ _ _ _ F1 Bc) as Bc1. pose proof (buf_kept _ _ _ _ F1 Bt) as Bt1.
  destruct (Overlap c' + left >=? T).
  - apply wp_rbind. eapply append_it; [exact Bc1|exact Bt1|exact Hne|exact Hi1|].
    intros m2 s2 B2 Bc2 Hne2 Hi2 K2 U2.
    eapply wp_mono; [|apply (IH m2 cand (S j) it left T s2 cl (tl ++ [c']) (snd (prune_f c i))); auto].
    intros r m3 Hr.
    assert (U : unmoved [it] m m2).
    { eapply unmoved_incl; [exact (unmoved_trans _ _ _ _ _ U1 U2)|]. intros x [<- |[]]. now left. }
    pose proof (scan_post_step _ _ _ _ _ _ _ (keeps_trans _ _ _ K1 K2) U Hr) as P.
    destruct (prune (snd (prune_f c i)) left T cs) as [l|e| |]; cbn [bind] in *; try exact P.
    rewrite <- app_assoc in P. exact P.
  - eapply wp_mono; [|apply (IH m1 cand (S j) it left T tmp cl tl (snd (prune_f c i))); auto].
    intros r m3 Hr. pose proof (scan_post_step _ _ _ _ _ _ _ K1 U1 Hr) as P.
    destruct (prune (snd (prune_f c i)) left T cs) as [l|e| |]; cbn [bind] in *; exact P.
Qed.

Lemma zlen_forall2 {X Y} : forall (R : X -> Y -> Prop) l l', Forall2 R l l' -> zlen l = zlen l'.
Proof. intros R l l' H. induction H; [reflexivity|]. rewrite !zlen_cons. lia. Qed.

Lemma prunes_wp : forall rid m T cand tmp cl tl its,
  buf m cand cl -> buf m tmp tl -> fst cand <> fst tmp ->
  Forall2 (holds m) rid its -> NoDup rid ->
  wp m (prunes_p grow rid T cand tmp) (lists_post m rid (prune_lists its T cl)).
Proof.
  induction rid as [|a rid IH]; intros m T cand tmp cl tl its Bc Bt Hne F N.
  { inversion F; subst. cbn. split; [apply keeps_refl|]. split; [apply unmoved_refl|].
    exists cand, tmp, tl. auto. }
  inversion F as [|a' i rid' its' Ha F' E1 E2]; subst. cbn [prunes_p].
  inversion N as [|a' rid' Hnin N']; subst.
  pose proof (buf_length _ _ _ Bc) as L. destruct (Nat.eqb_spec (snd cand) 0) as [Hz|Hz].
  { destruct cl as [|c cl]; [|cbn in L; lia]. cbn.
    split; [apply keeps_refl|]. split; [apply unmoved_refl|]. exists cand, tmp, tl. auto. }
  destruct cl as [|c cl]; [cbn in L; lia|]. cbn [prune_lists].
  rewrite (zlen_forall2 _ _ _ F'). apply wp_rbind. rewrite <- L.
  eapply wp_mono; [|apply (prune_wp (c :: cl) m cand 0 a (zlen its') T (fst tmp, O) (c :: cl) [] i Bc eq_refl (buf_empty _ _ _ Bt) Hne Ha)].
  intros r m1 (K & U & R).
  destruct (prune i (zlen its') T (c :: cl)) as [l|e| |]; cbn [bind app] in *.
  - destruct R as (tmp' & cl' & -> & B1 & B2 & Hne').
    eapply wp_mono; [intros r m2 Hr; exact (lists_post_step _ _ _ _ _ _ _ K U Hr)|].
    apply (IH m1 T tmp' cand l cl' its'); auto.
    apply (holds_all_unmoved [a] m m1); [exact U| |exact F'].
    intros b Hb [<- |[]]. contradiction.
  - subst r. split; [exact K|]. split; [|reflexivity].
    eapply unmoved_incl; [exact U|]. intros x [<- |[]]. now left.
  - subst r. split; [exact K|]. split; [|reflexivity].
    eapply unmoved_incl; [exact U|]. intros x [<- |[]]. now left.
  - subst r. split; [exact K|]. split; [|reflexivity].
    eapply unmoved_incl; [exact U|]. intros x [<- |[]]. now left.
Qed.
End Scan.
