(** The rest of the search over pooled objects: emitting, intersecting, sorting,
    opening and releasing. *)
From Coq Require Import Permutation.
From Verif Require Import Base BaseLemmas GoMap Store Compression Postings Merger Index Pool PoolProofs PoolProofs2.
Local Open Scope Z_scope.

(** *** Sorting *)
Definition fair_order (order : list Z -> list nat) : Prop :=
  forall lens, Permutation (order lens) (seq 0 (length lens)).
Definition srt_of (order : list Z -> list nat) (its : list iter) : list iter :=
  permute (order (map it_len its)) its.

Lemma permute_seq {X} : forall (l pre : list X),
  flat_map (fun i => match nth_error (pre ++ l) i with Some x => [x] | None => [] end)
           (seq (length pre) (length l)) = l.
Proof.
  induction l as [|x l IH]; intros pre; [reflexivity|]. cbn [length seq flat_map].
  rewrite nth_error_app2, Nat.sub_diag by lia. cbn [nth_error app]. f_equal.
  specialize (IH (pre ++ [x])). rewrite <- app_assoc in IH. cbn [app] in IH.
  rewrite app_length in IH. cbn [length] in IH. rewrite Nat.add_1_r in IH. exact IH.
Qed.
Lemma flat_map_perm {X Y} : forall (f : X -> list Y) l l', Permutation l l' ->
  Permutation (flat_map f l) (flat_map f l').
Proof. intros f l l' H. now apply Permutation_flat_map. Qed.
Lemma permute_perm {X} : forall o (l : list X), Permutation o (seq 0 (length l)) ->
  Permutation (permute o l) l.
Proof.
  intros o l H. unfold permute. eapply Permutation_trans; [apply flat_map_perm; exact H|].
  pose proof (permute_seq l []) as E. cbn [app length] in E. rewrite E. apply Permutation_refl.
Qed.
Lemma permute_forall2 {X Y} : forall (R : X -> Y -> Prop) l l' o, Forall2 R l l' ->
  Forall2 R (permute o l) (permute o l').
Proof.
  intros R l l' o F. induction o as [|n o IH]; [constructor|]. cbn. apply Forall2_app; [|exact IH].
  clear IH. revert n. induction F as [|x y l l' H F IH]; intros [|n]; cbn; try constructor; auto.
Qed.

Lemma forall2_len {X Y} : forall (R : X -> Y -> Prop) l l', Forall2 R l l' -> length l = length l'.
Proof. intros R l l' H. induction H; cbn; congruence. Qed.

Lemma lens_wp : forall rid m its (Q : res (list Z) -> mem -> Prop),
  Forall2 (holds m) rid its -> Q (Ret (map it_len its)) m -> wp m (lens_p rid) Q.
Proof.
  induction rid as [|a rid IH]; intros m its Q F HQ; inversion F as [|a' i rid' its' Ha F']; subst.
  - exact HQ.
  - cbn [lens_p]. apply wp_rbind. eapply wp_ask; [exact Ha|]. apply wp_rbind.
    eapply IH; [exact F'|]. exact HQ.
Qed.
Lemma sort_wp : forall order rid m its (Q : res (list addr) -> mem -> Prop),
  fair_order order -> Forall2 (holds m) rid its -> NoDup rid ->
  (forall rid', Forall2 (holds m) rid' (srt_of order its) -> NoDup rid' ->
     length rid' = length rid -> incl rid' rid -> Q (Ret rid') m) ->
  wp m (sort_p order rid) Q.
Proof.
  intros order rid m its Q Ho F N HQ. unfold sort_p. apply wp_rbind.
  eapply lens_wp; [exact F|]. cbn [wp].
  assert (P : Permutation (permute (order (map it_len its)) rid) rid).
  { apply permute_perm. rewrite (forall2_len _ _ _ F), <- (map_length it_len its). apply Ho. }
  apply HQ.
  - unfold srt_of. now apply permute_forall2.
  - apply (Permutation_NoDup (Permutation_sym P) N).
  - now apply Permutation_length.
  - intros x Hx. exact (Permutation_in _ P Hx).
Qed.
Lemma srt_of_perm : forall order, fair_order order -> forall its, Permutation (srt_of order its) its.
Proof.
  intros order Ho its. apply permute_perm. rewrite <- (map_length it_len its). apply Ho.
Qed.

Section Collect.
Context {St : Type} (collect : St -> Z -> option err * St).

Lemma emit_wp : forall cs m cand j cl T s (Q : res unit * St -> mem -> Prop),
  buf m cand cl -> skipn j cl = cs ->
  Q (wrap_err (fst (emit collect T cs s)), snd (emit collect T cs s)) m ->
  wp m (emit_p collect (length cs) cand j T s) Q.
Proof.
  induction cs as [|c cs IH]; intros m cand j cl T s Q B Hcs HQ; [exact HQ|].
  destruct (nth_skipn _ _ _ _ Hcs) as (Hc & Hjl & Hcs2).
  cbn [length emit_p]. cbn [emit] in HQ. apply wp_bind. eapply wp_elem; [exact B|exact Hc|].
  cbv beta iota. destruct (Overlap c >=? T); [|eapply IH; [exact B|exact Hcs2|exact HQ]].
  destruct (collect s c) as [[e|] s']; [|eapply IH; [exact B|exact Hcs2|exact HQ]].
  destruct e; exact HQ.
Qed.

Context (grow : nat -> nat) (order : list Z -> list nat).
Hypothesis Ho : fair_order order.

Lemma firstn_forall2 {X Y} : forall (R : X -> Y -> Prop) l l', Forall2 R l l' -> forall n, Forall2 R (firstn n l) (firstn n l').
Proof. intros R l l' F. induction F; intros [|n]; cbn; constructor; auto. Qed.
Lemma skipn_forall2 {X Y} : forall (R : X -> Y -> Prop) l l', Forall2 R l l' -> forall n, Forall2 R (skipn n l) (skipn n l').
Proof. intros R l l' F. induction F; intros [|n]; cbn; auto. Qed.
Lemma nodup_app {X} : forall (l1 l2 : list X), NoDup (l1 ++ l2) ->
  NoDup l1 /\ NoDup l2 /\ forall x, In x l2 -> ~ In x l1.
Proof.
  induction l1 as [|x l1 IH]; intros l2 H; cbn in H.
  - repeat split; [constructor|exact H|]. intros y _ [].
  - inversion H as [|x' l Hn N]; subst. destruct (IH l2 N) as (H1 & H2 & H3).
    repeat split; [|exact H2|].
    + constructor; [|exact H1]. intros Hx. apply Hn, in_or_app. now left.
    + intros y Hy [<- |Hy']; [apply Hn, in_or_app; now right|exact (H3 y Hy Hy')].
Qed.
Lemma keeps_get : forall m a c, m a = None -> keeps m (heap_set m a c).
Proof.
  intros m a c Hn b c' q Hb Hf. exists c'. rewrite heap_set_other by congruence. auto.
Qed.
Lemma keeps_put : forall m a, (forall x, x <> a -> del m a x = m x).
Proof. intros m a x H. now apply del_other. Qed.
Lemma holds_get : forall m a c rid its, m a = None -> Forall2 (holds m) rid its ->
  Forall2 (holds (heap_set m a c)) rid its.
Proof.
  intros m a c rid its Hn F. induction F as [|b i rid its (cb & Hb & Hi) F IH]; constructor; [|exact IH].
  exists cb. rewrite heap_set_other by congruence. auto.
Qed.

(* what the caller of a merge gets back: its posting lists, each in its kind *)
Definition still (m m' : mem) : Prop :=
  forall a c q, m a = Some c -> fits q c -> exists c', m' a = Some c' /\ fits q c'.

Lemma cp_wp : forall rid m T s its,
  Forall2 (holds m) rid its -> NoDup rid ->
  wp m (cp_p grow order collect rid T s)
     (fun out m' => out = cpMerge collect (srt_of order) its T s /\ still m m').
Proof.
  intros rid m T s its F N. unfold cp_p. cbv zeta. apply wp_bind.
  eapply sort_wp; [exact Ho|exact F|exact N|]. intros rid' F1 N1 L1 _. clear N.
  cbv beta iota. cbn [wp]. intros a1 c1 H1 f1 a2 c2 H2 f2.
  destruct c1 as [| | |arr1]; cbn in f1; try contradiction.
  destruct c2 as [| | |arr2]; cbn in f2; try contradiction.
  set (m1 := heap_set m a1 (CBuf arr1)) in *. set (m2 := heap_set m1 a2 (CBuf arr2)).
  assert (Hne : a2 <> a1).
  { intros ->. unfold m1 in H2. rewrite heap_set_same in H2. discriminate. }
  assert (Km : keeps m m2).
  { eapply keeps_trans; [apply keeps_get; exact H1|]. apply keeps_get. exact H2. }
  assert (F2 : Forall2 (holds m2) rid' (srt_of order its)).
  { apply holds_get; [exact H2|]. apply holds_get; [exact H1|exact F1]. }
  assert (Bc : buf m2 (a2, O) []).
  { exists arr2. cbn. unfold m2. rewrite heap_set_same. repeat split. lia. }
  assert (Bt : buf m2 (a1, O) []).
  { exists arr1. cbn. unfold m2. rewrite heap_set_other by congruence. unfold m1.
    rewrite heap_set_same. repeat split. lia. }
  (* the two Puts at the end *)
  assert (Fin : forall m3 out, keeps m2 m3 ->
            out = cpMerge collect (srt_of order) its T s ->
            wp m3 (Put PBuf a2 (Put PBuf a1 (Done out)))
               (fun out m' => out = cpMerge collect (srt_of order) its T s /\ still m m')).
  { intros m3 out K E. cbn [wp].
    destruct (K a2 (CBuf arr2) PBuf) as (x2 & Hx2 & Hf2); [unfold m2; now rewrite heap_set_same|exact Logic.I|].
    destruct (K a1 (CBuf arr1) PBuf) as (x1 & Hx1 & Hf1).
    { unfold m2. rewrite heap_set_other by congruence. unfold m1. now rewrite heap_set_same. }
    { exact Logic.I. }
    exists x2. split; [exact Hx2|]. split; [exact Hf2|]. exists x1.
    rewrite del_other by congruence. split; [exact Hx1|]. split; [exact Hf1|].
    split; [exact E|].
    intros b c q Hb Hf. assert (Hb1 : b <> a1) by congruence.
    assert (Hb2 : b <> a2).
    { intros ->. unfold m1 in H2. rewrite heap_set_other in H2 by exact Hb1. congruence. }
    rewrite !del_other by assumption. destruct (Km b c q Hb Hf) as (c' & Hc' & Hf').
    exact (K b c' q Hc' Hf'). }
  unfold cpMerge in Fin. cbv zeta in Fin. unfold cpMerge. cbv zeta.
  rewrite <- (zlen_forall2 _ _ _ F) in Fin. rewrite <- (zlen_forall2 _ _ _ F).
  pose proof (zlen_forall2 _ _ _ F1) as Z1.
  set (mq := zlen rid - T + 1) in *.
  assert (Hs : (slice rid' 0 mq = Ret (firstn (Z.to_nat mq) rid') /\
                slice (srt_of order its) 0 mq = Ret (firstn (Z.to_nat mq) (srt_of order its))) \/
               (slice rid' 0 mq = Panic /\ slice (srt_of order its) 0 mq = Panic)).
  { unfold slice. rewrite <- Z1, Z.sub_0_r. cbn [skipn Z.to_nat].
    destruct ((0 <=? 0) && (0 <=? mq) && (mq <=? zlen rid')); [left|right]; split; reflexivity. }
  destruct Hs as [[E1 E2]|[E1 E2]]; rewrite E1; rewrite E2 in Fin |- *.
  2: { apply Fin; [apply keeps_refl|reflexivity]. }
  set (short := firstn (Z.to_nat mq) rid') in *. set (ishort := firstn (Z.to_nat mq) (srt_of order its)) in *.
  set (long := skipn (Z.to_nat mq) rid') in *. set (ilong := skipn (Z.to_nat mq) (srt_of order its)) in *.
  assert (Fs : Forall2 (holds m2) short ishort) by (apply firstn_forall2; exact F2).
  assert (Fl : Forall2 (holds m2) long ilong) by (apply skipn_forall2; exact F2).
  pose proof N1 as N2. rewrite <- (firstn_skipn (Z.to_nat mq) rid') in N2.
  destruct (nodup_app _ _ N2) as (Ns & Nl & Nd).
  apply wp_bind. apply wp_bind. apply wp_rbind.
  eapply wp_mono; [|apply (scans_wp grow short m2 (a2, O) (a1, O) [] [] ishort Bc Bt Hne Fs Ns)].
  intros r m3 (K3 & U3 & R3).
  destruct (scan_lists ishort []) as [cl|e| |]; cbn [bind] in *.
  - destruct R3 as (cand & tmp & tl & -> & B3 & B3' & Hne3).
    eapply wp_mono; [|apply (prunes_wp grow long m3 T cand tmp cl tl ilong B3 B3' Hne3)].
    + intros r m4 (K4 & U4 & R4).
      destruct (prune_lists ilong T cl) as [l|e| |]; cbn [wrap_err] in *.
      * destruct R4 as (cand' & tmp' & tl' & -> & B4 & _ & _).
        rewrite <- (buf_length _ _ _ B4). eapply emit_wp; [exact B4|reflexivity|].
        apply Fin; [exact (keeps_trans _ _ _ K3 K4)|].
        now destruct (emit collect T l s).
      * subst r. apply Fin; [exact (keeps_trans _ _ _ K3 K4)|reflexivity].
      * subst r. apply Fin; [exact (keeps_trans _ _ _ K3 K4)|reflexivity].
      * subst r. apply Fin; [exact (keeps_trans _ _ _ K3 K4)|reflexivity].
    + apply (holds_all_unmoved short m2 m3); [exact U3|exact Nd|exact Fl].
    + exact Nl.
  - subst r. apply Fin; [exact K3|reflexivity].
  - subst r. apply Fin; [exact K3|reflexivity].
  - subst r. apply Fin; [exact K3|reflexivity].
Qed.

(** *** The intersector *)
Lemma rest_wp : forall rest m item its (Q : res bool -> mem -> Prop),
  Forall2 (holds m) rest its -> NoDup rest ->
  (forall m' r, keeps m m' -> unmoved rest m m' ->
     match in_rest item its with
     | Ret (b, its') => r = Ret b /\ Forall2 (holds m') rest its'
     | Fail e => r = Fail e | Panic => r = Panic | NoFuel => r = NoFuel
     end -> Q r m') ->
  wp m (rest_p item rest) Q.
Proof.
  induction rest as [|a rest IH]; intros m item its Q F N HQ; inversion F as [|a' i rest' its' Ha F']; subst.
  { cbn [wp rest_p]. apply HQ; [apply keeps_refl|apply unmoved_refl|]. cbn. split; [reflexivity|constructor]. }
  inversion N as [|a' rest' Hnin N']; subst. cbn [rest_p in_rest] in *. apply wp_bind.
  eapply wp_call; [exact Ha|apply tame_lower|]. intros m1 Ha1 K1 U1 _.
  assert (F1 : Forall2 (holds m1) rest its').
  { apply (holds_all_unmoved [a] m m1); [exact U1| |exact F']. intros b Hb [<- |[]]. contradiction. }
  assert (Stop : forall b : bool, Forall2 (holds m1) (a :: rest) (snd (it_lowerBound i item) :: its') /\
                          unmoved (a :: rest) m m1).
  { intros _. split; [constructor; assumption|]. eapply unmoved_incl; [exact U1|].
    intros x [<- |[]]. now left. }
  destruct (it_lowerBound i item) as [[lower|e| |] i'] eqn:E; cbn [fst snd] in *.
  - destruct (negb (lower =? item)).
    + cbn [wp]. destruct (Stop true). apply HQ; auto.
    + apply (IH m1 item its'); [exact F1|exact N'|]. intros m' r K2 U2 R.
      assert (K : keeps m m') by (eapply keeps_trans; eassumption).
      assert (U : unmoved (a :: rest) m m') by exact (unmoved_trans [a] rest m m1 m' U1 U2).
      apply HQ; [exact K|exact U|].
      destruct (in_rest item its') as [[b its'']|e| |]; cbn [bind] in *; try exact R.
      destruct R as (-> & R). split; [reflexivity|]. constructor; [|exact R].
      exact (holds_unmoved rest m1 m' a i' U2 Hnin Ha1).
  - destruct (Stop true) as (S1 & S2). destruct e; cbn [wp]; apply HQ; auto.
  - destruct (Stop true) as (S1 & S2). cbn [wp]. apply HQ; auto.
  - destruct (Stop true) as (S1 & S2). cbn [wp]. apply HQ; auto.
Qed.

Lemma inter_wp : forall fuel m n item first rest i its s (Q : res unit * St -> mem -> Prop),
  holds m first i -> Forall2 (holds m) rest its -> NoDup (first :: rest) ->
  (forall m', keeps m m' -> Q (intersect_loop collect fuel n item i its s) m') ->
  wp m (inter_p collect fuel n item first rest s) Q.
Proof.
  induction fuel as [|f IH]; intros m n item first rest i its s Q Hf F N HQ.
  { apply HQ. apply keeps_refl. }
  inversion N as [|x l Hnin N']; subst. cbn [inter_p intersect_loop] in *. apply wp_bind.
  eapply rest_wp; [exact F|exact N'|]. intros m1 r K1 U1 R.
  destruct (in_rest item its) as [[good its']|e| |].
  2-4: (subst r; cbn [wp]; apply HQ; exact K1).
  destruct R as (-> & F1). cbv beta iota.
  destruct (if good then collect s (NewMergeCandidate item n) else (None, s)) as [[e|] s'].
  { destruct e; cbn [wp]; apply HQ; exact K1. }
  assert (Hf1 : holds m1 first i) by exact (holds_unmoved rest m m1 first i U1 Hnin Hf).
  apply wp_bind. eapply wp_ask; [exact Hf1|]. destruct (it_hasNext i); cbn [negb] in *.
  2: { cbn [wp]. apply HQ. exact K1. }
  apply wp_bind. eapply wp_call; [exact Hf1|apply tame_next|]. intros m2 Hf2 K2 U2 _.
  assert (K : keeps m m2) by (eapply keeps_trans; eassumption).
  destruct (it_next i) as [[item'|e| |] i']; cbn [fst snd] in *.
  2-4: (cbn [wp]; apply HQ; exact K).
  eapply (IH m2 n item' first rest i' its' s'); [exact Hf2| |exact N|].
  - apply (holds_all_unmoved [first] m1 m2); [exact U2| |exact F1]. intros b Hb [<- |[]]. contradiction.
  - intros m3 K3. apply HQ. eapply keeps_trans; eassumption.
Qed.

Lemma intersect_wp : forall rid m s its,
  Forall2 (holds m) rid its -> NoDup rid ->
  wp m (intersect_p order collect rid s)
     (fun out m' => out = intersect collect (srt_of order) its s /\ still m m').
Proof.
  intros rid m s its F N. unfold intersect_p, intersect. cbv zeta.
  rewrite <- (zlen_forall2 _ _ _ F). destruct (wrap32 (zlen rid) =? 0).
  { cbn [wp]. split; [reflexivity|apply keeps_refl]. }
  apply wp_bind. eapply sort_wp; [exact Ho|exact F|exact N|]. intros rid' F1 N1 L1 _.
  destruct rid' as [|first rest]; inversion F1 as [|x i l its' Hf Fr E1 E2]; subst.
  { cbn [wp]. split; [reflexivity|apply keeps_refl]. }
  apply wp_bind. eapply wp_ask; [exact Hf|]. apply wp_bind. eapply wp_ask; [exact Hf|].
  destruct (it_get i) as [item|e| |]; cbv beta iota.
  2-4: (cbn [wp]; split; [reflexivity|apply keeps_refl]).
  eapply inter_wp; [exact Hf|exact Fr|exact N1|]. intros m' K. split; [reflexivity|exact K].
Qed.

Lemma merge_wp : forall rid m T s its,
  Forall2 (holds m) rid its -> NoDup rid ->
  wp m (merge_p grow order collect rid T s)
     (fun out m' => out = CPMerge collect (srt_of order) its T s /\ still m m').
Proof.
  intros rid m T s its F N. unfold merge_p, CPMerge, optimized. cbv zeta.
  rewrite <- (zlen_forall2 _ _ _ F).
  destruct ((zlen rid <? T) || (zlen rid =? 0) || (T <? 0)).
  { cbn [wp]. split; [reflexivity|apply keeps_refl]. }
  destruct (zlen rid =? T); [now apply intersect_wp|now apply cp_wp].
Qed.

(** *** Opening and releasing *)
Context (rb : roaring) (torn : list Z -> bytes -> list Z).
(* every object fits its pool *)
Definition sound (m : mem) (held : list addr) : Prop :=
  forall a, In a held -> exists c q, m a = Some c /\ fits q c.
Lemma sound_still : forall m m' held, still m m' -> sound m held -> sound m' held.
Proof.
  intros m m' held H S a Ha. destruct (S a Ha) as (c & q & Hc & Hf).
  destruct (H a c q Hc Hf) as (c' & Hc' & Hf'). now exists c', q.
Qed.

Lemma init_ok : forall r size c, fits (resolve size) c ->
  fits (resolve size) (snd (init_cell rb torn r size c)) /\
  match openPosting rb r size with
  | Ret it => fst (init_cell rb torn r size c) = Ret tt /\ iter_of (snd (init_cell rb torn r size c)) = Some it
  | Fail e => fst (init_cell rb torn r size c) = Fail e
  | Panic => fst (init_cell rb torn r size c) = Panic
  | NoFuel => fst (init_cell rb torn r size c) = NoFuel
  end.
Proof.
  intros r size c. unfold resolve, openPosting.
  destruct (size <=? skippingGapSize + 1).
  { destruct c as [s|s|b s|arr]; cbn [fits]; intros Hf; try contradiction.
    unfold vl_init, init_cell. destruct (ReadVUInt32 r) as [[v|e| |] r']; cbn; auto. }
  destruct (size <=? maxSkippingLen).
  { destruct c as [s|s|b s|arr]; cbn [fits]; intros Hf; try contradiction.
    unfold sk_init. cbn [init_cell]. rewrite Hf.
    unfold sk_readSkipping. cbn [sk_in sk_index sk_size sk_cur sk_skipval sk_nextpos sk_gap sk_last].
    destruct (ReadUInt16 r) as [[d|e| |] r1]; cbn; auto.
    destruct (UnpackPos d) as [p l]. destruct (ReadVUInt32 r1) as [[v|e| |] r2]; cbn; auto. }
  destruct c as [s|s|b s|arr]; cbn [fits]; intros Hf; try contradiction.
  unfold bl_init, init_cell. destruct (rb_dec rb (ibuf r)) as [[|x t]|]; cbn; auto.
Qed.

Lemma open_wp : forall iv terms m held its (Q : list addr * res unit -> mem -> Prop),
  Forall2 (holds m) held its -> NoDup held -> sound m held ->
  (forall m' held' r, NoDup held' -> sound m' held' ->
     match open_lists rb iv terms with
     | Ret its' => r = Ret tt /\ Forall2 (holds m') held' (its ++ its')
     | Fail e => r = Fail e | Panic => r = Panic | NoFuel => r = NoFuel
     end -> Q (held', r) m') ->
  wp m (open_p rb torn iv terms held) Q.
Proof.
  intros iv. induction terms as [|t ts IH]; intros m held its Q F N S HQ.
  { cbn [open_p wp]. apply HQ; [exact N|exact S|]. cbn. rewrite app_nil_r. auto. }
  (* taking one more object *)
  assert (Take : forall size a c, m a = None -> fits (resolve size) c ->
    Forall2 (holds (heap_set m a c)) held its /\ NoDup (held ++ [a])).
  { intros size a c Hn _. split; [now apply holds_get|]. apply NoDup_rev in N.
    rewrite <- (rev_involutive (held ++ [a])), rev_app_distr. apply NoDup_rev. cbn.
    constructor; [|exact N]. intros Hin. apply in_rev in Hin.
    destruct (S a Hin) as (c' & q & Hc' & _). congruence. }
  assert (Sound : forall a c q m', sound m held -> m a = None -> fits q c ->
            (forall b, b <> a -> m' b = m b) -> m' a = Some c -> sound m' (held ++ [a])).
  { intros a c q m' S' Hn Hf Hb Ha b Hin. apply in_app_or in Hin.
    destruct Hin as [Hin|[<- |[]]]; [|now exists c, q].
    destruct (S' b Hin) as (c' & q' & Hc' & Hf'). exists c', q'. split; [|exact Hf'].
    rewrite Hb; [exact Hc'|]. congruence. }
  cbn [open_p open_lists] in *.
  destruct (IndexGet iv t) as [[[size r]|]|e| |].
  - cbn [wp]. intros a c Hn Hf. destruct (Take size a c Hn Hf) as (F1 & N1).
    destruct (init_ok r size c Hf) as (Hf2 & R).
    apply wp_bind. unfold init. cbn [wp]. exists c. split; [apply heap_set_same|].
    destruct (init_cell rb torn r size c) as [x c'] eqn:Ei. cbn [fst snd wp] in *.
    split; [exists c; apply heap_set_same|].
    set (m1 := heap_set (heap_set m a c) a c').
    assert (Hm1 : forall b, b <> a -> m1 b = m b).
    { intros b Hb. unfold m1. now rewrite !heap_set_other by exact Hb. }
    assert (S1 : sound m1 (held ++ [a])).
    { eapply Sound; [exact S|exact Hn|exact Hf2|exact Hm1|]. unfold m1. apply heap_set_same. }
    assert (F2 : Forall2 (holds m1) held its).
    { clear - F Hn Hm1. induction F as [|b i held its (cb & Hb & Hi) F IH]; constructor; [|exact IH].
      exists cb. rewrite Hm1 by congruence. auto. }
    destruct (openPosting rb r size) as [it|e| |].
    + destruct R as (-> & Hit).
      apply (IH m1 (held ++ [a]) (its ++ [it])).
      * apply Forall2_app; [exact F2|]. constructor; [|constructor].
        exists c'. split; [unfold m1; apply heap_set_same|exact Hit].
      * exact N1. * exact S1.
      * intros m' held' r' N' S' R'. apply HQ; [exact N'|exact S'|].
        destruct (open_lists rb iv ts) as [its'|e| |]; cbn [bind] in *; try exact R'.
        rewrite <- app_assoc in R'. exact R'.
    + subst x. cbn [wp]. apply HQ; auto.
    + subst x. cbn [wp]. apply HQ; auto.
    + subst x. cbn [wp]. apply HQ; auto.
  - cbn [wp]. intros a c Hn Hf. destruct (Take 0 a c Hn Hf) as (F1 & N1).
    apply HQ; [exact N1| |reflexivity].
    eapply Sound; [exact S|exact Hn|exact Hf| |apply heap_set_same].
    intros b Hb. now apply heap_set_other.
  - cbn [wp]. apply HQ; auto.
  - cbn [wp]. apply HQ; auto.
  - cbn [wp]. apply HQ; auto.
Qed.

Lemma release_wp : forall held m (Q : unit -> mem -> Prop),
  NoDup held -> sound m held -> (forall m', Q tt m') -> wp m (release_all held) Q.
Proof.
  induction held as [|a held IH]; intros m Q N S HQ; [apply HQ|].
  inversion N as [|x l Hnin N']; subst. cbn [release_all]. apply wp_bind.
  destruct (S a (or_introl eq_refl)) as (c & q & Hc & Hf).
  assert (S' : sound (del m a) held).
  { intros b Hb. destruct (S b (or_intror Hb)) as (cb & qb & Hcb & Hfb). exists cb, qb.
    split; [|exact Hfb]. rewrite del_other; [exact Hcb|]. intros ->. contradiction. }
  unfold release. cbn [wp]. exists c. split; [exact Hc|].
  destruct c as [s|s|b s|arr]; destruct q; cbn in Hf; try contradiction; cbn [wp].
  - eexists. split; [exact Hc|]. split; [exact Logic.I|]. now apply IH.
  - eexists. split; [exact Hc|]. split; [exact Hf|]. now apply IH.
  - eexists. split; [exact Hc|]. split; [exact Logic.I|]. now apply IH.
  - apply IH; [exact N'| |exact HQ]. intros x Hx. apply S. now right.
Qed.

Theorem search_wp : forall iv terms T s,
  wp (fun _ => None) (search_p rb torn grow order collect iv terms T s)
     (fun out _ => out = Search rb (CPMerge collect (srt_of order)) iv terms T s).
Proof.
  intros iv terms T s. unfold search_p, Search. cbv zeta.
  destruct (zlen (filterTerms iv terms T 0) <? T); [reflexivity|].
  apply wp_bind. eapply open_wp; [constructor|constructor|intros a []|].
  intros m1 held r N S R. apply wp_bind.
  assert (Fin : forall m2 (out out' : res unit * St), still m1 m2 -> out = out' ->
    wp m2 (pbind (release_all (rev held)) (fun _ => Done out)) (fun o (_ : mem) => o = out')).
  { intros m2 out out' K E. apply wp_bind. apply release_wp; [now apply NoDup_rev| |].
    - intros a Ha. apply (sound_still m1 m2 held K S). now apply in_rev.
    - intros m'. exact E. }
  destruct (open_lists rb iv (filterTerms iv terms T 0)) as [its|e| |]; cbn [app] in *.
  - destruct R as (-> & F). apply wp_bind.
    eapply wp_mono; [|apply (merge_wp held m1 T s its F N)].
    intros [x s'] m2 (E & K). cbn [wp].
    destruct (CPMerge collect (srt_of order) its T s) as [x' s'']. injection E as -> ->.
    apply Fin; [exact K|]. now destruct x'.
  - subst r. cbn [wp]. apply Fin; [apply keeps_refl|reflexivity].
  - subst r. cbn [wp]. apply Fin; [apply keeps_refl|reflexivity].
  - subst r. cbn [wp]. apply Fin; [apply keeps_refl|reflexivity].
Qed.
End Collect.
