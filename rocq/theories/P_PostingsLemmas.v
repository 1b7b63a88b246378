(** Statements of C11-C14 proved from the refinements. *)
From Coq Require Import ZifyBool.
From Verif Require Import Base BaseLemmas Store StoreSpec StoreProofs Compression CompressionProofs
  P_CompressionLemmas Postings PostingsSpec PostingsDrive PostingsProofs PostingsProofs2.
Local Open Scope Z_scope.
Ltac Zify.zify_post_hook ::= Z.div_mod_to_equations.

Lemma c11 l pre suf : ascending l -> l <> [] -> Forall is_byte pre -> Forall is_byte suf ->
  exists w, vbEncode l pre = Ret (zlen w, pre ++ w) /\
  (zlen (pre ++ w ++ suf) < 2 ^ 63 ->
   exists s, vl_init (mkIn (pre ++ w ++ suf) (zlen pre)) (zlen l) = Ret s /\
     forall ops, iter_run (IVb s) ops = cursor_run (zlen l) l ops).
Proof.
  intros Hp Hne Hpre Hsuf. exists (vb 0 l). split; [apply varIntEncode_ok|]. intros Hl.
  destruct l as [|x t]; [congruence|].
  destruct (RV_init pre suf x t Hp Hpre Hsuf Hl) as (s & E & HR). exists s. split; [exact E|].
  intros ops. eapply simulates_run; [apply RV_simulates|exact HR].
Qed.

Lemma c12 gap l suf fuel : ascending l -> SkippingEncoder gap = Ret gap -> 1 <= gap <= zlen l ->
  Forall is_byte suf -> (length l < fuel)%nat ->
  exists w, skipEncode fuel gap l [] = Ret (zlen w, w) /\
  (zlen (w ++ suf) < 2 ^ 63 ->
   exists s, sk_init gap (NewBytesInput (w ++ suf)) (zlen l) = Ret s /\
     forall ops, iter_run (ISkip s) ops = cursor_run (zlen l) l ops).
Proof.
  intros Hp Ha [Hg Hl] Hs Hf.
  assert (1 <= gap < maxSkippingGap) as Hg'.
  { unfold SkippingEncoder in Ha. destruct (gap >=? maxSkippingGap) eqn:E; [discriminate|lia]. }
  destruct (blocks_exist gap Hg (length l) l (le_n _)) as (bl & <- & Hok & Hlen & Hcnt).
  exists (sk 0 bl). split; [apply (skipEncode_ok fuel gap bl []); auto; lia|].
  intros Hl63.
  destruct (RK_init gap [] suf bl (zlen (concat bl)) Hg' Hok) as (s & E & HR); auto.
  { intros ->. cbn in Hl. lia. }
  exists s. split; [exact E|]. intros ops. eapply simulates_run; [apply RK_simulates|exact HR].
Qed.

Lemma set_add_app x p : Forall (fun y => y < x) p -> set_add x p = p ++ [x].
Proof.
  induction 1 as [|y p Hy Hp IH]; [reflexivity|]. cbn [set_add app].
  replace (x <? y) with false by lia. replace (x =? y) with false by lia. rewrite IH. reflexivity.
Qed.
Lemma to_set_sorted l : StronglySorted Z.lt l -> to_set l = l.
Proof.
  intros Hs. unfold to_set.
  assert (forall l p, StronglySorted Z.lt (p ++ l) -> fold_left (fun s x => set_add x s) l p = p ++ l) as H.
  { clear. induction l as [|x l IH]; intros p Hs; cbn [fold_left]; [rewrite app_nil_r; reflexivity|].
    rewrite set_add_app by (eapply sorted_app_lt; exact Hs).
    rewrite IH; rewrite <- app_assoc; [reflexivity|exact Hs]. }
  apply (H l []). exact Hs.
Qed.

(* each value once, ascending *)
Lemma set_add_spec x : is_u32 x -> forall s, posting s -> posting (set_add x s) /\ forall y, In y (set_add x s) <-> y = x \/ In y s.
Proof.
  intros Hx. induction s as [|z s IH]; intros [Hs Hu].
  - cbn [set_add]. split; [split; [repeat constructor|constructor; [exact Hx|constructor]]|]. intros y. cbn. intuition.
  - cbn [set_add]. pose proof (Forall_inv Hu) as Hz. pose proof (Forall_inv_tail Hu) as Hu'. inversion_clear Hs as [|? ? Hs' Hf].
    destruct (Z.ltb_spec x z) as [Hlt|Hge].
    + split; [|intros y; cbn [In]; intuition]. split; [|constructor; assumption]. constructor; [constructor; assumption|]. constructor; [exact Hlt|].
      eapply Forall_impl; [|exact Hf]. intros y Hy. cbv beta in *. lia.
    + destruct (Z.eqb_spec x z) as [->|Hne]; [split; [split; [constructor|constructor]; assumption|intros y; cbn [In]; intuition]|].
      destruct (IH (conj Hs' Hu')) as [[I1 I2] I3]. split; [|intros y; cbn [In]; rewrite I3; intuition].
      split; [|constructor; assumption]. constructor; [exact I1|]. apply Forall_forall. intros y Hy. apply I3 in Hy. destruct Hy as [->|Hy]; [lia|]. rewrite Forall_forall in Hf. apply Hf. exact Hy.
Qed.
Lemma to_set_spec l : Forall is_u32 l -> posting (to_set l) /\ forall x, In x (to_set l) <-> In x l.
Proof.
  intros Hu. unfold to_set.
  assert (forall l p, Forall is_u32 l -> posting p -> posting (fold_left (fun s x => set_add x s) l p) /\ (forall x, In x (fold_left (fun s x => set_add x s) l p) <-> In x p \/ In x l)) as H.
  { clear. induction l as [|x l IH]; intros p Hu Hp; cbn [fold_left]; [split; [exact Hp|]; intros x; cbn; tauto|].
    destruct (set_add_spec x (Forall_inv Hu) p Hp) as [A1 A2]. destruct (IH (set_add x p) (Forall_inv_tail Hu) A1) as [I1 I2]. split; [exact I1|].
    intros y. rewrite I2, A2. cbn [In]. intuition. }
  destruct (H l [] Hu) as [H1 H2]; [split; constructor|]. split; [exact H1|]. intros x. rewrite H2. cbn. tauto.
Qed.
Lemma to_set_nil l : Forall is_u32 l -> l <> [] -> to_set l <> [].
Proof. intros Hu Hne E. destruct l as [|x l]; [congruence|]. destruct (to_set_spec (x :: l) Hu) as [_ H]. rewrite E in H. apply (proj2 (H x)). left. reflexivity. Qed.

Lemma c13 rb l : roaring_ok rb -> Forall is_u32 l -> l <> [] ->
  exists w, bitmapEncode rb l [] = Ret (zlen w, w) /\ Forall is_byte w /\
  exists s, bl_init rb (NewBytesInput w) = Ret s /\
     forall ops, iter_run (IBit s) ops = cursor_run (zlen (to_set l)) (to_set l) ops.
Proof.
  intros Hrb Hu Hne. exists (rb_enc rb (to_set l)). unfold bitmapEncode. destruct (to_set_spec l Hu) as [Hp _]. pose proof (to_set_nil l Hu Hne) as Hn.
  split; [reflexivity|]. unfold bl_init. cbn [ibuf NewBytesInput]. destruct (Hrb _ Hp) as [-> Hb]. split; [exact Hb|].
  destruct (to_set l) as [|x t]; [congruence|]. eexists. split; [reflexivity|]. intros ops.
  eapply simulates_run; [apply RB_simulates|]. eexists. split; [reflexivity|]. cbn. auto.
Qed.

Lemma slice_cursor l : ascending l -> forall ops, iter_run (ISlice (mkSl l 0)) ops = cursor_run (zlen l) l ops.
Proof. intros Hp ops. eapply simulates_run; [apply RS_simulates|]. split; [apply Hp|]. exists []. auto. Qed.
Lemma c14_any rb l : roaring_ok rb -> ascending l -> l <> [] ->
  exists w, encodePosting rb l [] = Ret (zlen w, w) /\ Forall is_byte w /\
  (zlen w < 2 ^ 63 ->
   exists i, openPosting rb (NewBytesInput w) (zlen l) = Ret i /\
     forall ops, iter_run i ops = cursor_run (zlen (stored l)) (stored l) ops).
Proof.
  intros Hrb Hp Hne. unfold stored. replace (each_once l) with (to_set l) by reflexivity.
  unfold encodePosting, openPosting, skippingGapSize, maxSkippingLen.
  destruct (zlen l <=? 64 + 1) eqn:E1.
  - replace (zlen l <=? 256) with true by lia. destruct (c11 l [] [] Hp Hne) as (w & Ew & Hw); try constructor.
    assert (w = vb 0 l) as -> by (pose proof (varIntEncode_ok l [] 0) as E; unfold vbEncode in Ew; rewrite E in Ew; cbn [app] in Ew; congruence).
    exists (vb 0 l). split; [exact Ew|]. split; [apply vb_bytes|]. intros Hl.
    cbn [app] in Hw. rewrite app_nil_r in Hw. destruct (Hw Hl) as (s & Es & Hs). exists (IVb s).
    unfold NewBytesInput. change (zlen (@nil Z)) with 0 in Es. rewrite Es. split; [reflexivity|]. exact Hs.
  - destruct (zlen l <=? 256) eqn:E2.
    + destruct (c12 64 l [] (S (length l)) Hp) as (w & Ew & Hw); [reflexivity|lia|constructor|lia|].
      exists w. split; [exact Ew|]. split.
      * destruct (blocks_exist 64 ltac:(lia) (length l) l (le_n _)) as (bl & Eb & Hok & Hlen & _).
        pose proof (skipEncode_ok (S (length l)) 64 bl []) as E. rewrite Eb in E. rewrite E in Ew; try lia; auto.
        -- cbn [app] in Ew. assert (w = sk 0 bl) as -> by congruence. apply sk_bytes.
        -- unfold maxSkippingGap. change (2 ^ 14 / 5) with 3276. lia.
      * rewrite app_nil_r in Hw. intros Hl. destruct (Hw Hl) as (s & Es & Hs). exists (ISkip s). rewrite Es.
        split; [reflexivity|]. exact Hs.
    + destruct (c13 rb l Hrb (proj2 Hp) Hne) as (w & Ew & Hb & s & Es & Hs). exists w. split; [exact Ew|]. split; [exact Hb|].
      intros _. exists (IBit s). rewrite Es. split; [reflexivity|]. exact Hs.
Qed.
Lemma stored_posting l : posting l -> stored l = l.
Proof. intros Hp. unfold stored. destruct (_ <=? _); [reflexivity|]. apply to_set_sorted. apply Hp. Qed.
Lemma c14 rb l : roaring_ok rb -> posting l -> l <> [] ->
  exists w, encodePosting rb l [] = Ret (zlen w, w) /\ Forall is_byte w /\
  (zlen w < 2 ^ 63 ->
   exists i, openPosting rb (NewBytesInput w) (zlen l) = Ret i /\
     (forall ops, iter_run i ops = cursor_run (zlen l) l ops) /\
     (forall ops, iter_run i ops = iter_run (ISlice (mkSl l 0)) ops)).
Proof.
  intros Hrb Hp Hne. destruct (c14_any rb l Hrb (posting_ascending _ Hp) Hne) as (w & Ew & Hb & Hi). exists w. split; [exact Ew|]. split; [exact Hb|].
  intros Hl. destruct (Hi Hl) as (i & Ei & Hops). rewrite stored_posting in Hops by exact Hp. exists i. split; [exact Ei|]. split; [exact Hops|].
  intros ops. rewrite Hops. symmetry. apply slice_cursor. apply posting_ascending. exact Hp.
Qed.

(** An instance of the roaring contract: 4 bytes per value. *)
Fixpoint dec4 (b : bytes) : list Z :=
  match b with
  | b0 :: b1 :: b2 :: b3 :: t => (b0 + 256 * b1 + 65536 * b2 + 16777216 * b3) :: dec4 t
  | _ => []
  end.
Definition rb4 : roaring := mkRb (fun l => concat (map le32 l)) (fun b => Some (dec4 b)).
Lemma rb4_ok : roaring_ok rb4.
Proof.
  intros l [_ Hu]. split; [|apply bin_bytes]. cbn [rb_dec rb_enc rb4]. f_equal.
  induction Hu as [|x l Hx Hu IH]; [reflexivity|]. cbn [map concat]. unfold le32 at 1. cbn [app dec4]. rewrite IH.
  f_equal. unfold wrap8. rewrite !Z.shiftr_div_pow2 by lia. unfold is_u32 in Hx. 
  change (2 ^ 8) with 256. change (2 ^ 16) with 65536. change (2 ^ 24) with 16777216. change (2 ^ 32) with 4294967296 in Hx. lia.
Qed.
