(** The index on a directory, and the searcher. *)
From Coq Require Import String ZifyBool.
From Verif Require Import Base BaseLemmas GoMap Store StoreSpec StoreProofs2 Postings PostingsSpec PostingsDrive
  Merger MergerSpec MergerProofs P_MergerLemmas Index IndexSpec IndexProofs.
Local Open Scope Z_scope.

(** ** histories with flushes *)
Definition nf (o : dop) : bool := negb (is_flush o).
Lemma filter_split {A} (f : A -> bool) : forall l a b, filter f l = a ++ b ->
  exists l1 l2, l = l1 ++ l2 /\ filter f l1 = a /\ filter f l2 = b.
Proof.
  induction l as [|x l IH]; intros a b H; cbn [filter] in H.
  - symmetry in H. apply app_eq_nil in H. destruct H as [-> ->]. exists [], []. auto.
  - destruct (f x) eqn:Ex.
    + destruct a as [|y a].
      * exists [], (x :: l). cbn [filter app]. rewrite Ex. auto.
      * cbn [app] in H. injection H as -> H. destruct (IH a b H) as (l1 & l2 & -> & H1 & H2).
        exists (y :: l1), l2. cbn [filter app]. rewrite Ex, H1. auto.
    + destruct (IH a b H) as (l1 & l2 & -> & H1 & H2). exists (x :: l1), l2. cbn [filter app]. rewrite Ex. auto.
Qed.
Lemma filter_cons_split {A} (f : A -> bool) : forall l x b, filter f l = x :: b ->
  exists l1 l2, l = l1 ++ x :: l2 /\ filter f l1 = [] /\ filter f l2 = b.
Proof.
  induction l as [|y l IH]; intros x b H; cbn [filter] in H; [discriminate|].
  destruct (f y) eqn:Ey.
  - injection H as -> H. exists [], l. auto.
  - destruct (IH x b H) as (l1 & l2 & -> & H1 & H2). exists (y :: l1), l2. cbn [filter app]. rewrite Ey. auto.
Qed.
Lemma writes_to_app k h1 h2 : writes_to k (h1 ++ h2) = writes_to k h1 ++ writes_to k h2.
Proof.
  induction h1 as [|o h1 IH]; [reflexivity|]. destruct o; cbn [app writes_to]; auto. destruct (Nat.eqb h k); rewrite IH; [apply app_assoc|reflexivity].
Qed.
Lemma writes_to_nf k h : writes_to k h = writes_to k (filter nf h).
Proof. induction h as [|o h IH]; [reflexivity|]. destruct o; cbn [writes_to filter nf is_flush negb]; rewrite ?IH; reflexivity. Qed.
Lemma count_creates_app h1 h2 : count_creates (h1 ++ h2) = (count_creates h1 + count_creates h2)%nat.
Proof. induction h1 as [|o h1 IH]; [reflexivity|]. destruct o; cbn [app count_creates]; rewrite IH; reflexivity. Qed.
Lemma count_creates_nf h : count_creates h = count_creates (filter nf h).
Proof. induction h as [|o h IH]; [reflexivity|]. destruct o; cbn [count_creates filter nf is_flush negb]; rewrite ?IH; reflexivity. Qed.
Lemma handle_name_app h1 : forall h2 j, handle_name (h1 ++ h2) j =
  if (j <? count_creates h1)%nat then handle_name h1 j else handle_name h2 (j - count_creates h1).
Proof.
  induction h1 as [|o h1 IH]; intros h2 j; cbn [app count_creates]; [cbn; rewrite Nat.sub_0_r; reflexivity|].
  destruct o; cbn [handle_name]; try apply IH. destruct j as [|j]; [reflexivity|]. rewrite IH. reflexivity.
Qed.
Lemma handle_name_nf h : forall j, handle_name h j = handle_name (filter nf h) j.
Proof. induction h as [|o h IH]; intros j; [reflexivity|]. destruct o; cbn [handle_name filter nf is_flush negb]; auto. destruct j; auto. Qed.
Lemma writes_map k ws : writes_to k (map (OWrite k) ws) = concat ws.
Proof. induction ws as [|w ws IH]; cbn; [reflexivity|]. rewrite Nat.eqb_refl, IH. reflexivity. Qed.
Lemma creates_map k ws : count_creates (map (OWrite k) ws) = O.
Proof. induction ws; cbn; auto. Qed.
Lemma handle_map k ws : forall j, handle_name (map (OWrite k) ws) j = None.
Proof. induction ws; cbn; auto. Qed.
(* membership of real operations *)
Lemma In_nf o h : nf o = true -> (In o h <-> In o (filter nf h)).
Proof. intros H. rewrite filter_In. tauto. Qed.

Definition commit_ops (dn hn : string) (h : nat) (ws : list bytes) (hb : bytes) : list dop :=
  OCreate dn :: map (OWrite h) ws ++ [OCreate hn; OWrite (S h) hb; OClose (S h); OClose h].

Lemma commit_ops_use dn hn h ws hb ops' j : with_flushes h (commit_ops dn hn h ws hb) ops' -> (j < h)%nat -> no_use j ops'.
Proof.
  intros [Hf Hfl] Hj.
  assert (forall o, nf o = true -> In o ops' -> In o (commit_ops dn hn h ws hb)) as Hin.
  { intros o Ho Hi. unfold commit_ops in *. rewrite <- Hf. apply (In_nf o ops' Ho). exact Hi. }
  split; [|split].
  - intros p H. apply Hin in H; [|reflexivity]. unfold commit_ops in H. cbn [In] in H. destruct H as [H|H]; [discriminate|].
    rewrite in_app_iff, in_map_iff in H. cbn [In] in H.
    destruct H as [(x & H & _)|[H|[H|[H|[H|[]]]]]]; try discriminate; injection H; lia.
  - intros k H. apply Hfl in H. lia.
  - intros H. apply Hin in H; [|reflexivity]. unfold commit_ops in H. cbn [In] in H. destruct H as [H|H]; [discriminate|].
    rewrite in_app_iff, in_map_iff in H. cbn [In] in H.
    destruct H as [(x & H & _)|[H|[H|[H|[H|[]]]]]]; try discriminate; injection H; lia.
Qed.
Lemma no_use_incl j a b : (forall o, In o a -> In o b) -> no_use j b -> no_use j a.
Proof. intros H (H1 & H2 & H3). split; [|split]; intros; intro Hi; apply H in Hi; firstorder. Qed.

Section FS.
Variables (dn hn : string) (h1 : list dop) (ws : list bytes) (hb : bytes) (ops' : list dop).
Let h := count_creates h1.
Hypothesis Hne : dn <> hn.
Hypothesis Hfl : with_flushes h (commit_ops dn hn h ws hb) ops'.

Lemma all_handles j n : handle_name (h1 ++ ops') j = Some n -> (j < h)%nat \/ j = h /\ n = dn \/ j = S h /\ n = hn.
Proof.
  rewrite handle_name_app. fold h. destruct (Nat.ltb_spec j h) as [Hj|Hj]; [auto|]. intros H. right.
  rewrite handle_name_nf in H. destruct Hfl as [Hf _]. fold nf in H. change (fun o => negb (is_flush o)) with nf in Hf. rewrite Hf in H.
  unfold commit_ops in H. cbn [handle_name] in H. destruct (j - h)%nat as [|i] eqn:Ej; [injection H as <-; left; split; [lia|reflexivity]|].
  rewrite handle_name_app, creates_map in H. cbn [Nat.ltb Nat.leb] in H. rewrite Nat.sub_0_r in H. cbn [handle_name] in H.
  destruct i; [injection H as <-; right; split; [lia|reflexivity]|discriminate].
Qed.
Lemma docs_file : fs_open (fs_run NewFSDirectory (h1 ++ ops')) dn = Some (concat ws).
Proof.
  pose proof all_handles as Hall. pose proof (fun j => commit_ops_use _ _ _ _ _ _ j Hfl) as Huse.
  destruct Hfl as [Hf Hfk]. change (fun o => negb (is_flush o)) with nf in Hf. unfold commit_ops in Hf.
  destruct (filter_cons_split nf ops' _ _ Hf) as (pre & tl & Et & Hpre & Htl).
  change (map (OWrite h) ws ++ [OCreate hn; OWrite (S h) hb; OClose (S h); OClose h])
    with (map (OWrite h) ws ++ [OCreate hn; OWrite (S h) hb; OClose (S h)] ++ [OClose h]) in Htl.
  rewrite app_assoc in Htl. destruct (filter_split nf tl _ _ Htl) as (h2 & tl2 & -> & Hh2 & Htl2).
  destruct (filter_cons_split nf tl2 _ _ Htl2) as (f2 & h3 & -> & Hf2 & Hh3).
  assert (forall o, nf o = true -> In o (h2 ++ f2) -> In o (map (OWrite h) ws ++ [OCreate hn; OWrite (S h) hb; OClose (S h)])) as Hin2.
  { intros o Ho Hi. rewrite <- Hh2. apply (In_nf o (h2 ++ f2) Ho) in Hi. rewrite filter_app, Hf2, app_nil_r in Hi. exact Hi. }
  assert (forall o, In o ((h2 ++ f2) ++ h3) -> In o ops') as Hsub.
  { intros o Ho. rewrite Et. rewrite in_app_iff. right. right. rewrite <- !app_assoc in *. rewrite in_app_iff in Ho |- *.
    destruct Ho as [Ho|Ho]; [auto|]. right. rewrite in_app_iff in Ho |- *. cbn [In]. tauto. }
  assert (writes_to h (h2 ++ f2) = concat ws) as Hw.
  { rewrite writes_to_nf, filter_app, Hh2, Hf2, app_nil_r, writes_to_app, writes_map. cbn [writes_to].
    replace (Nat.eqb (S h) h) with false by (symmetry; apply Nat.eqb_neq; lia). apply app_nil_r. }
  rewrite <- Hw. assert (h1 ++ ops' = (h1 ++ pre) ++ OCreate dn :: (h2 ++ f2) ++ OClose h :: h3) as Eh.
  { rewrite Et, <- !app_assoc. reflexivity. }
  assert (h = count_creates (h1 ++ pre)) as Ek.
  { rewrite count_creates_app, (count_creates_nf pre), Hpre. cbn. unfold h. lia. }
  rewrite Eh. apply fs_recreate; [exact Ek| | |].
  - intros Hi. rewrite in_app_iff in Hi. destruct Hi as [Hi|Hi].
    + apply Hin2 in Hi; [|reflexivity]. rewrite in_app_iff, in_map_iff in Hi. cbn [In] in Hi.
      destruct Hi as [(x & H & _)|[H|[H|[H|[]]]]]; try discriminate. congruence.
    + apply (In_nf _ h3) in Hi; [|reflexivity]. rewrite Hh3 in Hi. destruct Hi.
  - intros Hi. apply Hin2 in Hi; [|reflexivity]. rewrite in_app_iff, in_map_iff in Hi. cbn [In] in Hi.
    destruct Hi as [(x & H & _)|[H|[H|[H|[]]]]]; try discriminate. injection H; lia.
  - intros j Hj Hn. rewrite <- Eh in Hn. apply (no_use_incl j _ ops' Hsub). apply Huse.
    destruct (Hall j dn Hn) as [Hl|[[Hl _]|[_ Hl]]]; [exact Hl|congruence|congruence].
Qed.
Lemma header_file : fs_open (fs_run NewFSDirectory (h1 ++ ops')) hn = Some hb.
Proof.
  pose proof all_handles as Hall. pose proof (fun j => commit_ops_use _ _ _ _ _ _ j Hfl) as Huse.
  destruct Hfl as [Hf Hfk]. change (fun o => negb (is_flush o)) with nf in Hf. unfold commit_ops in Hf.
  change (OCreate dn :: map (OWrite h) ws ++ [OCreate hn; OWrite (S h) hb; OClose (S h); OClose h])
    with ((OCreate dn :: map (OWrite h) ws) ++ OCreate hn :: [OWrite (S h) hb; OClose (S h); OClose h]) in Hf.
  destruct (filter_split nf ops' _ _ Hf) as (a & b & Eab & Ha & Hb).
  destruct (filter_cons_split nf b _ _ Hb) as (f1 & tl & -> & Hf1 & Htl).
  change [OWrite (S h) hb; OClose (S h); OClose h] with ([OWrite (S h) hb] ++ OClose (S h) :: [OClose h]) in Htl.
  destruct (filter_split nf tl _ _ Htl) as (h2 & tl2 & -> & Hh2 & Htl2).
  destruct (filter_cons_split nf tl2 _ _ Htl2) as (f2 & h3 & -> & Hf2 & Hh3).
  assert (forall o, nf o = true -> In o (h2 ++ f2) -> o = OWrite (S h) hb) as Hin2.
  { intros o Ho Hi. apply (In_nf o (h2 ++ f2) Ho) in Hi. rewrite filter_app, Hf2, Hh2 in Hi. destruct Hi as [<-|[]]. reflexivity. }
  assert (forall o, nf o = true -> In o h3 -> o = OClose h) as Hin3.
  { intros o Ho Hi. apply (In_nf o h3 Ho) in Hi. rewrite Hh3 in Hi. destruct Hi as [<-|[]]. reflexivity. }
  assert (writes_to (S h) (h2 ++ f2) = hb) as Hw.
  { rewrite writes_to_nf, filter_app, Hh2, Hf2. cbn [app writes_to]. rewrite Nat.eqb_refl. apply app_nil_r. }
  assert (h1 ++ ops' = (h1 ++ a ++ f1) ++ OCreate hn :: (h2 ++ f2) ++ OClose (S h) :: h3) as Eh.
  { rewrite Eab, <- !app_assoc. reflexivity. }
  assert (S h = count_creates (h1 ++ a ++ f1)) as Ek.
  { rewrite !count_creates_app, (count_creates_nf a), (count_creates_nf f1), Ha, Hf1. cbn [count_creates]. rewrite creates_map. unfold h. lia. }
  assert (forall o, In o ((h2 ++ f2) ++ h3) -> In o ops') as Hsub.
  { intros o Ho. rewrite Eab. rewrite !in_app_iff in *. cbn [In]. rewrite !in_app_iff. cbn [In]. tauto. }
  rewrite Eh, <- Hw at 1. apply fs_recreate; [exact Ek| | |].
  - intros Hi. rewrite in_app_iff in Hi. destruct Hi as [Hi|Hi]; [apply Hin2 in Hi|apply Hin3 in Hi]; try reflexivity; discriminate.
  - intros Hi. apply Hin2 in Hi; [discriminate|reflexivity].
  - intros j Hj Hn. rewrite <- Eh in Hn. apply (no_use_incl j _ ops' Hsub). apply Huse.
    destruct (Hall j hn Hn) as [Hl|[[_ Hl]|[Hl _]]]; [exact Hl|congruence|congruence].
Qed.
End FS.
