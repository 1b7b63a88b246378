(** MergeSkip from the start, DivideSkip, and the optimizing wrapper. *)
From Coq Require Import ZifyBool.
From Verif Require Import Base BaseLemmas Postings PostingsSpec PostingsDrive PostingsProofs Heap HeapProofs
  Merger MergerSpec MergerProofs MergerProofs2 MergerProofs3.
Local Open Scope Z_scope.
Ltac Zify.zify_post_hook ::= Z.div_mod_to_equations.

Lemma init_records_ok rid ls : lists rid ls -> nonempty ls -> forall i, init_records i rid = Ret (heads i ls).
Proof.
  induction 1 as [|it l rid ls [Hp Hb] Hl IH]; intros Hne i; [reflexivity|].
  cbn [init_records]. rewrite (behaves_get it (zlen l) l Hb).
  pose proof (Forall_inv Hne) as Hx. apply Forall_inv_tail in Hne. destruct l as [|x l]; [congruence|].
  cbn [first bind heads]. rewrite IH by exact Hne. reflexivity.
Qed.
Lemma lists_RI rid ls : lists rid ls -> nonempty ls -> Forall2 RI rid ls.
Proof.
  induction 1 as [|it l rid ls [[Hs Hu] Hb] Hl IH]; intros Hne; constructor.
  - split; [exact Hs|]. split; [exact Hu|]. right. exists (zlen l). split; [|exact Hb].
    apply Forall_inv in Hne. destruct l; [congruence|]. rewrite zlen_cons. pose proof (zlen_nonneg l). lia.
  - apply IH. apply Forall_inv_tail in Hne. exact Hne.
Qed.
Lemma ms_fuel_ok rid ls : lists rid ls -> (total ls < ms_fuel rid)%nat.
Proof.
  unfold ms_fuel, total. induction 1 as [|it l rid ls [_ Hb] Hl IH]; [cbn; lia|].
  cbn [concat fold_right]. rewrite app_length, (behaves_len it (zlen l) l Hb). unfold zlen. lia.
Qed.
Lemma heads_full ls : nonempty ls -> forall i, length (heads i ls) = length ls.
Proof.
  induction 1 as [|l ls Hl Hls IH]; intros i; [reflexivity|]. destruct l as [|x l]; [congruence|]. cbn [heads length]. rewrite IH. reflexivity.
Qed.
Lemma lists_len rid ls : lists rid ls -> length rid = length ls.
Proof. intros H. apply lists_length in H. unfold zlen in H. lia. Qed.

Lemma mergeSkip_ok {St} (collect : St -> Z -> option err * St) rid ls T s :
  lists rid ls -> nonempty ls -> zlen ls < 2 ^ 32 ->
  exists cs, is_answer ls T cs /\ mergeSkip collect rid T s = feed collect cs s.
Proof.
  intros Hl Hne Hn. unfold mergeSkip. rewrite (init_records_ok rid ls Hl Hne).
  destruct (heap_init_heap rless rle_trans rless_asym (heads 0 ls)) as [H1 H2].
  rewrite (heads_full ls Hne) in H1, H2. rewrite (lists_len _ _ Hl).
  set (h := heap_init rless (heads 0 ls) (length ls)) in *.
  assert (length ls = length h) as -> by (rewrite (Permutation_length H2); symmetry; apply heads_full; exact Hne).
  replace h with (h ++ []) by apply app_nil_r.
  replace (length (h ++ [])) with (length h) by (rewrite app_nil_r; reflexivity).
  apply (ms_loop_ok collect T (ms_fuel rid) rid ls h []); auto.
  - apply lists_RI; auto.
  - apply ms_fuel_ok. exact Hl.
Qed.

(** DivideSkip *)
Definition bumps (ls : list (list Z)) (xc : Z * Z) : Z * Z := (fst xc, snd xc + count (fst xc) ls).

Lemma in_long_ok : forall long ls b x c, Forall2 (agrees b) long ls -> b <= x -> is_u32 x -> 0 <= c -> c + zlen ls <= 65535 ->
  exists long', in_long x long (NewMergeCandidate x c) = Ret (NewMergeCandidate x (c + count x ls), long') /\
    Forall2 (agrees x) long' ls.
Proof.
  induction long as [|it long IH]; intros ls b x c Hag Hb Hx Hc Hn; inversion Hag as [|? l ? ls' Hl Hr]; subst.
  - exists []. rewrite count_nil, Z.add_0_r. split; [reflexivity|constructor].
  - cbn [in_long]. destruct (agrees_lb b it l x Hl Hb) as (r & it' & E & Hag' & Hr'). rewrite E.
    rewrite zlen_cons in Hn. pose proof (zlen_nonneg ls') as Hnn.
    assert (match r with
          | Ret v => if v =? x then increment (NewMergeCandidate x c) else Ret (NewMergeCandidate x c)
          | Fail ErrIteratorIsNotDereferencable => Ret (NewMergeCandidate x c)
          | Fail e => Fail e | Panic => Panic | NoFuel => NoFuel end
          = Ret (NewMergeCandidate x (c + b2z (mem x l)))) as ->.
    { destruct Hr' as [[Hin ->]|[Hin Hr']].
      - rewrite Z.eqb_refl. apply mem_In in Hin. rewrite Hin. apply increment_pack; [exact Hx|lia].
      - apply mem_false in Hin. rewrite Hin. cbn [b2z]. rewrite Z.add_0_r.
        destruct Hr' as [->|(v & -> & Hv)]; [reflexivity|]. replace (v =? x) with false by lia. reflexivity. }
    cbn [bind].
    destruct (IH ls' b x (c + b2z (mem x l)) Hr Hb Hx) as (long' & E' & Hag2).
    { destruct (mem x l); cbn [b2z]; lia. }
    { destruct (mem x l); cbn [b2z]; lia. }
    rewrite E'. cbn [bind]. exists (it' :: long'). split; [|constructor; auto].
    rewrite count_cons, Z.add_assoc. reflexivity.
Qed.

Lemma ds_emit_ok {St} (collect : St -> Z -> option err * St) T ls : forall A b long s,
  Forall2 (agrees b) long ls -> sortedA A -> Forall (fun xc => b <= fst xc) A ->
  Forall (fun xc => is_u32 (fst xc) /\ 0 <= snd xc /\ snd xc + zlen ls <= 65535) A ->
  ds_emit collect T (map pk A) long s = feed collect (filter (fun xc => T <=? snd xc) (map (bumps ls) A)) s.
Proof.
  induction A as [|[x c] A IH]; intros b long s Hag Hs Hb Hok; [reflexivity|].
  cbn [map ds_emit]. apply StronglySorted_inv in Hs. destruct Hs as [Hs Hx]. cbn [fst] in Hx.
  pose proof (Forall_inv Hok) as (Hux & Hc & Hcn). pose proof (Forall_inv_tail Hok) as Hok'. cbn [fst snd] in Hux, Hc, Hcn.
  pose proof (Forall_inv Hb) as Hbx. cbn in Hbx. pose proof (zlen_nonneg ls) as Hnn.
  change (pk (x, c)) with (NewMergeCandidate x c).
  rewrite position_pack by (unfold is_u32 in *; lia).
  destruct (in_long_ok long ls b x c Hag Hbx Hux Hc Hcn) as (long' & E & Hag'). rewrite E.
  pose proof (count_le x ls) as Hcl. pose proof (count_nonneg x ls) as Hcp.
  rewrite overlap_pack by (unfold is_u32 in *; lia). cbn [filter]. 
  change (bumps ls (x, c)) with (x, c + count x ls). cbn [snd]. rewrite Z.geb_leb.
  assert (forall s', ds_emit collect T (map pk A) long' s' = feed collect (filter (fun xc => T <=? snd xc) (map (bumps ls) A)) s') as IH'.
  { intros s'. apply (IH x); auto. eapply Forall_impl; [|exact Hx]. intros a Ha. cbv beta in Ha. lia. }
  destruct (T <=? c + count x ls); [|apply IH'].
  cbn [feed]. destruct (collect s (NewMergeCandidate x (c + count x ls))) as [[e|] s']; [reflexivity|apply IH'].
Qed.

Lemma feed_simple cs : forall s, feed simple_collect cs s = (Ret tt, s ++ map pk cs).
Proof.
  induction cs as [|[x c] cs IH]; intros s; cbn [feed simple_collect map]; [rewrite app_nil_r; reflexivity|].
  rewrite IH, <- app_assoc. reflexivity.
Qed.
Lemma Forall2_agrees b rid ls : lists rid ls -> Forall2 (agrees b) rid ls.
Proof. induction 1; constructor; auto. apply agrees_start. assumption. Qed.
Lemma posting_u32 rid ls x : lists rid ls -> 1 <= count x ls -> is_u32 x.
Proof.
  intros Hl Hc. apply count_pos in Hc. destruct Hc as (l & Hin & Hx). induction Hl as [|it l' rid ls [[_ Hu] _] Hl IH]; [destruct Hin|].
  destruct Hin as [->|Hin]; [|exact (IH Hin)]. rewrite Forall_forall in Hu. exact (Hu x Hx).
Qed.

Lemma divideSkip_ok {St} (collect : St -> Z -> option err * St) srt srtr lparam rid ls T s :
  sorter_ok srt -> sorter_ok srtr -> lists rid ls -> nonempty ls -> zlen ls <= 65535 -> 0 <= T < zlen ls ->
  (forall it0 r0, srtr rid = it0 :: r0 -> 0 <= lparam T (it_len it0) /\ (lparam T (it_len it0) < T \/ lparam T (it_len it0) = 0)) ->
  exists cs, is_answer ls T cs /\ divideSkip collect srt srtr lparam rid T s = feed collect cs s.
Proof.
  intros Hsrt Hsrtr Hl Hne Hn HT Hlp. unfold divideSkip.
  destruct (lists_perm rid (srtr rid) (Hsrtr rid) ls Hl) as (ls' & Hp & Hl').
  assert (zlen ls = zlen ls') as Hlen by (apply zlen_perm; exact Hp).
  assert (zlen (srtr rid) = zlen ls') as Hlr by (apply lists_length; exact Hl').
  assert (nonempty ls') as Hne'.
  { unfold nonempty in *. rewrite <- Hp. exact Hne. }
  destruct (srtr rid) as [|it0 r0] eqn:Er.
  { exfalso. change (zlen (@nil iter)) with 0 in Hlr. lia. }
  set (l := lparam T (it_len it0)). destruct (Hlp it0 r0 eq_refl) as [Hl0 HlT]. fold l in Hl0, HlT.
  set (r := it0 :: r0) in *.
  assert (slice r 0 l = Ret (firstn (Z.to_nat l) r)) as ->.
  { unfold slice. replace ((0 <=? 0) && (0 <=? l) && (l <=? zlen r)) with true by lia. rewrite Z.sub_0_r. reflexivity. }
  assert (slice r l (zlen r) = Ret (skipn (Z.to_nat l) r)) as ->.
  { unfold slice. replace ((0 <=? l) && (l <=? zlen r) && (zlen r <=? zlen r)) with true by lia. f_equal.
    apply firstn_all2. rewrite skipn_length. unfold zlen. lia. }
  rewrite <- (firstn_skipn (Z.to_nat l) r) in Hl'.
  destruct (lists_app_inv _ _ _ Hl') as (l1 & l2 & E & Hl1 & Hl2).
  assert (zlen l1 = l) as Hz1.
  { rewrite <- (lists_length _ _ Hl1). unfold zlen in *. rewrite firstn_length. lia. }
  assert (zlen l1 + zlen l2 = zlen ls') as Hadd by (rewrite E, zlen_app; lia).
  rewrite E in Hne'. apply Forall_app in Hne'. destruct Hne' as [Hne1 Hne2].
  destruct (mergeSkip_ok simple_collect _ l2 (T - l) [] Hl2 Hne2 ltac:(lia)) as (cs & Hcs & Ems).
  destruct (skipn (Z.to_nat l) r) as [|it1 r1] eqn:Esk.
  { exfalso. apply lists_length in Hl2. change (zlen (@nil iter)) with 0 in Hl2. lia. }
  unfold MergeSkip, optimized. rewrite (lists_length _ _ Hl2).
  replace ((zlen l2 <? T - l) || (zlen l2 =? 0) || (T - l <? 0)) with false by lia.
  replace (zlen l2 =? T - l) with false by lia. rewrite Ems, feed_simple. cbn [app].
  destruct Hcs as [Hc1 Hc2].
  rewrite (ds_emit_ok collect T l1 cs 0); [|apply Forall2_agrees; exact Hl1|exact Hc1| |].
  - eexists. split; [|reflexivity]. eapply is_answer_perm; [exact Hp|]. rewrite E. split.
    + apply sortedA_filter. clear - Hc1. induction Hc1 as [|a A HA IH Ha]; [constructor|]. cbn [map]. constructor; [exact IH|].
      apply Forall_map. exact Ha.
    + intros x c. rewrite filter_In, in_map_iff. cbn [snd]. rewrite count_app.
      pose proof (count_le x l1). pose proof (count_nonneg x l1). split.
      * intros [([y d] & Ey & Hin) Ht]. unfold bumps in Ey. cbn [fst snd] in Ey. injection Ey as <- <-. apply Hc2 in Hin. lia.
      * intros (-> & H1 & H2). split; [|lia]. exists (x, count x l2). split; [unfold bumps; cbn [fst snd]; f_equal; lia|].
        apply Hc2. split; [reflexivity|]. lia.
  - apply Forall_forall. intros [x c] Hin. cbn [fst]. apply Hc2 in Hin. destruct Hin as (-> & H1 & _).
    pose proof (posting_u32 _ _ x Hl2 H1) as Hu. unfold is_u32 in Hu. lia.
  - apply Forall_forall. intros [x c] Hin. cbn [fst snd]. apply Hc2 in Hin. destruct Hin as (-> & H1 & _).
    pose proof (posting_u32 _ _ x Hl2 H1) as Hu. pose proof (count_le x l2). split; [exact Hu|]. lia.
Qed.
