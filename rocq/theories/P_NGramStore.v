(** C52 Stored models load back. *)
From Coq Require Import String ZifyBool Sorting.Sorted.
From Verif Require Import Base BaseLemmas Store StoreProofs Decimal Merger MergerProofs NGram NGramSpec NGramProofs NGramProofs2 NGramProofs3 P_NGram Mph P_Mph NGramStore NGramStoreProofs.
Local Open Scope Z_scope.

(** A vector whose entries are uint64, total uint32, and at most 2^29 - 1 entries. *)
Definition vector_ok (v : packed) : Prop :=
  Forall is_u64 (containers v) /\ Forall is_u64 (pvalues v) /\ is_u32 (total v) /\ zlen (containers v) + zlen (pvalues v) < 2 ^ 29.
Lemma ok_fits v : vector_ok v -> vector_fits v.
Proof. intros (H1 & H2 & H3 & H4). split; [exact H1|]. split; [exact H2|]. split; [exact H3|lia]. Qed.

(** Models of up to 255 such vectors, stored anywhere in a buffer: Store reports the bytes
    it appends; Load gives the same model and leaves the position behind it. *)
Theorem C52_model_partial : forall ixs, Forall vector_ok ixs -> zlen ixs <= 255 ->
  let m := NewNGramModel ixs in
  exists stored, (forall o, StoreModel m o = Ret (zlen stored, o ++ stored))
  /\ forall pre suf, zlen (pre ++ stored ++ suf) < 2 ^ 63 ->
     exists n, LoadModel (mkIn (pre ++ stored ++ suf) (zlen pre)) = (Ret (m, n), mkIn (pre ++ stored ++ suf) (zlen pre + zlen stored)).
Proof.
  intros ixs Hv Hz m. exists (model_bytes m). split; [apply store_model|]. intros pre suf Hl. apply load_model; [|apply wrap8_small; pose proof (zlen_nonneg ixs); cbn [m NewNGramModel indices]; lia|exact Hz|exact Hl].
  eapply Forall_impl; [|exact Hv]. apply ok_fits.
Qed.
Print Assumptions C52_model_partial.

(** The binary file of a language model: model and hash table come back. *)
Theorem C52_binary_partial : forall ixs t, Forall vector_ok ixs -> zlen ixs <= 255 -> table_ok t ->
  exists stored, StoreBinary (NewNGramModel ixs) t [] = Ret stored
  /\ (zlen stored < 2 ^ 63 -> fst (LoadBinary (NewBytesInput stored)) = Ret (NewNGramModel ixs, t)).
Proof.
  intros ixs t Hv Hz Ht. destruct (C52_model_partial ixs Hv Hz) as (s1 & E1 & L1).
  destruct (C56_roundtrip t s1 [] Ht) as (s2 & E2 & L2).
  exists (s1 ++ s2). unfold StoreBinary. rewrite E1. cbn [bind app]. rewrite E2. cbn [bind]. split; [reflexivity|]. intros Hl.
  rewrite app_nil_r in L2. destruct (L2 Hl) as (n2 & L2' & _). destruct (L1 [] s2 Hl) as (n1 & L1').
  unfold LoadBinary, NewBytesInput. cbn [app] in L1'. change (zlen (@nil Z)) with 0 in L1'. rewrite L1'. rewrite Z.add_0_l. rewrite L2'. reflexivity.
Qed.
Print Assumptions C52_binary_partial.

(** ** Models read from n-gram files *)
Lemma pack_u64 a b : is_u32 a -> is_u32 b -> is_u64 (Pack a b).
Proof. intros Ha Hb. unfold is_u32 in Ha, Hb. rewrite pack_val by (unfold is_u32; lia). unfold is_u64. lia. Qed.
Lemma create_fits ns : Forall (fun n => is_u32 (snd n)) ns ->
  let v := CreatePackedArray ns in Forall is_u64 (containers v) /\ Forall is_u64 (pvalues v) /\ is_u32 (total v)
    /\ zlen (containers v) <= zlen ns /\ zlen (pvalues v) = zlen ns.
Proof.
  intros H. unfold CreatePackedArray.
  assert (forall l pa ctx from, Forall (fun n => is_u32 (snd n)) l -> Forall is_u64 (containers pa) -> Forall is_u64 (pvalues pa) -> is_u32 (total pa) -> is_u32 from ->
    let v := fst (fst (fold_left create_step l (pa, ctx, from))) in Forall is_u64 (containers v) /\ Forall is_u64 (pvalues v) /\ is_u32 (total v)
    /\ zlen (containers v) <= zlen (containers pa) + zlen l /\ zlen (pvalues v) = zlen (pvalues pa) + zlen l) as G.
  { induction l as [|n l IH]; intros pa ctx from Hl H1 H2 H3 H4; cbn [fold_left].
    - cbn [fst]. change (zlen (@nil ngnode)) with 0. repeat (split; [assumption|]). split; lia.
    - apply Forall_cons_iff in Hl. destruct Hl as [Hn Hl]. unfold create_step at 2. set (fresh := negb _ || _).
      assert (is_u32 (GetKeyContext (fst n))) as Hc by apply wrap32_range. assert (is_u32 (GetKeyWordID (fst n))) as Hw by apply wrap32_range.
      destruct (IH (mkPA (if fresh then containers pa ++ [newRangeContainer (GetKeyContext (fst n)) from] else containers pa) (pvalues pa ++ [newPackedValue (GetKeyWordID (fst n)) (snd n)]) (wrap32 (total pa + snd n))) (if fresh then GetKeyContext (fst n) else ctx) (wrap32 (from + 1)) Hl) as (R1 & R2 & R3 & R4 & R5).
      + cbn [containers]. destruct fresh; [apply Forall_app; split; [exact H1|constructor; [apply pack_u64; assumption|constructor]]|exact H1].
      + cbn [pvalues]. apply Forall_app. split; [exact H2|constructor; [apply pack_u64; assumption|constructor]].
      + apply wrap32_range.
      + apply wrap32_range.
      + split; [exact R1|]. split; [exact R2|]. split; [exact R3|]. split; [eapply Z.le_trans; [exact R4|]|etransitivity; [exact R5|]]; cbn [containers pvalues].
        * destruct fresh; rewrite ?zlen_app, ?zlen_cons, ?zlen_nil; lia.
        * rewrite zlen_app, !zlen_cons, zlen_nil; lia. }
  destruct (G ns (mkPA [] [] 0) InvalidContextOffset 0 H) as (R1 & R2 & R3 & R4 & R5); [constructor|constructor|unfold is_u32; cbn; lia|unfold is_u32; lia|].
  exact (conj R1 (conj R2 (conj R3 (conj R4 R5)))).
Qed.
Lemma tree_put_fits t k c : Forall (fun n => is_u32 (snd n)) t -> is_u32 c -> Forall (fun n : ngnode => is_u32 (snd n)) (tree_put t k c) /\ zlen (tree_put t k c) <= zlen t + 1.
Proof.
  intros Ht Hc. induction Ht as [|[k' c'] t Hk Ht [I1 I2]]; cbn [tree_put]; [split; [constructor; [exact Hc|constructor]|change (zlen [_]) with 1; change (zlen (@nil ngnode)) with 0; lia]|].
  destruct (k' <? k); [|destruct (k' =? k)]; rewrite ?zlen_cons; (split; [repeat (constructor; try assumption); apply wrap32_range|lia]) || (split; [constructor; assumption|lia]).
Qed.
Lemma put_lines_fits parents f : Forall (fun l : list Z * Z => is_u32 (snd l)) f -> forall t t', Forall (fun n => is_u32 (snd n)) t -> put_lines parents t f = Ret t' ->
  Forall (fun n => is_u32 (snd n)) t' /\ zlen t' <= zlen t + zlen f.
Proof.
  induction 1 as [|[g c] f Hc Hf IH]; intros t t' Ht E; cbn [put_lines] in E.
  - injection E as <-. split; [exact Ht|]. change (zlen (@nil (list Z * Z))) with 0. lia.
  - unfold VPut in E. destruct (negb _); [discriminate|]. destruct (put_parent parents g InvalidContextOffset) as [[w p]| | |]; cbn [bind] in E; try discriminate.
    destruct (MakeKey w p) as [k| | |]; cbn [bind] in E; try discriminate.
    destruct (tree_put_fits t k c Ht Hc) as [H1 H2]. destruct (IH _ _ H1 E) as [H3 H4]. split; [exact H3|]. rewrite zlen_cons. lia.
Qed.
Lemma read_fits : forall files vs ixs, Forall (fun f => Forall (fun l : list Z * Z => is_u32 (snd l)) f /\ zlen f < 2 ^ 28) files -> Forall vector_ok vs ->
  read_vectors vs files = Ret ixs -> Forall vector_ok ixs.
Proof.
  induction files as [|f fs IH]; intros vs ixs Hf Hv E; cbn [read_vectors] in E; [injection E as <-; exact Hv|].
  apply Forall_cons_iff in Hf. destruct Hf as [[H1 H2] Hf]. destruct (put_lines vs [] f) as [t| | |] eqn:Et; cbn [bind] in E; try discriminate.
  destruct (put_lines_fits vs f H1 [] t (Forall_nil _) Et) as [H3 H4]. change (zlen (@nil ngnode)) with 0 in H4.
  apply (IH (vs ++ [CreatePackedArray t]) ixs Hf); [|exact E]. apply Forall_app. split; [exact Hv|]. constructor; [|constructor].
  destruct (create_fits t H3) as (R1 & R2 & R3 & R4 & R5). repeat (split; [assumption|]). lia.
Qed.
(** A model read from n-gram files of fewer than 2^28 lines each comes back from its file:
    every score, every continuation and every answer of a scorer are as before. *)
Theorem C52_files_partial : forall files ixs t, Forall (fun f => Forall (fun l : list Z * Z => is_u32 (snd l)) f /\ zlen f < 2 ^ 28) files ->
  zlen files <= 255 -> read_vectors [] files = Ret ixs -> table_ok t ->
  exists stored m t', StoreBinary (NewNGramModel ixs) t [] = Ret stored
  /\ (zlen stored < 2 ^ 63 -> fst (LoadBinary (NewBytesInput stored)) = Ret (m, t')
      /\ nGramOrder m = zlen files
      /\ (forall flog g, Score flog m g = Score flog (NewNGramModel ixs) g)
      /\ (forall g, Next m g = Next (NewNGramModel ixs) g)
      /\ forall s, GetMph t' s = GetMph t s).
Proof.
  intros files ixs t Hf Hz E Ht. pose proof (read_fits files [] ixs Hf (Forall_nil _) E) as Hv.
  assert (zlen ixs = zlen files) as Hlen.
  { assert (forall fs vs r, read_vectors vs fs = Ret r -> zlen r = zlen vs + zlen fs) as G; [|rewrite (G _ _ _ E); reflexivity].
    induction fs as [|f fs IH]; intros vs r E'; cbn [read_vectors] in E'; [injection E' as <-; change (zlen (@nil ngfile)) with 0; lia|].
    destruct (put_lines vs [] f) as [t0| | |]; cbn [bind] in E'; try discriminate. rewrite (IH _ _ E'), zlen_app, !zlen_cons, zlen_nil. lia. }
  destruct (C52_binary_partial ixs t Hv ltac:(lia) Ht) as (stored & E1 & E2). exists stored, (NewNGramModel ixs), t. split; [exact E1|]. intros Hl. split; [exact (E2 Hl)|].
  split; [|auto]. cbn [NewNGramModel nGramOrder]. rewrite wrap8_small; [exact Hlen|]. pose proof (zlen_nonneg ixs). lia.
Qed.
Print Assumptions C52_files_partial.

Definition ixs1 : list packed := match read_vectors [] files1 with Ret ixs => ixs | _ => [] end.
Definition stored1 : bytes := match StoreBinary (NewNGramModel ixs1) table0 [] with Ret s => s | _ => [] end.
Example C52_nonvacuous : Forall (fun f => Forall (fun l : list Z * Z => is_u32 (snd l)) f /\ zlen f < 2 ^ 28) files1 /\ zlen files1 <= 255
  /\ read_vectors [] files1 = Ret ixs1 /\ zlen ixs1 = 3 /\ table_ok table0
  /\ StoreBinary (NewNGramModel ixs1) table0 [] = Ret stored1 /\ zlen stored1 = 126 /\ fst (LoadBinary (NewBytesInput stored1)) = Ret (NewNGramModel ixs1, table0).
Proof.
  split. { repeat (apply Forall_cons; [split; [repeat (apply Forall_cons; [split; vm_compute; [discriminate|reflexivity]|]); apply Forall_nil|vm_compute; reflexivity]|]); apply Forall_nil. }
  split; [vm_compute; discriminate|]. split; [vm_compute; reflexivity|]. split; [vm_compute; reflexivity|]. split; [exact (proj1 C56_nonvacuous)|].
  split; [vm_compute; reflexivity|]. split; vm_compute; reflexivity.
Qed.

(** ** What does not hold *)
(** A vector's loader reports the position it ended at, not the bytes it read: they differ
    unless the vector is at the start of its file, which it never is in a model. *)
Theorem C52_count_refuted : forall v pre suf, vector_ok v -> 
  exists stored, StoreVector v [] = Ret (zlen stored, stored)
  /\ (zlen (pre ++ stored ++ suf) < 2 ^ 63 -> fst (LoadVector (mkIn (pre ++ stored ++ suf) (zlen pre))) = Ret (v, zlen pre + zlen stored)).
Proof.
  intros v pre suf Hv. exists (vector_bytes v). split; [apply store_vector|]. intros Hl. rewrite load_vector; [reflexivity|apply ok_fits; exact Hv|exact Hl].
Qed.
Print Assumptions C52_count_refuted.

(** From 2^29 entries on, the sizes in the header wrap around: the vector comes back without
    its values, the rest of the file is misread, and lookups panic. *)
Lemma one_context N : Z.of_nat N = 2 ^ 29 ->
  let l : list triple := map (fun i => (0, Z.of_nat i, 1)) (seq 0 N) in
  triples_ok l /\ let v := CreatePackedArray (map node_of l) in
  GetCount v 0 0 = Ret (1, 0) /\ containers v = [0] /\ zlen (pvalues v) = 2 ^ 29 /\ is_u32 (total v).
Proof.
  intros HN l. assert (triples_ok l) as Hok.
  { split; [apply seq_sorted|]. unfold l. rewrite Forall_map, Forall_forall. intros i Hi. apply in_seq in Hi. unfold is_u32. cbn [fst snd]. lia. }
  assert (zlen l = 2 ^ 29) as Hz by (unfold zlen, l; rewrite map_length, seq_length; exact HN).
  split; [exact Hok|]. intros v. destruct (C48_lookup_partial l Hok ltac:(lia)) as [Hf _].
  split. { apply (Hf O 0 0 1). unfold l. rewrite nth_error_map, (nth_error_nth' _ O) by (rewrite seq_length; lia). rewrite seq_nth by lia. reflexivity. }
  pose proof (triples_nodes l Hok ltac:(lia)) as Hnok. destruct (create_groups _ Hnok) as (gs & Hg & Hns & Ev).
  destruct (create_fits (map node_of l)) as (_ & _ & H3 & _ & H5). { rewrite Forall_map. eapply Forall_impl; [|exact (proj2 Hok)]. cbn. tauto. }
  fold v in Ev, H3, H5. split; [|split; [rewrite H5, zlen_map; exact Hz|exact H3]].
  assert (forall c x, In (c, x) gs -> c = 0) as Hc0.
  { intros c x Hin. pose proof Hg as (_ & Hall & _). rewrite Forall_forall in Hall. destruct (Hall _ Hin) as (Hc & Hne & _ & Hw). cbn [fst snd] in *.
    destruct x as [|[w n] x]; [congruence|]. apply Forall_inv in Hw. destruct Hw as [Hw Hn]. cbn [fst snd] in Hw, Hn.
    pose proof (nodes_in gs c _ w n Hin (or_introl eq_refl)) as Hin'. rewrite Hns in Hin'. apply (proj1 (in_nodes l c w n Hok Hc Hw)) in Hin'. unfold l in Hin'. apply in_map_iff in Hin'. destruct Hin' as (i & Ei & _). congruence. }
  assert (gs <> []) as Hne by (intros ->; cbn in Hns; destruct l; [cbn in Hz; lia|discriminate]).
  destruct gs as [|[c x] [|[c' x'] gs]]; [congruence| |].
  - rewrite Ev. unfold pa_groups, pa_of. cbn [containers conts map]. rewrite (Hc0 c x (or_introl eq_refl)). reflexivity.
  - exfalso. destruct Hg as (Hs & _ & _). cbn [map fst] in Hs. apply StronglySorted_inv in Hs. destruct Hs as [_ Hs]. apply Forall_inv in Hs.
    rewrite (Hc0 c x), (Hc0 c' x') in Hs; cbn; auto. lia.
Qed.
Theorem C52_large_refuted : exists l, triples_ok l /\ zlen l = 2 ^ 29 /\
  let v := CreatePackedArray (map node_of l) in
  GetCount v 0 0 = Ret (1, 0) /\ exists stored, StoreVector v [] = Ret (zlen stored, stored)
  /\ exists v' n, fst (LoadVector (NewBytesInput stored)) = Ret (v', n) /\ pvalues v' = [] /\ GetCount v' 0 0 = Panic.
Proof.
  assert (exists N, Z.of_nat N = 2 ^ 29) as [N HN] by (exists (Z.to_nat (2 ^ 29)); apply Z2Nat.id; lia).
  destruct (one_context N HN) as (H1 & H2 & H3 & H4 & H5).
  set (l := map (fun i => (0, Z.of_nat i, 1)) (seq 0 N)) in *. exists l. split; [exact H1|].
  split; [unfold zlen, l; rewrite map_length, seq_length; exact HN|]. cbv zeta. set (v := CreatePackedArray (map node_of l)) in *. clearbody l v.
  split; [exact H2|]. exists (vector_bytes v). split; [apply store_vector|].
  assert (wrap32 (8 * zlen (containers v)) = 8) as Ec by (rewrite H3; reflexivity). assert (wrap32 (8 * zlen (pvalues v)) = 0) as Ev by (rewrite H4; reflexivity).
  assert (zlen (vector_bytes v) < 2 ^ 63) as Hlen.
  { unfold vector_bytes. rewrite Ec, Ev, !zlen_app, !as_bytes_len, H3, H4. change (zlen [0]) with 1. unfold header. rewrite !zlen_app.
    assert (forall n, is_u32 n -> zlen (dec n) <= 20) as Hd by (intros n Hn; destruct (dec_spec n) as (_ & _ & _ & _ & _ & Hx); [unfold is_u32, is_u64 in *; lia|unfold zlen; lia]).
    pose proof (Hd 8 ltac:(unfold is_u32; lia)). pose proof (Hd 0 ltac:(unfold is_u32; lia)). pose proof (Hd _ H5). change (zlen [32]) with 1. change (zlen [10]) with 1. lia. }
  destruct (load_vector_any v [] [] H5 ltac:(lia)) with (data := uint64SliceAsByteSlice (containers v)) (rest := uint64SliceAsByteSlice (pvalues v)) (cs := containers v) (vs := @nil Z) as (hd & _ & E).
  - rewrite app_nil_r. exact Hlen.
  - rewrite app_nil_r. reflexivity.
  - rewrite Ec, Ev, as_bytes_len, H3. reflexivity.
  - rewrite Ec, H3. reflexivity.
  - rewrite H3. constructor; [unfold is_u64; lia|constructor].
  - rewrite Ec, H3. reflexivity.
  - constructor.
  - rewrite app_nil_r in E. cbn [app] in E. exists (mkPA (containers v) [] (total v)). eexists. split; [unfold NewBytesInput; change (mkIn (vector_bytes v) 0) with (mkIn (vector_bytes v) (zlen (@nil Z))); rewrite E; reflexivity|]. split; [reflexivity|]. rewrite H3. reflexivity.
Qed.
Print Assumptions C52_large_refuted.
