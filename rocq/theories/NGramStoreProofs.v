(** Proofs about NGramStore. *)
From Coq Require Import String ZifyBool.
From Verif Require Import Base BaseLemmas Store StoreProofs Decimal NGram Mph NGramStore.
Local Open Scope Z_scope.

Lemma le64_len v : zlen (le64 v) = 8.
Proof. reflexivity. Qed.
Lemma le64_val v : is_u64 v -> fold_right (fun c a => c + 256 * a) 0 (le64 v) = v.
Proof.
  intros Hv. unfold le64, le32. cbn [app fold_right]. rewrite !Z.shiftr_div_pow2 by lia. unfold wrap8, wrap32.
  rewrite !Z.div_div by lia.
  unfold is_u64 in Hv. change (2 ^ 64) with (2 ^ 32 * 2 ^ 32) in Hv.
  assert (0 <= v / 2 ^ 32 < 2 ^ 32) as Hh by (split; [apply Z.div_pos; lia|apply Z.div_lt_upper_bound; lia]).
  pose proof (Z.div_mod v (2 ^ 32) ltac:(lia)) as E. set (h := v / 2 ^ 32) in *. pose proof (Z.mod_pos_bound v (2 ^ 32) ltac:(lia)) as Hl. set (l := v mod 2 ^ 32) in *.
  replace (v / (2 ^ 32 * 2 ^ 8)) with (h / 2 ^ 8) by (unfold h; rewrite Z.div_div by lia; reflexivity).
  replace (v / (2 ^ 32 * 2 ^ 16)) with (h / 2 ^ 16) by (unfold h; rewrite Z.div_div by lia; reflexivity).
  replace (v / (2 ^ 32 * 2 ^ 24)) with (h / 2 ^ 24) by (unfold h; rewrite Z.div_div by lia; reflexivity).
  clearbody h l. lia.
Qed.
Lemma as_bytes_len l : zlen (uint64SliceAsByteSlice l) = 8 * zlen l.
Proof. unfold uint64SliceAsByteSlice. induction l as [|v l IH]; [reflexivity|]. cbn [flat_map]. rewrite zlen_app, le64_len, IH, zlen_cons. lia. Qed.
Lemma u64s_ok l : Forall is_u64 l -> u64s_of (length l) (uint64SliceAsByteSlice l) = l.
Proof.
  induction 1 as [|v l Hv Hl IH]; [reflexivity|]. cbn [length u64s_of uint64SliceAsByteSlice flat_map]. fold (uint64SliceAsByteSlice l).
  change (firstn 8 (le64 v ++ uint64SliceAsByteSlice l)) with (le64 v). change (skipn 8 (le64 v ++ uint64SliceAsByteSlice l)) with (uint64SliceAsByteSlice l).
  rewrite le64_val, IH by assumption. reflexivity.
Qed.
Lemma as_u64s_ok l : Forall is_u64 l -> byteSliceAsUint64Slice (uint64SliceAsByteSlice l) = Ret l.
Proof.
  intros Hl. unfold byteSliceAsUint64Slice. rewrite as_bytes_len. replace (8 * zlen l) with (zlen l * 8) by lia. rewrite Z_mod_mult, Z_div_mult by lia.
  cbn [Z.eqb negb]. unfold zlen. rewrite Nat2Z.id, u64s_ok by exact Hl. reflexivity.
Qed.

(** ** Header *)
Lemma digit_not_space c : is_digit c = true -> is_space c = false.
Proof. unfold is_digit, is_space. lia. Qed.
Lemma scan_dec n r : is_u32 n -> (match r with [] => True | c :: _ => is_digit c = false end) -> scan_uint32 (dec n ++ r) = Ret (n, r).
Proof.
  intros Hn Hr. unfold scan_uint32. destruct (dec_spec n) as (H1 & H2 & H3 & H4 & H5 & H6); [unfold is_u32, is_u64 in *; lia|].
  destruct (dec n) as [|c d] eqn:E; [congruence|].
  assert (skip_space ((c :: d) ++ r) = (c :: d) ++ r) as -> by (cbn [app skip_space]; rewrite digit_not_space by exact (Forall_inv H1); reflexivity).
  cbn [app]. change (c :: d ++ r) with ((c :: d) ++ r).
  rewrite (take_digits_app (c :: d) H1 r Hr). cbn [app]. rewrite H2.
  destruct (zlen (c :: d) =? 0) eqn:E0; [rewrite zlen_cons in E0; pose proof (zlen_nonneg d); lia|].
  destruct ((c =? 48) && (1 <? zlen (c :: d))) eqn:E1.
  { exfalso. destruct (Z.eq_dec n 0) as [E2|E2]; [pose proof (H5 E2) as X; injection X as -> ->; cbn in E1; discriminate|]. destruct (H4 ltac:(unfold is_u32 in Hn; lia)) as (c' & t & Ec & Hc). injection Ec as -> ->. lia. }
  destruct (2 ^ 32 <=? n) eqn:E3; [unfold is_u32 in Hn; lia|]. reflexivity.
Qed.
Lemma scan_space s : scan_uint32 (32 :: s) = scan_uint32 s.
Proof. reflexivity. Qed.
Lemma header_app a b c s : header a b c ++ s = dec a ++ 32 :: dec b ++ 32 :: dec c ++ 10 :: s.
Proof. unfold header. rewrite <- !app_assoc. reflexivity. Qed.
Lemma scan_header pre a b c suf : is_u32 a -> is_u32 b -> is_u32 c ->
  Fscanln3 (mkIn (pre ++ header a b c ++ suf) (zlen pre)) = (Ret (a, b, c), mkIn (pre ++ header a b c ++ suf) (zlen pre + zlen (header a b c))).
Proof.
  intros Ha Hb Hc. unfold Fscanln3. cbn [ibuf ipos]. rewrite Z.min_l by (rewrite zlen_app; pose proof (zlen_nonneg (header a b c ++ suf)); lia).
  rewrite slice_app_tail. rewrite header_app at 1. rewrite scan_dec by (try assumption; reflexivity). cbn [bind]. rewrite scan_space, scan_dec by (try assumption; reflexivity). cbn [bind].
  rewrite scan_space, scan_dec by (try assumption; reflexivity). cbn [bind]. unfold scan_newline. cbn [skip_space]. change (is_space 10) with false. cbv iota. change (10 =? 10) with true. cbv iota. cbn [bind].
  unfold set_pos. cbn [ibuf]. do 2 f_equal. rewrite !zlen_app. lia.
Qed.

(** ** Vectors *)
Definition vector_fits (v : packed) : Prop :=
  Forall is_u64 (containers v) /\ Forall is_u64 (pvalues v) /\ is_u32 (total v) /\ 8 * (zlen (containers v) + zlen (pvalues v)) < 2 ^ 32.
Definition vector_bytes (v : packed) : bytes :=
  header (wrap32 (8 * zlen (containers v))) (wrap32 (8 * zlen (pvalues v))) (total v) ++ uint64SliceAsByteSlice (containers v) ++ uint64SliceAsByteSlice (pvalues v).
Lemma store_vector v o : StoreVector v o = Ret (zlen (vector_bytes v), o ++ vector_bytes v).
Proof. unfold StoreVector, Write. cbn [bind]. unfold vector_bytes. rewrite !zlen_app, <- !app_assoc, Z.add_assoc. reflexivity. Qed.
Lemma load_vector_any v pre suf : is_u32 (total v) ->
  wrap32 (8 * zlen (containers v)) + wrap32 (8 * zlen (pvalues v)) < 2 ^ 32 ->
  zlen (pre ++ vector_bytes v ++ suf) < 2 ^ 63 ->
  forall data rest cs vs, uint64SliceAsByteSlice (containers v) ++ uint64SliceAsByteSlice (pvalues v) ++ suf = data ++ rest ->
  zlen data = wrap32 (8 * zlen (containers v)) + wrap32 (8 * zlen (pvalues v)) ->
  slice data 0 (wrap32 (8 * zlen (containers v))) = Ret (uint64SliceAsByteSlice cs) -> Forall is_u64 cs ->
  slice data (wrap32 (8 * zlen (containers v))) (zlen data) = Ret (uint64SliceAsByteSlice vs) -> Forall is_u64 vs ->
  exists hd, vector_bytes v ++ suf = hd ++ data ++ rest /\ LoadVector (mkIn (pre ++ vector_bytes v ++ suf) (zlen pre))
  = (Ret (mkPA cs vs (total v), zlen pre + zlen hd + zlen data), mkIn (pre ++ vector_bytes v ++ suf) (zlen pre + zlen hd + zlen data)).
Proof.
  intros Ht Hs Hz data rest cs vs Ed El Ec Hcs Ev Hvs.
  set (h := header (wrap32 (8 * zlen (containers v))) (wrap32 (8 * zlen (pvalues v))) (total v)).
  assert (vector_bytes v ++ suf = h ++ data ++ rest) as Eb by (rewrite <- Ed; unfold vector_bytes; rewrite <- !app_assoc; reflexivity).
  exists h. split; [exact Eb|]. rewrite Eb in *. unfold LoadVector. unfold h at 1.
  rewrite scan_header by (try exact Ht; apply wrap32_range). fold h. unfold Seek at 1. cbn [ipos ibuf]. change (1 =? 0) with false. change (1 =? 1) with true. cbv iota.
  pose proof (zlen_nonneg pre). pose proof (zlen_nonneg h). pose proof (zlen_nonneg data). pose proof (zlen_nonneg rest). rewrite !zlen_app in Hz.
  rewrite Z.add_0_r, (wrapi64_small (zlen pre + zlen h)) by lia.
  destruct (zlen pre + zlen h <? 0) eqn:E0; [lia|]. unfold set_pos. cbn [ibuf].
  rewrite (wrap32_small (wrap32 _ + wrap32 _)) by (pose proof (wrap32_range (8 * zlen (containers v))); pose proof (wrap32_range (8 * zlen (pvalues v))); lia).
  rewrite <- El. rewrite (app_assoc pre h). rewrite <- zlen_app. rewrite slice_app. unfold Seek. change (0 =? 0) with true. cbv iota.
  rewrite wrapi64_small by (rewrite zlen_app; lia). destruct (zlen (pre ++ h) + zlen data <? 0) eqn:E1; [rewrite zlen_app in E1; lia|].
  rewrite Ec. cbn [bind]. rewrite as_u64s_ok by exact Hcs. cbn [bind]. rewrite Ev. cbn [bind]. rewrite as_u64s_ok by exact Hvs. cbn [bind]. reflexivity.
Qed.
Lemma load_vector v pre suf : vector_fits v -> zlen (pre ++ vector_bytes v ++ suf) < 2 ^ 63 ->
  LoadVector (mkIn (pre ++ vector_bytes v ++ suf) (zlen pre))
  = (Ret (v, zlen pre + zlen (vector_bytes v)), mkIn (pre ++ vector_bytes v ++ suf) (zlen pre + zlen (vector_bytes v))).
Proof.
  intros (H1 & H2 & H3 & H4) Hz. pose proof (zlen_nonneg (containers v)). pose proof (zlen_nonneg (pvalues v)).
  assert (wrap32 (8 * zlen (containers v)) = 8 * zlen (containers v)) as Ec by (apply wrap32_small; lia).
  assert (wrap32 (8 * zlen (pvalues v)) = 8 * zlen (pvalues v)) as Ev by (apply wrap32_small; lia).
  set (data := uint64SliceAsByteSlice (containers v) ++ uint64SliceAsByteSlice (pvalues v)).
  destruct (load_vector_any v pre suf H3 ltac:(lia) Hz data suf (containers v) (pvalues v)) as (hd & E1 & E2).
  - unfold data. rewrite <- app_assoc. reflexivity.
  - unfold data. rewrite zlen_app, !as_bytes_len. lia.
  - rewrite Ec, <- as_bytes_len. unfold data. exact (slice_app [] _ _).
  - exact H1.
  - rewrite Ec, <- as_bytes_len. unfold data. apply slice_app_tail.
  - exact H2.
  - assert (zlen (vector_bytes v) = zlen hd + zlen data) as ->.
    { rewrite <- zlen_app. f_equal. apply (app_inv_tail suf). rewrite E1, <- app_assoc. reflexivity. }
    rewrite E2. rewrite !Z.add_assoc. destruct v. reflexivity.
Qed.
(* the vectors of a model one after the other *)
Lemma store_all vs : forall o p, store_vectors vs o p = Ret (p + zlen (flat_map vector_bytes vs), o ++ flat_map vector_bytes vs).
Proof.
  induction vs as [|v vs IH]; intros o p; cbn [store_vectors flat_map]; [rewrite app_nil_r; change (zlen (@nil Z)) with 0; rewrite Z.add_0_r; reflexivity|].
  rewrite store_vector. cbn [bind]. rewrite IH, zlen_app, <- app_assoc. do 2 f_equal. lia.
Qed.
Lemma load_all vs : Forall vector_fits vs -> forall pre suf p, zlen (pre ++ flat_map vector_bytes vs ++ suf) < 2 ^ 63 ->
  exists n, load_vectors (length vs) (mkIn (pre ++ flat_map vector_bytes vs ++ suf) (zlen pre)) p
  = (Ret (vs, n), mkIn (pre ++ flat_map vector_bytes vs ++ suf) (zlen pre + zlen (flat_map vector_bytes vs))).
Proof.
  induction 1 as [|v vs Hv Hvs IH]; intros pre suf p Hz; cbn [length load_vectors flat_map].
  - exists p. change (zlen (@nil Z)) with 0. rewrite Z.add_0_r. reflexivity.
  - cbn [flat_map] in Hz. rewrite <- app_assoc in *. rewrite load_vector by assumption. rewrite app_assoc in Hz.
    destruct (IH (pre ++ vector_bytes v) suf (p + zlen (pre ++ vector_bytes v)) Hz) as (n & E). exists n.
    rewrite <- zlen_app. rewrite (app_assoc pre). rewrite E. cbn [bind]. f_equal. f_equal. rewrite !zlen_app. lia.
Qed.
Definition model_bytes (m : nGramModel) : bytes := modelVersion ++ [wrap8 (nGramOrder m)] ++ flat_map vector_bytes (indices m).
Lemma store_model m o : StoreModel m o = Ret (zlen (model_bytes m), o ++ model_bytes m).
Proof.
  unfold StoreModel, WriteByte, Write. cbn [bind]. rewrite store_all. unfold model_bytes. rewrite !zlen_app, <- !app_assoc. do 2 f_equal. change (zlen modelVersion) with 5. change (zlen [wrap8 (nGramOrder m)]) with 1. lia.
Qed.
Lemma load_model m pre suf : Forall vector_fits (indices m) -> nGramOrder m = zlen (indices m) -> zlen (indices m) <= 255 ->
  zlen (pre ++ model_bytes m ++ suf) < 2 ^ 63 ->
  exists n, LoadModel (mkIn (pre ++ model_bytes m ++ suf) (zlen pre)) = (Ret (m, n), mkIn (pre ++ model_bytes m ++ suf) (zlen pre + zlen (model_bytes m))).
Proof.
  intros Hv Ho Hb Hz. unfold model_bytes in *. set (vb := flat_map vector_bytes (indices m)) in *. pose proof (zlen_nonneg (indices m)).
  rewrite wrap8_small in * by lia. pose proof (zlen_nonneg pre). pose proof (zlen_nonneg vb). pose proof (zlen_nonneg suf).
  rewrite <- !app_assoc in *. rewrite !zlen_app in Hz. change (zlen modelVersion) with 5 in Hz. change (zlen [nGramOrder m]) with 1 in Hz.
  unfold LoadModel. unfold Read. cbn [ibuf ipos].
  destruct (zlen pre >=? zlen (pre ++ modelVersion ++ [nGramOrder m] ++ vb ++ suf)) eqn:E0; [rewrite !zlen_app in E0; change (zlen modelVersion) with 5 in E0; change (zlen [nGramOrder m]) with 1 in E0; lia|].
  rewrite slice_app_tail. change (firstn (Z.to_nat 5) (modelVersion ++ [nGramOrder m] ++ vb ++ suf)) with modelVersion.
  change (firstn 5 (modelVersion ++ repeat 0 5)) with modelVersion. destruct (list_eq_dec Z.eq_dec modelVersion modelVersion) as [_|]; [|congruence]. cbn [negb].
  change (zlen modelVersion) with 5. unfold set_pos. cbn [ibuf]. rewrite wrapi64_small by lia.
  unfold ReadByte. cbn [ipos ibuf]. destruct (zlen pre + 5 >=? _) eqn:E1; [rewrite !zlen_app in E1; change (zlen modelVersion) with 5 in E1; change (zlen [nGramOrder m]) with 1 in E1; lia|].
  replace (index (pre ++ modelVersion ++ [nGramOrder m] ++ vb ++ suf) (zlen pre + 5)) with (Ret (nGramOrder m)).
  2:{ rewrite app_assoc. replace (zlen pre + 5) with (zlen (pre ++ modelVersion)) by (rewrite zlen_app; reflexivity). cbn [app]. rewrite index_app_0. reflexivity. }
  unfold set_pos. cbn [ibuf]. rewrite wrapi64_small by lia.
  set (pre' := pre ++ modelVersion ++ [nGramOrder m]).
  replace (pre ++ modelVersion ++ [nGramOrder m] ++ vb ++ suf) with (pre' ++ vb ++ suf) by (unfold pre'; rewrite <- !app_assoc; reflexivity).
  replace (zlen pre + 5 + 1) with (zlen pre') by (unfold pre'; rewrite !zlen_app; change (zlen modelVersion) with 5; change (zlen [nGramOrder m]) with 1; lia).
  destruct (load_all (indices m) Hv pre' suf (5 + 1)) as (n & E); [fold vb; unfold pre'; rewrite !zlen_app; change (zlen modelVersion) with 5; change (zlen [nGramOrder m]) with 1; lia|].
  exists n. rewrite Ho at 1. unfold zlen at 1. rewrite Nat2Z.id. fold vb in E. rewrite E. cbn [bind]. f_equal.
  - destruct m. reflexivity.
  - f_equal. unfold pre'. rewrite !zlen_app. lia.
Qed.
