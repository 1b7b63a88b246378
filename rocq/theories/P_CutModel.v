(** C104: a language model file that was cut short is never loaded. *)
From Coq Require Import String ZifyBool.
From Verif Require P_IndexLemmas.
From Verif Require Import Base BaseLemmas GoMap Store StoreSpec StoreProofs Decimal Float64 NGram Mph P_Mph NGramStore NGramStoreProofs P_NGramStore.
Local Open Scope Z_scope.
Local Notation length := List.length.

(** ** Reading at or across the end *)
(* the loader did not give a value, or is at the end of the buffer *)
Definition lost {A} (b : bytes) (p : ires A) : Prop := forall a r, p = (Ret a, r) -> r = mkIn b (zlen b).
Definition fails {A} (p : ires A) : Prop := forall a, fst p <> Ret a.

Lemma u32_fails b pos : 0 <= pos < 2 ^ 62 -> zlen b < pos + 4 -> fails (ReadUInt32 (mkIn b pos)).
Proof. intros Hp Hz a. unfold ReadUInt32. cbn [ipos ibuf]. rewrite wrapi64_small by lia. destruct (pos + 4 >? zlen b) eqn:E; [discriminate|lia]. Qed.
Lemma scan_end a b c s s1 s2 s3 s4 : ~ In 10 s -> scan_uint32 s = Ret (a, s1) -> scan_uint32 s1 = Ret (b, s2) -> scan_uint32 s2 = Ret (c, s3) -> scan_newline s3 = Ret s4 -> s4 = [].
Proof.
  assert (forall u, incl (skip_space u) u) as Hsp. { induction u as [|x t IH]; cbn [skip_space]; [apply incl_refl|]. destruct (is_space x); [apply incl_tl, IH|apply incl_refl]. }
  assert (forall u d r, take_digits u = (d, r) -> incl r u) as Htd.
  { induction u as [|x t IH]; cbn [take_digits]; intros d r H; [injection H as _ <-; apply incl_refl|]. destruct (is_digit x); [|injection H as _ <-; apply incl_refl]. destruct (take_digits t) as [d' r'] eqn:E. injection H as _ <-. apply incl_tl, (IH d' r'), eq_refl. }
  assert (forall s v r, scan_uint32 s = Ret (v, r) -> incl r s) as Hsc.
  { intros s' v r. unfold scan_uint32. pose proof (Hsp s') as Hs'. destruct (skip_space s') as [|x t] eqn:E; [discriminate|]. destruct (take_digits (x :: t)) as [d r'] eqn:E2. destruct (zlen d =? 0); [discriminate|]. destruct ((x =? 48) && (1 <? zlen d)); [discriminate|]. destruct (2 ^ 32 <=? digits_val d); [discriminate|].
    intros H. injection H as _ <-. eapply incl_tran; [exact (Htd _ _ _ E2)|exact Hs']. }
  intros Hn E1 E2 E3 E4. unfold scan_newline in E4. pose proof (Hsp s3) as Hs3. destruct (skip_space s3) as [|x t] eqn:E; [congruence|]. destruct (Z.eqb_spec x 10) as [->|]; [|discriminate].
  exfalso. apply Hn. apply (Hsc _ _ _ E1), (Hsc _ _ _ E2), (Hsc _ _ _ E3), Hs3. left. reflexivity.
Qed.
Lemma slice_skip {A} (b : list A) : forall p, 0 <= p <= zlen b -> exists s, slice b p (zlen b) = Ret s /\ s = skipn (Z.to_nat p) b.
Proof.
  intros p Hp. unfold slice. replace ((0 <=? p) && (p <=? zlen b) && (zlen b <=? zlen b)) with true by lia. eexists. split; [reflexivity|]. apply firstn_all2. rewrite skipn_length. unfold zlen in *. lia.
Qed.
(* no line is complete behind the position: a vector that is loaded from there is at the end *)
Lemma vector_lost pre s : ~ In 10 s -> zlen (pre ++ s) < 2 ^ 62 -> lost (pre ++ s) (LoadVector (mkIn (pre ++ s) (zlen pre))).
Proof.
  intros Hn Hz v r. unfold LoadVector, Fscanln3. cbn [ibuf ipos]. rewrite Z.min_l by (rewrite zlen_app; pose proof (zlen_nonneg s); lia). rewrite slice_app_tail.
  destruct (scan_uint32 s) as [[a s1]|e| |] eqn:E1; cbn [bind]; try discriminate. destruct (scan_uint32 s1) as [[b s2]|e| |] eqn:E2; cbn [bind]; try discriminate.
  destruct (scan_uint32 s2) as [[c s3]|e| |] eqn:E3; cbn [bind]; try discriminate. destruct (scan_newline s3) as [s4|e| |] eqn:E4; cbn [bind]; try discriminate.
  pose proof (scan_end _ _ _ _ _ _ _ _ Hn E1 E2 E3 E4) as ->. change (zlen (@nil Z)) with 0. rewrite Z.sub_0_r. unfold Seek, set_pos. cbn [ipos ibuf]. change (1 =? 0) with false. change (1 =? 1) with true. change (0 =? 0) with true. cbv iota.
  rewrite Z.add_0_r, wrapi64_small by (pose proof (zlen_nonneg (pre ++ s)); lia). destruct (zlen (pre ++ s) <? 0) eqn:E; [discriminate|]. cbv beta iota zeta. cbn [ibuf].
  set (n := wrap32 (a + b)) in *. assert (0 <= n) by (unfold n; pose proof (wrap32_range (a + b)); lia).
  destruct (slice (pre ++ s) (zlen (pre ++ s)) (zlen (pre ++ s) + n)) as [data|e| |] eqn:Es; try discriminate.
  assert (n = 0) as ->. { unfold slice in Es. destruct (zlen (pre ++ s) + n <=? zlen (pre ++ s)) eqn:E5; [lia|rewrite andb_false_r in Es; discriminate]. }
  rewrite Z.add_0_r, wrapi64_small by (pose proof (zlen_nonneg (pre ++ s)); lia). rewrite E. intros HE. apply (f_equal snd) in HE. cbn [snd] in HE. subst r. reflexivity.
Qed.
Lemma vector_at_end r : zlen (ibuf r) <= ipos r -> fails (LoadVector r).
Proof.
  intros H a. unfold LoadVector, Fscanln3. rewrite Z.min_r by exact H. unfold slice. rewrite !Z.leb_refl. pose proof (zlen_nonneg (ibuf r)). replace (0 <=? zlen (ibuf r)) with true by lia. cbn [andb]. rewrite Z.sub_diag. cbn [Z.to_nat firstn]. discriminate.
Qed.
Lemma vectors_at_end k r p : (0 < k)%nat -> zlen (ibuf r) <= ipos r -> fails (load_vectors k r p).
Proof.
  intros Hk H a. destruct k as [|k]; [lia|]. cbn [load_vectors]. pose proof (vector_at_end r H) as Hf. destruct (LoadVector r) as [[[v n]|e| |] r']; [|discriminate..]. exfalso. exact (Hf _ eq_refl).
Qed.
Lemma table_at_end r : 0 <= ipos r < 2 ^ 62 -> zlen (ibuf r) <= ipos r -> fails (LoadMph r).
Proof.
  intros Hp H a. destruct r as [b pos]. cbn [ibuf ipos] in *. unfold LoadMph. pose proof (u32_fails b pos Hp ltac:(lia)) as Hf. destruct (ReadUInt32 (mkIn b pos)) as [[n|e| |] r']; [|discriminate..]. exfalso. exact (Hf _ eq_refl).
Qed.

(** ** Vectors *)
Lemma vector_line v : exists line data, vector_bytes v = line ++ 10 :: data /\ ~ In 10 line /\ line ++ [10] = header (wrap32 (8 * zlen (containers v))) (wrap32 (8 * zlen (pvalues v))) (total v) /\ zlen data = 8 * (zlen (containers v) + zlen (pvalues v)) \/ total v < 0 \/ 2 ^ 64 <= total v.
Proof.
  destruct (Z.ltb_spec (total v) 0) as [H|H]; [exists [], []; right; auto|]. destruct (Z.ltb_spec (total v) (2 ^ 64)) as [H'|H']; [|exists [], []; right; auto].
  set (a := wrap32 (8 * zlen (containers v))). set (b := wrap32 (8 * zlen (pvalues v))).
  exists (dec a ++ [32] ++ dec b ++ [32] ++ dec (total v)), (uint64SliceAsByteSlice (containers v) ++ uint64SliceAsByteSlice (pvalues v)). left. split; [unfold vector_bytes, header; fold a b; rewrite <- !app_assoc; reflexivity|]. split; [|split; [unfold header; rewrite <- !app_assoc; reflexivity|rewrite zlen_app, !as_bytes_len; lia]].
  assert (forall n, is_u64 n -> ~ In 10 (dec n)) as Hd. { intros n Hn Hi. destruct (dec_spec n Hn) as (Hf & _). rewrite Forall_forall in Hf. specialize (Hf 10 Hi). discriminate Hf. }
  assert (is_u64 a /\ is_u64 b) as [Ha Hb] by (unfold a, b, is_u64; pose proof (wrap32_range (8 * zlen (containers v))); pose proof (wrap32_range (8 * zlen (pvalues v))); lia).
  rewrite !in_app_iff. intros [Hi|[[Hi|[]]|[Hi|[[Hi|[]]|Hi]]]]; try discriminate; revert Hi; apply Hd; try assumption. split; assumption.
Qed.
Lemma vector_cut v pre c rest : vector_fits v -> c ++ rest = vector_bytes v -> rest <> [] -> zlen (pre ++ c) < 2 ^ 62 -> lost (pre ++ c) (LoadVector (mkIn (pre ++ c) (zlen pre))).
Proof.
  intros Hv E Hr Hz. destruct (vector_line v) as (line & data & [(El & Hn & Eh & Hd)|Ht]); [|destruct Hv as (_ & _ & Hv & _); unfold is_u32 in Hv; lia]. rewrite El in E.
  destruct (P_IndexLemmas.prefix_cases _ _ _ _ _ E) as [(m & Em)|(m & -> & Em)].
  - apply vector_lost; [|exact Hz]. intros Hi. apply Hn. rewrite Em. apply in_app_iff. left. exact Hi.
  - destruct Hv as (_ & _ & Ht & Hs). pose proof (zlen_nonneg (containers v)). pose proof (zlen_nonneg (pvalues v)).
    intros w r. unfold LoadVector. change (line ++ 10 :: m) with (line ++ [10] ++ m) in *. rewrite (app_assoc line [10] m), Eh in Hz |- *. set (h := header _ _ _) in *.
    pose proof (scan_header pre (wrap32 (8 * zlen (containers v))) (wrap32 (8 * zlen (pvalues v))) (total v) m ltac:(apply wrap32_range) ltac:(apply wrap32_range) Ht) as Es. fold h in Es. rewrite Es.
    unfold Seek at 1, set_pos. cbn [ipos ibuf]. change (1 =? 0) with false. change (1 =? 1) with true. cbv iota. pose proof (zlen_nonneg pre). pose proof (zlen_nonneg h). pose proof (zlen_nonneg m). rewrite !zlen_app in Hz.
    rewrite Z.add_0_r, wrapi64_small by lia. destruct (zlen pre + zlen h <? 0) eqn:E0; [lia|]. cbv beta iota zeta. cbn [ibuf].
    rewrite !(wrap32_small (8 * _)) by lia. rewrite (wrap32_small (_ + _)) by lia.
    assert (0 < zlen rest) as Hrest by (destruct rest; [contradiction|rewrite zlen_cons; pose proof (zlen_nonneg rest); lia]). assert (zlen data = zlen m + zlen rest) as Hdl by (rewrite Em; apply zlen_app).
    unfold slice. rewrite !zlen_app. replace (zlen pre + zlen h + (8 * zlen (containers v) + 8 * zlen (pvalues v)) <=? zlen pre + (zlen h + zlen m)) with false by lia. rewrite andb_false_r. discriminate.
Qed.
Lemma vectors_cut vs : Forall vector_fits vs -> forall pre c rest p, c ++ rest = flat_map vector_bytes vs -> rest <> [] -> zlen (pre ++ c) < 2 ^ 62 ->
  lost (pre ++ c) (load_vectors (length vs) (mkIn (pre ++ c) (zlen pre)) p).
Proof.
  induction 1 as [|v vs Hv Hvs IH]; intros pre c rest p E Hr Hz; cbn [flat_map length load_vectors] in *; [apply app_eq_nil in E; destruct E; contradiction|].
  assert (forall l, c = vector_bytes v ++ l -> l ++ rest = flat_map vector_bytes vs -> lost (pre ++ c) (load_vectors (S (length vs)) (mkIn (pre ++ c) (zlen pre)) p)) as Hnext.
  { intros l -> El. cbn [load_vectors]. rewrite load_vector by (try assumption; lia). rewrite app_assoc in Hz |- *. specialize (IH (pre ++ vector_bytes v) l rest (p + (zlen pre + zlen (vector_bytes v))) El Hr Hz). rewrite zlen_app in IH at 1.
    destruct (load_vectors (length vs) (mkIn ((pre ++ vector_bytes v) ++ l) (zlen pre + zlen (vector_bytes v))) (p + (zlen pre + zlen (vector_bytes v)))) as [x r]. destruct x as [[vs' n]|e| |]; cbn [bind]; intros a r' H; try discriminate H. injection H as <- <-. exact (IH _ _ eq_refl). }
  destruct (app_eq_app _ _ _ _ E) as (l & [[H1 H2]|[H1 H2]]); [exact (Hnext l H1 (eq_sym H2))|].
  destruct l as [|x l]; [rewrite app_nil_r in H1; apply (Hnext []); [rewrite app_nil_r; auto|exact H2]|].
  pose proof (vector_cut v pre c (x :: l) Hv (eq_sym H1) ltac:(discriminate) Hz) as Hl. destruct (LoadVector (mkIn (pre ++ c) (zlen pre))) as [[[w n]|e| |] r]; [|intros a r' H; discriminate H..].
  specialize (Hl _ _ eq_refl). subst r. destruct vs as [|v2 vs]; [cbn; intros a r' H; injection H as _ <-; reflexivity|].
  pose proof (vectors_at_end (length (v2 :: vs)) (mkIn (pre ++ c) (zlen (pre ++ c))) (p + n) ltac:(cbn; lia) (Z.le_refl _)) as Hf. destruct (load_vectors (length (v2 :: vs)) (mkIn (pre ++ c) (zlen (pre ++ c))) (p + n)) as [y r2]. destruct y as [[vs' k]|e| |]; cbn [bind]; intros a r' H; try discriminate H. exfalso. exact (Hf _ eq_refl).
Qed.

(** ** The hash table *)
Lemma fl_len (l : list Z) : zlen (flat_map le32 l) = 4 * zlen l.
Proof. induction l as [|x l IH]; [reflexivity|]. cbn [flat_map]. rewrite zlen_app, IH, zlen_cons. change (zlen (le32 x)) with 4. lia. Qed.
Lemma u32_cut v pre c rest t : is_u32 v -> c ++ rest = le32 v ++ t -> zlen (pre ++ c) < 2 ^ 62 ->
  fails (ReadUInt32 (mkIn (pre ++ c) (zlen pre))) \/ exists k, c = le32 v ++ k /\ k ++ rest = t /\ ReadUInt32 (mkIn (pre ++ c) (zlen pre)) = (Ret v, mkIn ((pre ++ le32 v) ++ k) (zlen (pre ++ le32 v))).
Proof.
  intros Hv E Hz. pose proof (zlen_nonneg pre). pose proof (zlen_nonneg c). rewrite zlen_app in Hz. destruct (Z.ltb_spec (zlen c) 4) as [Hc|Hc].
  - left. apply u32_fails; [lia|rewrite zlen_app; lia].
  - right. destruct (app_eq_app _ _ _ _ E) as (k & [[E1 H2]|[H1 H2]]).
    + exists k. split; [exact E1|]. split; [exact (eq_sym H2)|]. subst c. rewrite zlen_app in Hz, Hc. rewrite read_u32_app by (try assumption; rewrite !zlen_app; lia). rewrite <- app_assoc. do 2 f_equal. rewrite zlen_app. reflexivity.
    + assert (k = []) as ->. { destruct k as [|x k]; [reflexivity|]. assert (zlen (le32 v) = zlen c + zlen (x :: k)) as H' by (rewrite H1; apply zlen_app). change (zlen (le32 v)) with 4 in H'. rewrite zlen_cons in H'. pose proof (zlen_nonneg k). lia. }
      exists []. rewrite app_nil_r in H1. subst c. rewrite !app_nil_r. split; [reflexivity|]. split; [exact H2|]. pose proof (read_u32_app pre v [] Hv) as HR. rewrite app_nil_r in HR. rewrite HR by (rewrite zlen_app; lia). do 2 f_equal. rewrite zlen_app. reflexivity.
Qed.
Lemma list_cut l : Forall is_u32 l -> forall pre c rest t, c ++ rest = flat_map le32 l ++ t -> zlen (pre ++ c) < 2 ^ 62 ->
  fails (read_all (length l) (mkIn (pre ++ c) (zlen pre))) \/ exists k, c = flat_map le32 l ++ k /\ k ++ rest = t /\ read_all (length l) (mkIn (pre ++ c) (zlen pre)) = (Ret l, mkIn ((pre ++ flat_map le32 l) ++ k) (zlen (pre ++ flat_map le32 l))).
Proof.
  induction 1 as [|v l Hv Hl IH]; intros pre c rest t E Hz; cbn [flat_map length read_all].
  - right. exists c. cbn [app] in *. rewrite app_nil_r. auto.
  - cbn [flat_map] in E. rewrite <- app_assoc in E. destruct (u32_cut v pre c rest _ Hv E Hz) as [Hf|(k & -> & Ek & ->)].
    + left. destruct (ReadUInt32 (mkIn (pre ++ c) (zlen pre))) as [[x|e| |] r]; intros a; cbn; try discriminate. exfalso. exact (Hf _ eq_refl).
    + rewrite app_assoc in Hz. destruct (IH (pre ++ le32 v) k rest t Ek Hz) as [Hf|(k2 & -> & Ek2 & ->)].
      * left. destruct (read_all (length l) (mkIn ((pre ++ le32 v) ++ k) (zlen (pre ++ le32 v)))) as [[x|e| |] r]; intros a; cbn; try discriminate. exfalso. exact (Hf _ eq_refl).
      * right. exists k2. rewrite <- !app_assoc. split; [reflexivity|]. split; [exact Ek2|reflexivity].
Qed.
Lemma table_cut m pre c rest stored : table_ok m -> (forall o, StoreMph m o = Ret (zlen stored, o ++ stored)) -> c ++ rest = stored -> rest <> [] -> zlen (pre ++ c) < 2 ^ 62 -> fails (LoadMph (mkIn (pre ++ c) (zlen pre))).
Proof.
  intros (H1 & H2 & H3 & H4) Hst E Hr Hz.
  assert (Forall is_u32 (map wrap32 (auxiliary m))) as H5. { apply Forall_forall. intros x Hx. apply in_map_iff in Hx. destruct Hx as (y & <- & _). apply Z.mod_pos_bound. lia. }
  assert (is_u32 (zlen (values m)) /\ is_u32 (zlen (auxiliary m))) as [Hu Hu'] by (unfold is_u32; pose proof (zlen_nonneg (values m)); pose proof (zlen_nonneg (auxiliary m)); lia).
  assert (stored = le32 (zlen (values m)) ++ flat_map le32 (values m) ++ le32 (zlen (auxiliary m)) ++ flat_map le32 (map wrap32 (auxiliary m)) ++ []) as ->.
  { specialize (Hst []). unfold StoreMph, WriteUInt32, Write in Hst. cbn [bind] in Hst. rewrite write_all_ok in Hst. cbn [bind] in Hst. rewrite write_all_ok in Hst. apply (f_equal (fun r => match r with Ret (_, o) => o | _ => [] end)) in Hst. cbn [app] in Hst. unfold is_u32 in *. rewrite !(wrap32_small (zlen _)) in Hst by assumption. rewrite app_nil_r. rewrite <- !app_assoc in Hst. symmetry. exact Hst. }
  intros a Ha. unfold LoadMph in Ha.
  destruct (u32_cut _ pre c rest _ Hu E Hz) as [Hf|(k & -> & Ek & Er)].
  { destruct (ReadUInt32 (mkIn (pre ++ c) (zlen pre))) as [[n|e| |] r]; [|discriminate Ha..]. exact (Hf _ eq_refl). }
  rewrite Er in Ha. replace (Z.to_nat (zlen (values m))) with (length (values m)) in Ha by (unfold zlen; lia). rewrite app_assoc in Hz. clear E Er.
  destruct (list_cut _ H1 (pre ++ le32 (zlen (values m))) k rest _ Ek Hz) as [Hf|(k2 & -> & Ek2 & Er)].
  { destruct (read_all (length (values m)) _) as [[n|e| |] r]; [|discriminate Ha..]. exact (Hf _ eq_refl). }
  rewrite Er in Ha. rewrite app_assoc in Hz. clear Ek Er.
  destruct (u32_cut _ _ k2 rest _ Hu' Ek2 Hz) as [Hf|(k3 & -> & Ek3 & Er)].
  { destruct (ReadUInt32 _) as [[n|e| |] r]; [|discriminate Ha..]. exact (Hf _ eq_refl). }
  rewrite Er in Ha. replace (Z.to_nat (zlen (auxiliary m))) with (length (map wrap32 (auxiliary m))) in Ha by (rewrite map_length; unfold zlen; lia). rewrite app_assoc in Hz. clear Ek2 Er.
  destruct (list_cut _ H5 _ k3 rest _ Ek3 Hz) as [Hf|(k4 & -> & Ek4 & Er)].
  { destruct (read_all _ _) as [[n|e| |] r]; [|discriminate Ha..]. exact (Hf _ eq_refl). }
  apply app_eq_nil in Ek4. destruct Ek4. contradiction.
Qed.

(** ** The whole file *)
Lemma short_version b : zlen b < 5 -> fails (LoadModel (NewBytesInput b)).
Proof.
  intros H a. unfold LoadModel, Read, NewBytesInput. cbn [ipos ibuf]. destruct (0 >=? zlen b) eqn:E; [discriminate|]. destruct (slice_skip b 0 ltac:(lia)) as (s & -> & Es). change (skipn (Z.to_nat 0) b) with b in Es. subst s.
  change (Z.to_nat 5) with 5%nat. rewrite (firstn_all2 b) by (unfold zlen in H; lia).
  destruct b as [|b1 [|b2 [|b3 [|b4 [|b5 t]]]]]; [cbn in E; discriminate| | | | |exfalso; rewrite !zlen_cons in H; pose proof (zlen_nonneg t); lia].
  all: cbn [app firstn repeat].
  all: destruct (list_eq_dec Z.eq_dec _ modelVersion) as [Ev|]; [vm_compute in Ev; discriminate Ev|discriminate].
Qed.

Lemma cut_model m c rest : Forall vector_fits (indices m) -> nGramOrder m = zlen (indices m) -> zlen (indices m) <= 255 -> c ++ rest = model_bytes m -> rest <> [] -> zlen c < 2 ^ 62 -> lost c (LoadModel (NewBytesInput c)).
Proof.
  intros Hv Ho Hb E Hr Hz. destruct (Z.ltb_spec (zlen c) 5) as [H5|H5].
  { intros a r H. exfalso. apply (short_version c H5 a). rewrite H. reflexivity. }
  unfold model_bytes in E. rewrite Ho, wrap8_small in E by (pose proof (zlen_nonneg (indices m)); lia). set (vb := flat_map vector_bytes (indices m)) in *.
  assert (exists k, c = modelVersion ++ k /\ k ++ rest = [zlen (indices m)] ++ vb) as (k & -> & Ek).
  { destruct (app_eq_app _ _ _ _ E) as (k & [[-> E2]|[E2 E3]]); [exists k; auto|]. assert (k = []) as ->. { destruct k as [|x k]; [reflexivity|]. apply (f_equal zlen) in E2. rewrite zlen_app, zlen_cons in E2. change (zlen modelVersion) with 5 in E2. pose proof (zlen_nonneg k). lia. }
    rewrite app_nil_r in E2. exists []. rewrite app_nil_r. auto. }
  rewrite zlen_app in Hz. change (zlen modelVersion) with 5 in Hz. pose proof (zlen_nonneg k).
  intros a r. unfold LoadModel, Read, NewBytesInput. cbn [ipos ibuf]. destruct (0 >=? zlen (modelVersion ++ k)) eqn:E0; [discriminate|]. destruct (slice_skip (modelVersion ++ k) 0 ltac:(lia)) as (s & -> & Es). change (skipn (Z.to_nat 0) (modelVersion ++ k)) with (modelVersion ++ k) in Es. subst s.
  change (firstn (Z.to_nat 5) (modelVersion ++ k)) with modelVersion. change (firstn 5 (modelVersion ++ repeat 0 5)) with modelVersion. destruct (list_eq_dec Z.eq_dec modelVersion modelVersion) as [_|]; [|congruence]. cbn [negb].
  change (zlen modelVersion) with 5. unfold set_pos. cbn [ibuf]. rewrite wrapi64_small by lia. unfold ReadByte. cbn [ipos ibuf]. destruct (0 + 5 >=? zlen (modelVersion ++ k)) eqn:E1; [discriminate|].
  destruct k as [|x k]; [rewrite app_nil_r in E1; vm_compute in E1; discriminate|]. injection Ek as Ex Ek. subst x.
  change (index (modelVersion ++ zlen (indices m) :: k) (0 + 5)) with (index (modelVersion ++ zlen (indices m) :: k) (zlen modelVersion)). rewrite index_app_0. unfold set_pos. cbn [ibuf]. rewrite wrapi64_small by lia.
  set (pre := modelVersion ++ [zlen (indices m)]). replace (modelVersion ++ zlen (indices m) :: k) with (pre ++ k) by (unfold pre; rewrite <- app_assoc; reflexivity). change (0 + 5 + 1) with (zlen pre).
  assert (zlen (pre ++ k) < 2 ^ 62) as Hz'. { unfold pre. rewrite <- app_assoc, zlen_app. change (zlen modelVersion) with 5. exact Hz. }
  pose proof (vectors_cut _ Hv pre k rest (5 + 1) Ek Hr Hz') as Hl. replace (Z.to_nat (zlen (indices m))) with (length (indices m)) by (unfold zlen; lia).
  destruct (load_vectors (length (indices m)) (mkIn (pre ++ k) (zlen pre)) (5 + 1)) as [x r']. destruct x as [[vs n]|e| |]; cbn [bind]; intros H'; try discriminate H'. injection H' as _ <-. exact (Hl _ _ eq_refl).
Qed.
Theorem C104_cut_never_loaded : forall ixs t out c rest, Forall vector_ok ixs -> zlen ixs <= 255 -> table_ok t ->
  StoreBinary (NewNGramModel ixs) t [] = Ret out -> zlen out < 2 ^ 62 ->
  c ++ rest = out -> rest <> [] ->
  forall v, fst (LoadBinary (NewBytesInput c)) <> Ret v.
Proof.
  intros ixs t out c rest Hv Hb Ht Hst Hz E Hr. set (m := NewNGramModel ixs) in *.
  assert (Forall vector_fits (indices m)) as Hf by (eapply Forall_impl; [|exact Hv]; apply ok_fits).
  assert (nGramOrder m = zlen (indices m)) as Ho by (apply wrap8_small; pose proof (zlen_nonneg ixs); cbn [m NewNGramModel indices]; lia).
  destruct (C56_roundtrip t [] [] Ht) as (s2 & E2 & _). unfold StoreBinary in Hst. rewrite store_model in Hst. cbn [bind app] in Hst. rewrite E2 in Hst. cbn [bind] in Hst.
  assert (c ++ rest = model_bytes m ++ s2) as E' by congruence.
  assert (zlen c < 2 ^ 62) as Hc. { rewrite <- E, zlen_app in Hz. pose proof (zlen_nonneg rest). lia. }
  assert (forall k, c = model_bytes m ++ k -> k ++ rest = s2 -> fails (LoadBinary (NewBytesInput c))) as Hmodel.
  { intros k -> Ek v Hload. destruct (load_model m [] k Hf Ho Hb) as (n & L1); [cbn [app]; lia|]. cbn [app] in L1. change (zlen (@nil Z)) with 0 in L1. rewrite Z.add_0_l in L1. unfold LoadBinary, NewBytesInput in Hload. rewrite L1 in Hload.
    pose proof (table_cut t (model_bytes m) k rest s2 Ht E2 Ek Hr Hc) as Hf2. destruct (LoadMph (mkIn (model_bytes m ++ k) (zlen (model_bytes m)))) as [[[t' n']|e| |] r]; [|discriminate Hload..]. exact (Hf2 _ eq_refl). }
  destruct (app_eq_app _ _ _ _ E') as (k & [[E3 E4]|[E3 E4]]); [exact (Hmodel k E3 (eq_sym E4))|].
  destruct k as [|x k]; [rewrite app_nil_r in E3; apply (Hmodel []); [rewrite app_nil_r; auto|exact E4]|].
  pose proof (cut_model m c (x :: k) Hf Ho Hb (eq_sym E3) ltac:(discriminate) Hc) as Hl. intros v Hload. unfold LoadBinary in Hload.
  destruct (LoadModel (NewBytesInput c)) as [[[m' n]|e| |] r]; [|discriminate Hload..]. pose proof (Hl _ _ eq_refl) as ->. pose proof (zlen_nonneg c).
  pose proof (table_at_end (mkIn c (zlen c)) ltac:(cbn [ipos]; lia) (Z.le_refl _)) as Hf2. destruct (LoadMph (mkIn c (zlen c))) as [[[t' n']|e| |] r]; [|discriminate Hload..]. exact (Hf2 _ eq_refl).
Qed.
Print Assumptions C104_cut_never_loaded.
