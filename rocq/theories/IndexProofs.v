(** Writer and reader. *)
From Coq Require Import String ZifyBool.
From Verif Require Import Base BaseLemmas GoMap Store Compression CompressionProofs Postings PostingsSpec PostingsDrive PostingsProofs P_PostingsLemmas
  Merger MergerSpec MergerAnySpec Index IndexSpec.
Local Open Scope Z_scope.

Notation mg := (mget beqb).
Lemma mem_In' t (l : list term) : existsb (beqb t) l = true <-> In t l.
Proof.
  rewrite existsb_exists. split.
  - intros (x & Hx & E). apply beqb_ok in E. subst. exact Hx.
  - intros H. exists t. split; [exact H|]. apply beqb_ok. reflexivity.
Qed.
Lemma beqb_sym a b : beqb a b = beqb b a.
Proof.
  destruct (beqb a b) eqn:E.
  - apply beqb_ok in E. subst. symmetry. apply beqb_ok. reflexivity.
  - destruct (beqb b a) eqn:E2; [|reflexivity]. apply beqb_ok in E2. subst. rewrite (eqb_refl _ beqb_ok) in E. discriminate.
Qed.

Lemma set_nth_opt_nth {A} (x : A) : forall n l k, nth_error (set_nth_opt n x l) k =
  if Nat.eqb k n then (if Nat.ltb n (length l) then Some x else None) else nth_error l k.
Proof.
  induction n as [|n IH]; intros [|y l] [|k]; cbn [set_nth_opt nth_error Nat.eqb]; try reflexivity.
  - destruct (Nat.eqb k n); reflexivity.
  - rewrite IH. cbn [length]. reflexivity.
Qed.
Lemma set_nth_opt_length {A} (x : A) : forall n l, length (set_nth_opt n x l) = length l.
Proof. induction n as [|n IH]; intros [|y l]; cbn; auto. Qed.

(** ** AddDocument *)
Definition opt (l : list Z) : option (list Z) := match l with [] => None | _ => Some l end.
Definition mval (o : option (list Z)) : list Z := match o with Some l => l | None => [] end.
Lemma opt_mval o : o <> Some [] -> opt (mval o) = o.
Proof. destruct o as [[|]|]; cbn; congruence. Qed.

Lemma add_terms_nodup ts : forall m id, NoDup (map fst m) -> NoDup (map fst (add_terms m id ts)).
Proof. induction ts as [|t ts IH]; intros m id H; cbn [add_terms]; [exact H|]. apply IH. apply mset_nodup; [exact beqb_ok|exact H]. Qed.
Lemma opt_snoc l x : opt (l ++ [x]) = Some (l ++ [x]).
Proof. destruct l; reflexivity. Qed.
Lemma mval_opt l : mval (opt l) = l. Proof. destruct l; reflexivity. Qed.
Lemma add_terms_get ts : forall m id t l, mg m t = opt l ->
  mg (add_terms m id ts) t = opt (l ++ repeat id (token_times t ts)).
Proof.
  induction ts as [|x ts IH]; intros m id t l Hm; cbn [add_terms]; [unfold token_times; cbn [filter length repeat]; rewrite app_nil_r; exact Hm|].
  unfold token_times. cbn [filter]. destruct (beqb t x) eqn:E; cbn [length repeat].
  - apply beqb_ok in E. subst x. rewrite (IH _ id t (l ++ [id])); [rewrite <- app_assoc; reflexivity|].
    rewrite (mget_mset _ beqb_ok), (eqb_refl _ beqb_ok), Hm. destruct l; reflexivity.
  - apply IH. rewrite (mget_mset _ beqb_ok). rewrite (beqb_sym x t), E. exact Hm.
Qed.

(* what the map at cardinality c must contain *)
Definition map_is (docs : list (Z * list term)) (c : Z) (o : option index_map) : Prop :=
  match o with
  | Some m => NoDup (map fst m) /\ forall t, mg m t = opt (occurrences docs c t)
  | None => forall t, occurrences docs c t = []
  end.
Definition wat (w : windices) (c : Z) : option index_map :=
  match nth_error w (Z.to_nat c) with Some o => o | None => None end.
Definition WI (docs : list (Z * list term)) (w : windices) : Prop := forall c, 0 <= c -> map_is docs c (wat w c).

Lemma occurrences_snoc docs id ts c t :
  occurrences (docs ++ [(id, ts)]) c t =
  occurrences docs c t ++ (if zlen ts =? c then repeat id (token_times t ts) else []).
Proof. unfold occurrences. rewrite flat_map_app. cbn [flat_map fst snd]. rewrite app_nil_r. reflexivity. Qed.

Lemma wat_app_None w k c : wat (w ++ repeat None k) c = wat w c.
Proof.
  unfold wat. destruct (Nat.lt_ge_cases (Z.to_nat c) (length w)) as [H|H].
  - rewrite nth_error_app1 by exact H. reflexivity.
  - rewrite nth_error_app2 by exact H. rewrite (proj2 (nth_error_None w (Z.to_nat c)) H).
    destruct (nth_error (repeat None k) (Z.to_nat c - length w)) eqn:E; [|reflexivity].
    apply nth_error_In, repeat_spec in E. exact E.
Qed.
Lemma wat_set w c x c' : 0 <= c -> 0 <= c' -> c < zlen w -> wat (set_nth_opt (Z.to_nat c) x w) c' = if c' =? c then x else wat w c'.
Proof.
  intros Hc Hc' Hl. unfold wat. rewrite set_nth_opt_nth. unfold zlen in Hl.
  destruct (Z.eqb_spec c' c) as [->|Hne].
  - rewrite Nat.eqb_refl. replace (Z.to_nat c <? length w)%nat with true by (symmetry; apply Nat.ltb_lt; lia). reflexivity.
  - replace (Nat.eqb (Z.to_nat c') (Z.to_nat c)) with false by (symmetry; apply Nat.eqb_neq; lia). reflexivity.
Qed.
Lemma index_ok' {A} (l : list A) i : 0 <= i < zlen l -> exists x, index l i = Ret x /\ nth_error l (Z.to_nat i) = Some x.
Proof.
  intros H. unfold index. replace ((0 <=? i) && (i <? zlen l)) with true by lia.
  destruct (nth_error l (Z.to_nat i)) eqn:E; [eauto|]. apply nth_error_None in E. unfold zlen in H. lia.
Qed.

Lemma AddDocument_ok docs w id ts : WI docs w -> w <> [] \/ ts <> [] ->
  exists w', AddDocument w id ts = Ret w' /\ WI (docs ++ [(id, ts)]) w' /\ w' <> [] /\ zlen w' = Z.max (zlen w) (zlen ts + 1).
Proof.
  intros HW Hne. unfold AddDocument. set (c := zlen ts). pose proof (zlen_nonneg ts : 0 <= c) as Hc.
  assert (exists w1, (if zlen w <=? c then if c * 2 <? c + 1 then Panic else Ret (w ++ repeat None (Z.to_nat (c + 1 - zlen w))) else Ret w)
            = Ret w1 /\ (forall c', wat w1 c' = wat w c') /\ c < zlen w1 /\ zlen w1 = Z.max (zlen w) (c + 1)) as (w1 & -> & Hat & Hl1 & Hl).
  { destruct (zlen w <=? c) eqn:E.
    - assert (c <> 0) as Hc0.
      { intros E0. destruct Hne as [Hw|Ht].
        - destruct w; [congruence|]. rewrite zlen_cons in E. pose proof (zlen_nonneg w). lia.
        - destruct ts; [congruence|]. unfold c in E0. rewrite zlen_cons in E0. pose proof (zlen_nonneg ts). lia. }
      replace (c * 2 <? c + 1) with false by lia. eexists. split; [reflexivity|]. split; [intros; apply wat_app_None|].
      assert (zlen (w ++ repeat (@None index_map) (Z.to_nat (c + 1 - zlen w))) = c + 1) as El.
      { rewrite zlen_app. unfold zlen at 2. rewrite repeat_length. lia. }
      rewrite El. lia.
    - exists w. repeat split; auto; lia. }
  cbn [bind]. destruct (index_ok' w1 c ltac:(lia)) as (o & Ei & En). rewrite Ei. cbn [bind].
  eexists. split; [reflexivity|]. split; [|split].
  - intros c' Hc'. rewrite wat_set by lia. pose proof (HW c' Hc') as H0.
    assert (forall t, occurrences (docs ++ [(id, ts)]) c' t = occurrences docs c' t ++ (if c =? c' then repeat id (token_times t ts) else [])) as Hp
      by (intros t; apply occurrences_snoc).
    destruct (Z.eqb_spec c' c) as [->|Hcc].
    + assert (wat w c = o) as Ho by (rewrite <- Hat; unfold wat; rewrite En; reflexivity). rewrite Ho in H0.
      assert (NoDup (map fst (match o with Some m => m | None => [] end)) /\
              forall t, mg (match o with Some m => m | None => [] end) t = opt (occurrences docs c t)) as [H1 H2].
      { destruct o as [m|]; [exact H0|]. split; [constructor|]. intros t. rewrite H0. reflexivity. }
      split; [apply add_terms_nodup; exact H1|]. intros t. rewrite Hp, Z.eqb_refl. apply add_terms_get. apply H2.
    + assert (forall t, occurrences (docs ++ [(id, ts)]) c' t = occurrences docs c' t) as Hp'.
      { intros t. rewrite Hp. replace (c =? c') with false by lia. apply app_nil_r. }
      rewrite Hat. destruct (wat w c') as [m|]; cbn [map_is] in *.
      * split; [apply H0|]. intros t. rewrite Hp'. apply H0.
      * intros t. rewrite Hp'. apply H0.
  - intros E0. apply (f_equal (@length _)) in E0. rewrite set_nth_opt_length in E0. unfold zlen in Hl1. cbn in E0. lia.
  - unfold zlen. rewrite set_nth_opt_length. exact Hl.
Qed.

Lemma add_all_ok docs2 : forall docs1 w, WI docs1 w ->
  w <> [] \/ (match docs2 with [] => True | d :: _ => snd d <> [] end) ->
  exists w', add_all w docs2 = Ret w' /\ WI (docs1 ++ docs2) w' /\
    zlen w' = fold_left (fun m d => Z.max m (zlen (snd d) + 1)) docs2 (zlen w).
Proof.
  induction docs2 as [|[id ts] docs2 IH]; intros docs1 w HW Hne; cbn [add_all].
  - exists w. rewrite app_nil_r. auto.
  - cbn [snd] in *. destruct (AddDocument_ok docs1 w id ts HW Hne) as (w1 & E & HW1 & Hne1 & Hl1). rewrite E. cbn [bind].
    destruct (IH (docs1 ++ [(id, ts)]) w1 HW1 (or_introl Hne1)) as (w' & E' & HW' & Hl'). exists w'.
    rewrite <- app_assoc in HW'. cbn [app fold_left snd] in *. rewrite Hl', Hl1. auto.
Qed.
Lemma WI_start : WI [] [].
Proof. intros c Hc. unfold wat. destruct (Z.to_nat c); intros t; reflexivity. Qed.

(** ** Commit *)
Definition entry : Type := (Z * term * list Z)%type.
Fixpoint commit_entries (rb : roaring) (es : list entry) (pos : Z) : res (list bytes * list desc * Z) :=
  match es with
  | [] => Ret ([], [], pos)
  | (c, t, l) :: es' =>
      '(n, w) <- encodePosting rb l [] ;;
      '(ws, ds, pos') <- commit_entries rb es' (pos + n) ;;
      Ret (w :: ws, mkDesc t (wrap32 c) (wrap32 n) (wrap32 pos) (wrap32 (zlen l)) :: ds, pos')
  end.
Fixpoint entries (ord : Z -> index_map -> index_map) (c : Z) (w : windices) : list entry :=
  match w with
  | [] => []
  | None :: w' => entries ord (c + 1) w'
  | Some m :: w' => map (fun tl => (c, fst tl, snd tl)) (ord c m) ++ entries ord (c + 1) w'
  end.
Lemma commit_entries_app rb es2 : forall es1 pos,
  commit_entries rb (es1 ++ es2) pos =
  ('(ws1, ds1, pos1) <- commit_entries rb es1 pos ;;
   '(ws2, ds2, pos2) <- commit_entries rb es2 pos1 ;;
   Ret (ws1 ++ ws2, ds1 ++ ds2, pos2)).
Proof.
  induction es1 as [|[[c t] l] es1 IH]; intros pos; cbn [app commit_entries bind].
  - destruct (commit_entries rb es2 pos) as [[[ws ds] p]| | |]; reflexivity.
  - destruct (encodePosting rb l []) as [[n w]| | |]; cbn [bind]; try reflexivity. rewrite IH.
    destruct (commit_entries rb es1 (pos + n)) as [[[ws1 ds1] p1]| | |]; cbn [bind]; try reflexivity.
    destruct (commit_entries rb es2 p1) as [[[ws2 ds2] p2]| | |]; reflexivity.
Qed.
Lemma commit_index_entries rb c m : forall pos,
  commit_index rb c m pos = commit_entries rb (map (fun tl => (c, fst tl, snd tl)) m) pos.
Proof.
  induction m as [|[t l] m IH]; intros pos; cbn [commit_index map commit_entries fst snd]; [reflexivity|].
  destruct (encodePosting rb l []) as [[n w]| | |]; cbn [bind]; try reflexivity. rewrite IH. reflexivity.
Qed.
Lemma commit_indices_entries rb ord w : forall c pos,
  commit_indices rb ord c w pos = commit_entries rb (entries ord c w) pos.
Proof.
  induction w as [|[m|] w IH]; intros c pos; cbn [commit_indices entries]; [reflexivity| |apply IH].
  rewrite commit_entries_app, commit_index_entries.
  destruct (commit_entries rb (map (fun tl => (c, fst tl, snd tl)) (ord c m)) pos) as [[[ws1 ds1] p1]| | |]; cbn [bind]; try reflexivity.
  rewrite IH. reflexivity.
Qed.
(* which entries there are *)
Lemma entries_In ord w (Hord : order_ok ord) : forall c0 c t l, In (c, t, l) (entries ord c0 w) <->
  c0 <= c /\ exists m, nth_error w (Z.to_nat (c - c0)) = Some (Some m) /\ In (t, l) m.
Proof.
  induction w as [|o w IH]; intros c0 c t l; cbn [entries].
  - split; [intros []|]. intros (_ & m & H & _). destruct (Z.to_nat (c - c0)); discriminate.
  - assert (In (c, t, l) (entries ord (c0 + 1) w) <-> c0 + 1 <= c /\ exists m, nth_error (o :: w) (Z.to_nat (c - c0)) = Some (Some m) /\ In (t, l) m) as IH'.
    { rewrite IH. split; intros (H & m & H1 & H2); (split; [exact H|]); exists m; (split; [|exact H2]);
        replace (Z.to_nat (c - c0)) with (S (Z.to_nat (c - (c0 + 1)))) in * by lia; exact H1. }
    assert ((c0 + 1 <= c /\ exists m, nth_error (o :: w) (Z.to_nat (c - c0)) = Some (Some m) /\ In (t, l) m) <->
            c <> c0 /\ (c0 <= c /\ exists m, nth_error (o :: w) (Z.to_nat (c - c0)) = Some (Some m) /\ In (t, l) m)) as Heq.
    { split; [intros [H H']; split; [lia|split; [lia|exact H']]|intros (H & H' & H2); split; [lia|exact H2]]. }
    rewrite Heq in IH'. clear Heq IH.
    assert (forall m, nth_error (o :: w) (Z.to_nat (c0 - c0)) = Some m <-> o = m) as H0.
    { intros m. rewrite Z.sub_diag. cbn. split; congruence. }
    destruct o as [m0|].
    + rewrite in_app_iff, IH'. rewrite in_map_iff. split.
      * intros [((t' & l') & E & Hin)|H]; [|tauto]. cbn [fst snd] in E. injection E as <- <- <-. split; [lia|].
        exists m0. split; [apply H0; reflexivity|]. eapply Permutation_in; [apply Permutation_sym, Hord|exact Hin].
      * intros H. destruct (Z.eq_dec c c0) as [->|Hne]; [|right; split; assumption]. left.
        destruct H as (_ & m & H1 & H2). apply H0 in H1. injection H1 as <-. exists (t, l). split; [reflexivity|].
        eapply Permutation_in; [apply Hord|exact H2].
    + rewrite IH'. split; [tauto|]. intros H. split; [|exact H]. intros ->. destruct H as (_ & m & H1 & _). apply H0 in H1. discriminate.
Qed.
Definition ekey (e : entry) : Z * term := fst e.
Lemma entries_nodup ord w (Hord : order_ok ord) : (forall k m, nth_error w k = Some (Some m) -> NoDup (map fst m)) ->
  forall c0, NoDup (map ekey (entries ord c0 w)).
Proof.
  induction w as [|o w IH]; intros Hn c0; cbn [entries]; [constructor|].
  assert (forall k m, nth_error w k = Some (Some m) -> NoDup (map fst m)) as Hn' by (intros k m H; apply (Hn (S k) m H)).
  destruct o as [m|]; [|apply IH; exact Hn'].
  specialize (Hn O m eq_refl). rewrite map_app, map_map. unfold ekey at 1. cbn [fst].
  assert (NoDup (map fst (ord c0 m))) as Hn2 by (eapply Permutation_NoDup; [apply Permutation_map, Hord|exact Hn]).
  assert (forall k, In k (map (fun x : term * list Z => (c0, fst x)) (ord c0 m)) -> fst k = c0) as Hk.
  { intros k H. apply in_map_iff in H. destruct H as (x & <- & _). reflexivity. }
  assert (NoDup (map (fun x : term * list Z => (c0, fst x)) (ord c0 m))) as Hn3.
  { revert Hn2. generalize (ord c0 m). clear. intros m. induction m as [|[t l] m IH]; intros H; cbn [map fst] in *; [constructor|].
    apply NoDup_cons_iff in H. destruct H as [H1 H2]. constructor; [|apply IH; exact H2].
    intros Hin. apply in_map_iff in Hin. destruct Hin as ((t' & l') & E & Hin). injection E as <-. apply H1. apply (in_map fst) in Hin. exact Hin. }
  specialize (IH Hn' (c0 + 1)).
  assert (forall k, In k (map ekey (entries ord (c0 + 1) w)) -> c0 + 1 <= fst k) as Hk2.
  { intros k H. apply in_map_iff in H. destruct H as (((c & t) & l) & <- & Hin). apply entries_In in Hin; [|exact Hord]. cbn. lia. }
  revert Hn3 Hk. generalize (map (fun x : term * list Z => (c0, fst x)) (ord c0 m)). intros ks.
  induction ks as [|k ks IHk]; intros H1 H2; cbn [app]; [exact IH|].
  apply NoDup_cons_iff in H1. destruct H1 as [H1 H1']. constructor.
  - rewrite in_app_iff. intros [H|H]; [contradiction|]. apply Hk2 in H. rewrite (H2 k (or_introl eq_refl)) in H. lia.
  - apply IHk; [exact H1'|]. intros k' Hin. apply H2. right. exact Hin.
Qed.

(* the descriptions: one per entry, pointing at its bytes *)
Definition describes (rb : roaring) (docs : bytes) (e : entry) (d : desc) : Prop :=
  let '(c, t, l) := e in
  exists pre w post, docs = pre ++ w ++ post /\ encodePosting rb l [] = Ret (zlen w, w) /\ w <> [] /\
    d = mkDesc t (wrap32 c) (zlen w) (zlen pre) (zlen l).
Lemma describes_app rb p docs e d : describes rb docs e d ->
  describes rb (p ++ docs) e (mkDesc (d_term d) (d_indice d) (d_size d) (zlen p + d_pos d) (d_len d)).
Proof.
  destruct e as [[c t] l]. intros (pre & w & post & -> & E & Hw & ->). cbn [d_term d_indice d_size d_pos d_len].
  exists (p ++ pre), w, post. rewrite <- app_assoc, zlen_app. auto.
Qed.
Lemma Forall2_weaken {A B} (R S : A -> B -> Prop) l m : (forall a b, R a b -> S a b) -> Forall2 R l m -> Forall2 S l m.
Proof. intros H. induction 1; constructor; auto. Qed.

Lemma encodePosting_written rb l w : roaring_ok rb -> roaring_written rb -> ascending l -> l <> [] ->
  encodePosting rb l [] = Ret (zlen w, w) -> w <> [].
Proof.
  intros Hrb Hrw Hp Hne Ew ->. destruct (c14_any rb l Hrb Hp Hne) as (w & Ew' & Hb & Hopen).
  assert (w = []) as -> by congruence.
  destruct (Hopen ltac:(vm_compute; reflexivity)) as (i & Eo & _). revert Eo Ew. clear - Hne Hrw Hp. unfold openPosting, encodePosting.
  unfold skippingGapSize, maxSkippingLen.
  destruct (zlen l <=? 64 + 1) eqn:E1; [cbn; discriminate|]. destruct (zlen l <=? 256) eqn:E2; [cbn; discriminate|].
  intros _. unfold bitmapEncode. cbn [app]. intros E. injection E as _ E.
  destruct (to_set_spec l (proj2 Hp)) as [Hps Hin]. apply (Hrw (to_set l) Hps); [|exact E].
  intros E0. destruct l as [|x l]; [congruence|]. assert (In x (to_set (x :: l))) as Hx by (apply Hin; left; reflexivity). rewrite E0 in Hx. destruct Hx.
Qed.
Lemma wrap32_small z : 0 <= z < 2 ^ 32 -> wrap32 z = z.
Proof. intros H. apply Z.mod_small. exact H. Qed.

Lemma commit_entries_ok rb : roaring_ok rb -> roaring_written rb -> forall es pre0,
  Forall (fun e => ascending (snd e) /\ snd e <> [] /\ zlen (snd e) < 2 ^ 32) es ->
  exists ws ds, commit_entries rb es (zlen pre0) = Ret (ws, ds, zlen (pre0 ++ concat ws)) /\
    (zlen (pre0 ++ concat ws) < 2 ^ 32 -> Forall2 (describes rb (pre0 ++ concat ws)) es ds) /\
    Forall (Forall is_byte) ws.
Proof.
  intros Hrb Hrw. induction es as [|[[c t] l] es IH]; intros pre0 He.
  - exists [], []. cbn [commit_entries concat]. rewrite app_nil_r. repeat split; constructor.
  - pose proof (Forall_inv He) as (Hp & Hne & Hl). apply Forall_inv_tail in He. cbn [snd] in *.
    destruct (c14_any rb l Hrb Hp Hne) as (w & Ew & Hb & _).
    destruct (IH (pre0 ++ w) He) as (ws & ds & E & Hd & Hbs).
    exists (w :: ws). eexists. cbn [commit_entries concat]. rewrite Ew. cbn [bind].
    rewrite zlen_app in E. rewrite E. cbn [bind]. rewrite <- !app_assoc in *. split; [reflexivity|]. split; [|constructor; assumption].
    intros Hlen. constructor.
    + exists pre0, w, (concat ws). split; [reflexivity|]. split; [exact Ew|].
      split; [exact (encodePosting_written rb l w Hrb Hrw Hp Hne Ew)|]. rewrite !zlen_app in Hlen.
      pose proof (zlen_nonneg w). pose proof (zlen_nonneg pre0). pose proof (zlen_nonneg (concat ws)). pose proof (zlen_nonneg l).
      rewrite (wrap32_small (zlen w)), (wrap32_small (zlen pre0)), (wrap32_small (zlen l)) by lia. reflexivity.
    + apply Hd. exact Hlen.
Qed.

(** ** Reading the header back *)
Definition tget (tabs : list (option itable)) (c : Z) (t : term) : option (Z * Z * Z) :=
  match nth_error tabs (Z.to_nat c) with Some (Some m) => mg m t | _ => None end.
Lemma build_tables_ok ds : forall tabs,
  Forall (fun d => 0 <= d_indice d < zlen tabs /\ d_size d <> 0) ds ->
  NoDup (map (fun d => (d_indice d, d_term d)) ds) ->
  exists tabs', build_tables ds tabs = Ret tabs' /\ length tabs' = length tabs /\
    (forall d, In d ds -> tget tabs' (d_indice d) (d_term d) = Some (d_size d, d_pos d, d_len d)) /\
    (forall c t, 0 <= c -> ~ In (c, t) (map (fun d => (d_indice d, d_term d)) ds) -> tget tabs' c t = tget tabs c t).
Proof.
  induction ds as [|d ds IH]; intros tabs Hd Hn; cbn [build_tables].
  - exists tabs. repeat split; auto. intros d [].
  - pose proof (Forall_inv Hd) as [Hi Hs]. apply Forall_inv_tail in Hd.
    destruct (index_ok' tabs (d_indice d) Hi) as (o & Eo & En). rewrite Eo. cbn [bind].
    replace (d_size d =? 0) with false by lia.
    cbn [map] in Hn. apply NoDup_cons_iff in Hn. destruct Hn as [Hn1 Hn2].
    set (m := match o with Some m => m | None => [] end).
    set (tabs1 := set_nth_opt (Z.to_nat (d_indice d)) (Some (mset beqb m (d_term d) (d_size d, d_pos d, d_len d))) tabs).
    assert (length tabs1 = length tabs) as Hl1 by apply set_nth_opt_length.
    destruct (IH tabs1) as (tabs' & E & Hl & Hin & Hout).
    { eapply Forall_impl; [|exact Hd]. intros a Ha. assert (zlen tabs1 = zlen tabs) as Hz by (unfold zlen; f_equal; exact Hl1). destruct Ha as [Ha1 Ha2]. split; [|exact Ha2]. change (0 <= d_indice a < zlen tabs1). lia. }
    { exact Hn2. }
    assert (forall c t, 0 <= c -> tget tabs1 c t = if (c =? d_indice d) && beqb (d_term d) t then Some (d_size d, d_pos d, d_len d) else tget tabs c t) as H1.
    { intros c t Hc. unfold tget, tabs1. rewrite set_nth_opt_nth. unfold zlen in Hi.
      destruct (Z.eqb_spec c (d_indice d)) as [->|Hne].
      - rewrite Nat.eqb_refl. replace (Z.to_nat (d_indice d) <? length tabs)%nat with true by (symmetry; apply Nat.ltb_lt; lia).
        rewrite (mget_mset _ beqb_ok). cbn [andb]. destruct (beqb (d_term d) t); [reflexivity|]. rewrite En. unfold m. destruct o; reflexivity.
      - replace (Nat.eqb (Z.to_nat c) (Z.to_nat (d_indice d))) with false by (symmetry; apply Nat.eqb_neq; lia). reflexivity. }
    exists tabs'. split; [exact E|]. split; [exact (eq_trans Hl Hl1)|]. split.
    + intros d' [<-|Hd']; [|apply Hin; exact Hd'].
      rewrite Hout by (tauto || exact Hn1). rewrite H1 by lia. rewrite Z.eqb_refl, (eqb_refl _ beqb_ok). reflexivity.
    + intros c t Hc Hni. cbn [map In] in Hni. rewrite Hout by tauto. rewrite H1 by exact Hc.
      destruct ((c =? d_indice d) && beqb (d_term d) t) eqn:Eb; [|reflexivity]. exfalso. apply Hni. left.
      apply andb_prop in Eb. destruct Eb as [E1 E2]. apply beqb_ok in E2. apply Z.eqb_eq in E1. congruence.
Qed.

(** ** Reading back *)
Lemma posting_of_posting docs c t : docs_ok docs -> posting (posting_of docs c t).
Proof.
  intros (Hs & Hu & _). unfold posting_of, posting.
  set (f := fun d : Z * list term => (zlen (snd d) =? c) && existsb (beqb t) (snd d)). clearbody f.
  induction docs as [|d docs IH]; cbn [filter map]; [split; constructor|].
  cbn [map] in *. inversion_clear Hs. inversion_clear Hu. destruct (IH H H2) as [IH1 IH2].
  destruct (f d); [|split; [exact IH1|exact IH2]]. cbn [map]. split; constructor; auto.
  rewrite Forall_forall in *. intros x Hx. apply H0. apply in_map_iff in Hx. destruct Hx as (y & <- & Hy).
  apply in_map. apply filter_In in Hy. apply Hy.
Qed.
Lemma posting_of_len docs c t : zlen (posting_of docs c t) <= zlen docs.
Proof.
  unfold posting_of, zlen. rewrite map_length. set (f := fun _ => _). clearbody f.
  enough (length (filter f docs) <= length docs)%nat by lia. induction docs as [|d docs IH]; cbn; [lia|]. destruct (f d); cbn; lia.
Qed.
Lemma posting_of_neg docs c t : c < 0 -> posting_of docs c t = [].
Proof.
  intros H. unfold posting_of. induction docs as [|d docs IH]; [reflexivity|]. cbn [filter].
  pose proof (zlen_nonneg (snd d)). replace (zlen (snd d) =? c) with false by lia. exact IH.
Qed.
Lemma stored_ascending l : ascending l -> ascending (stored l).
Proof.
  intros H. unfold stored. destruct (zlen l <=? 256); [exact H|]. apply posting_ascending. apply (to_set_spec l (proj2 H)).
Qed.
Lemma occurrences_neg docs c t : c < 0 -> occurrences docs c t = [].
Proof.
  intros H. unfold occurrences. induction docs as [|d docs IH]; [reflexivity|]. cbn [flat_map].
  pose proof (zlen_nonneg (snd d)). replace (zlen (snd d) =? c) with false by lia. exact IH.
Qed.
Lemma occurrences_In docs c t x : In x (occurrences docs c t) <-> exists ts, In (x, ts) docs /\ zlen ts = c /\ existsb (beqb t) ts = true.
Proof.
  unfold occurrences. rewrite in_flat_map. split.
  - intros ([y ts] & Hin & Hx). cbn [fst snd] in Hx. destruct (Z.eqb_spec (zlen ts) c) as [E|E]; [|destruct Hx]. pose proof (repeat_spec _ _ _ Hx) as ->.
    exists ts. split; [exact Hin|]. split; [exact E|]. unfold token_times in Hx. destruct (filter (beqb t) ts) as [|u us] eqn:Ef; [destruct Hx|].
    assert (In u (filter (beqb t) ts)) as Hu by (rewrite Ef; left; reflexivity). apply existsb_exists. exists u. apply filter_In in Hu. exact Hu.
  - intros (ts & Hin & E & He). exists (x, ts). split; [exact Hin|]. cbn [fst snd]. rewrite (proj2 (Z.eqb_eq _ _) E).
    apply existsb_exists in He. destruct He as (u & Hu & Eu). unfold token_times. assert (In u (filter (beqb t) ts)) as H by (apply filter_In; auto).
    destruct (filter (beqb t) ts); [destruct H|]. left. reflexivity.
Qed.
Lemma occurrences_ascending docs c t : StronglySorted Z.lt (map fst docs) -> Forall is_u32 (map fst docs) -> ascending (occurrences docs c t).
Proof.
  intros Hs Hu. split.
  - induction docs as [|d docs IH]; [constructor|]. cbn [map] in *. inversion_clear Hs. inversion_clear Hu. unfold occurrences. cbn [flat_map].
    destruct (zlen (snd d) =? c); [|apply IH; assumption]. fold (occurrences docs c t).
    assert (Forall (Z.le (fst d)) (occurrences docs c t)) as Hle.
    { apply Forall_forall. intros x Hx. apply occurrences_In in Hx. destruct Hx as (ts & Hx & _). rewrite Forall_forall in H0.
      specialize (H0 x (in_map fst _ _ Hx)). lia. }
    induction (token_times t (snd d)) as [|n IHn]; [apply IH; assumption|]. cbn [repeat app]. constructor; [exact IHn|].
    apply Forall_app. split; [|exact Hle]. apply Forall_forall. intros y Hy. apply repeat_spec in Hy. lia.
  - apply Forall_forall. intros x Hx. apply occurrences_In in Hx. destruct Hx as (ts & Hx & _). rewrite Forall_forall in Hu. apply Hu. exact (in_map fst _ _ Hx).
Qed.
Lemma token_times_one t ts : NoDup ts -> token_times t ts = if existsb (beqb t) ts then 1%nat else 0%nat.
Proof.
  unfold token_times. induction 1 as [|x ts Hx Hn IH]; [reflexivity|]. cbn [filter existsb]. destruct (beqb t x) eqn:E; cbn [orb length]; [|exact IH].
  apply beqb_ok in E. subst x. rewrite IH. destruct (existsb (beqb t) ts) eqn:E2; [apply mem_In' in E2; contradiction|reflexivity].
Qed.
Lemma occurrences_posting_of docs c t : Forall (fun d => NoDup (snd d)) docs -> occurrences docs c t = posting_of docs c t.
Proof.
  unfold occurrences, posting_of. induction 1 as [|d docs Hd _ IH]; [reflexivity|]. cbn [flat_map filter]. rewrite IH, (token_times_one t _ Hd).
  destruct (zlen (snd d) =? c); cbn [andb]; [|reflexivity]. destruct (existsb (beqb t) (snd d)); reflexivity.
Qed.
Lemma docs_ok_any docs : docs_ok docs -> zlen docs < 2 ^ 32 -> docs_any docs.
Proof.
  intros (H1 & H2 & H3) Hl. split; [exact H1|]. split; [exact H2|]. intros c t. rewrite occurrences_posting_of by exact H3. pose proof (posting_of_len docs c t). lia.
Qed.
Lemma holds_strict rb ix c t l : posting l -> index_holds_any rb ix c t l -> index_holds rb ix c t l.
Proof.
  intros Hp. unfold index_holds_any, index_holds. destruct (IndicesGet ix c) as [iv|]; [|auto]. intros [H1 H2]. split; [exact H1|].
  intros Hne. destruct (H2 Hne) as (Hh & r & it & Eg & Eo & Ha & Hr). rewrite (stored_posting l Hp) in Ha, Hr. split; [exact Hh|].
  exists r, it. split; [exact Eg|]. split; [exact Eo|]. split; [exact Hp|exact Hr].
Qed.
Lemma opt_Some l m : opt l = Some m -> l = m /\ l <> [].
Proof. destruct l; cbn; [discriminate|]. intros E. injection E as <-. split; [reflexivity|discriminate]. Qed.
Lemma opt_None l : opt l = None -> l = [].
Proof. destruct l; [reflexivity|discriminate]. Qed.

(* the entries are exactly the non-empty postings *)
Lemma entries_are docs w ord : WI docs w -> order_ok ord -> forall c t l,
  In (c, t, l) (entries ord 0 w) <-> 0 <= c /\ l = occurrences docs c t /\ l <> [].
Proof.
  intros HW Ho c t l. rewrite entries_In by exact Ho. rewrite Z.sub_0_r. split.
  - intros (Hc & m & Hm & Hin). split; [exact Hc|]. pose proof (HW c Hc) as H. unfold wat in H. rewrite Hm in H.
    destruct H as [Hn H]. apply (mget_In _ beqb_ok m t l Hn) in Hin. rewrite H in Hin. apply opt_Some in Hin. destruct Hin as [<- Hne]. auto.
  - intros (Hc & -> & Hne). split; [exact Hc|]. pose proof (HW c Hc) as H. unfold wat in H.
    destruct (nth_error w (Z.to_nat c)) as [[m|]|] eqn:E; cbn [map_is] in H; try (rewrite H in Hne; congruence).
    exists m. split; [reflexivity|]. destruct H as [Hn H]. apply (mget_In _ beqb_ok); [exact Hn|]. rewrite H.
    destruct (occurrences docs c t); [congruence|reflexivity].
Qed.
Lemma Forall2_In_l {A B} (R : A -> B -> Prop) l m : Forall2 R l m -> forall a, In a l -> exists b, In b m /\ R a b.
Proof. induction 1 as [|x y l m HR HF IHForall2]; intros a Hi; [destruct Hi|]. destruct Hi as [<-|Hi]; cbn; [eauto|]. destruct (IHForall2 a Hi) as (b & Hb & HR2). eauto. Qed.
Lemma Forall2_map_eq {A B C} (f : A -> C) (g : B -> C) (R : A -> B -> Prop) : (forall a b, R a b -> f a = g b) ->
  forall l m, Forall2 R l m -> map f l = map g m.
Proof. intros H l m. induction 1; cbn; [reflexivity|]. f_equal; auto. Qed.
Lemma Forall2_Forall_r {A B} (R : A -> B -> Prop) (P : A -> Prop) (Q : B -> Prop) : (forall a b, P a -> R a b -> Q b) ->
  forall l m, Forall2 R l m -> Forall P l -> Forall Q m.
Proof. intros H l m. induction 1; intros HP; constructor; inversion HP; subst; eauto. Qed.

Lemma nth_map_option {A B} (f : A -> B) (l : list (option A)) n :
  nth n (map (option_map f) l) None = option_map f (match nth_error l n with Some o => o | None => None end).
Proof. revert n. induction l as [|x l IH]; intros [|n]; cbn; auto. Qed.

Lemma Slice_mid pre w post : zlen (pre ++ w ++ post) < 2 ^ 32 ->
  Slice (NewBytesInput (pre ++ w ++ post)) (zlen pre) (zlen w) = (Ret (NewBytesInput w), NewBytesInput (pre ++ w ++ post)).
Proof.
  intros Hl. unfold Slice, NewBytesInput. cbn [ibuf]. rewrite !zlen_app in *.
  pose proof (zlen_nonneg pre). pose proof (zlen_nonneg w). pose proof (zlen_nonneg post).
  assert (wrapi64 (zlen pre + zlen w) = zlen pre + zlen w) as -> by (unfold wrapi64; rewrite Z.mod_small; lia).
  replace ((zlen w <? 0) || (zlen pre <? 0) || (zlen pre + (zlen w + zlen post) <? zlen pre + zlen w)) with false by lia.
  unfold slice. rewrite !zlen_app.
  replace ((0 <=? zlen pre) && (zlen pre <=? zlen pre + zlen w) && (zlen pre + zlen w <=? zlen pre + (zlen w + zlen post))) with true by lia.
  f_equal. f_equal. f_equal. replace (Z.to_nat (zlen pre)) with (length pre) by (unfold zlen; lia).
  replace (Z.to_nat (zlen pre + zlen w - zlen pre)) with (length w) by (unfold zlen; lia).
  rewrite skipn_app, skipn_all, Nat.sub_diag. cbn [skipn app]. rewrite firstn_app, Nat.sub_diag, firstn_all. cbn [firstn]. apply app_nil_r.
Qed.

Lemma app_inv_len {A} (a b c d : list A) : length a = length c -> a ++ b = c ++ d -> a = c /\ b = d.
Proof.
  revert c. induction a as [|x a IH]; intros [|y c] Hl E; cbn in *; try discriminate; [auto|].
  injection E as -> E. destruct (IH c ltac:(lia) E) as [-> ->]. auto.
Qed.
(* the document list may be cut: [cut] is what is left of it *)
Lemma read_cut_any rb g ord docs w ws ds p open dn hn cut rest : roaring_ok rb -> roaring_written rb -> gob_ok g -> order_ok ord ->
  docs_any docs -> WI docs w -> zlen w < 2 ^ 32 ->
  commit_indices rb ord 0 w 0 = Ret (ws, ds, p) ->
  open hn = Some (gob_enc g (mkHeader IndexVersion (wrap32 (zlen w)) ds)) ->
  concat ws = cut ++ rest ->
  open dn = Some cut -> zlen (concat ws) < 2 ^ 32 ->
  exists ix, IndexRead g open dn hn = Ret ix /\ forall c t,
    if match rest with [] => true | _ => false end then index_holds_any rb ix c t (occurrences docs c t)
    else holds_or_errs_any rb ix c t (occurrences docs c t).
Proof.
  intros Hrb Hrw Hg Ho Hd HW Hwl Hc Hh Hcut Hdo Hsz.
  rewrite commit_indices_entries in Hc. set (es := entries ord 0 w) in *.
  pose proof (entries_are docs w ord HW Ho) as Hes. fold es in Hes.
  assert (Forall (fun e => ascending (snd e) /\ snd e <> [] /\ zlen (snd e) < 2 ^ 32) es) as Hf.
  { apply Forall_forall. intros [[c t] l] Hin. apply Hes in Hin. destruct Hin as (Hc0 & -> & Hne). cbn [snd].
    split; [apply occurrences_ascending; apply Hd|]. split; [exact Hne|]. apply Hd. }
  destruct (commit_entries_ok rb Hrb Hrw es [] Hf) as (ws' & ds' & E & Hds & _).
  change (zlen (@nil Z)) with 0 in E. rewrite E in Hc. injection Hc as <- <- <-. cbn [app] in Hds. specialize (Hds Hsz).
  assert (forall c t l, In (c, t, l) es -> 0 <= c < zlen w) as Hcr.
  { intros c t l Hin. apply entries_In in Hin; [|exact Ho]. destruct Hin as (Hc & m & Hm & _).
    assert (nth_error w (Z.to_nat (c - 0)) <> None) as Hnn by congruence. apply nth_error_Some in Hnn. unfold zlen. lia. }
  assert (map ekey es = map (fun d => (d_indice d, d_term d)) ds') as Hkeys.
  { assert (Forall2 (fun e d => describes rb (concat ws') e d /\ 0 <= fst (fst e) < zlen w) es ds') as Hds2.
    { clear - Hds Hcr. induction Hds as [|[[c t] l] d es ds Hd Hds IH]; constructor.
      - split; [exact Hd|]. apply (Hcr c t l). left. reflexivity.
      - apply IH. intros c' t' l' Hi. apply (Hcr c' t' l'). right. exact Hi. }
    refine (Forall2_map_eq _ _ _ _ _ _ Hds2). intros [[c t] l] d [(pre & w0 & post & _ & _ & _ & ->) Hr]. cbn in Hr |- *.
    rewrite wrap32_small by lia. reflexivity. }
  assert (NoDup (map ekey es)) as Hnd.
  { apply entries_nodup; [exact Ho|]. intros k m Hk. pose proof (HW (Z.of_nat k) ltac:(lia)) as H. unfold wat in H.
    rewrite Nat2Z.id, Hk in H. apply H. }
  destruct (build_tables_ok ds' (repeat None (Z.to_nat (wrap32 (zlen w))))) as (tabs & Et & Htl & Hin & Hout).
  { apply Forall_forall. intros d Hdin. assert (In (d_indice d, d_term d) (map ekey es)) as Hk.
    { rewrite Hkeys. apply (in_map (fun d => (d_indice d, d_term d))). exact Hdin. }
    apply in_map_iff in Hk. destruct Hk as ([[c t] l] & Ek & Hi). cbn in Ek. injection Ek as -> ->.
    split.
    - pose proof (Hcr _ _ _ Hi). unfold zlen at 1. rewrite repeat_length. pose proof (zlen_nonneg w). rewrite wrap32_small by lia. lia.
    - clear - Hds Hdin. induction Hds as [|[[c t] l] d0 es ds Hd Hds IH]; [destruct Hdin|]. destruct Hdin as [<-|Hdin]; auto.
      destruct Hd as (pre & w0 & post & _ & _ & Hne & ->). cbn [d_size]. destruct w0; [congruence|]. rewrite zlen_cons. pose proof (zlen_nonneg w0). lia. }
  { rewrite <- Hkeys. exact Hnd. }
  exists (map (option_map (mkInv cut)) tabs). split.
  { unfold IndexRead. rewrite Hh. destruct (Hg (mkHeader IndexVersion (wrap32 (zlen w)) ds')) as [-> _].
    cbn [h_version h_terms h_indices]. rewrite (eqb_refl _ beqb_ok). cbn [negb]. rewrite Hdo, Et. reflexivity. }
  assert (forall c t, 0 <= c -> tget (repeat None (Z.to_nat (wrap32 (zlen w)))) c t = None) as Hemp.
  { intros c t Hc. unfold tget. destruct (nth_error _ (Z.to_nat c)) as [o|] eqn:En; [|reflexivity].
    apply nth_error_In, repeat_spec in En. subst o. reflexivity. }
  assert (forall c t, 0 <= c -> occurrences docs c t <> [] -> exists w0, encodePosting rb (occurrences docs c t) [] = Ret (zlen w0, w0) /\ w0 <> [] /\
      exists pre post, concat ws' = pre ++ w0 ++ post /\ tget tabs c t = Some (zlen w0, zlen pre, zlen (occurrences docs c t))) as Hpos.
  { intros c t Hc0 Hne. assert (In (c, t, occurrences docs c t) es) as Hi by (apply Hes; auto).
    pose proof (Hcr _ _ _ Hi). destruct (Forall2_In_l _ _ _ Hds _ Hi) as (d & Hdin & (pre & w0 & post & Ec & Ew & Hw0 & Ed)).
    exists w0. split; [exact Ew|]. split; [exact Hw0|]. exists pre, post. split; [exact Ec|].
    specialize (Hin d Hdin). rewrite Ed in Hin. cbn [d_indice d_term d_size d_pos d_len] in Hin. rewrite wrap32_small in Hin by lia. exact Hin. }
  assert (forall c t, 0 <= c -> occurrences docs c t = [] -> tget tabs c t = None) as Hnone.
  { intros c t Hc0 He. rewrite Hout; [apply Hemp; exact Hc0|exact Hc0|]. rewrite <- Hkeys. intros Hk.
    apply in_map_iff in Hk. destruct Hk as ([[c' t'] l] & Ek & Hi). cbn in Ek. injection Ek as -> ->. apply Hes in Hi.
    destruct Hi as (_ & -> & Hne). congruence. }
  set (lk := map (option_map (mkInv cut)) tabs).
  assert (forall c, IndicesGet lk c = if c <? 0 then None else option_map (mkInv cut) (match nth_error tabs (Z.to_nat c) with Some o => o | None => None end)) as Hget.
  { intros c. unfold IndicesGet. destruct (Z.ltb_spec c 0) as [Hc|Hc]; [replace ((c >=? 0) && _) with false by lia; reflexivity|].
    assert (nth (Z.to_nat c) lk None = option_map (mkInv cut) (match nth_error tabs (Z.to_nat c) with Some o => o | None => None end)) as Hnth
      by apply nth_map_option.
    destruct (c <? zlen lk) eqn:El.
    - replace (c >=? 0) with true by lia. exact Hnth.
    - rewrite andb_false_r. assert (nth_error tabs (Z.to_nat c) = None) as ->; [|reflexivity].
      apply nth_error_None. unfold lk, zlen in El. rewrite map_length in El. lia. }
  (* the answer for one size and term, once the slice is known *)
  assert (forall c t, (0 <= c -> occurrences docs c t <> [] -> forall w0 pre post, concat ws' = pre ++ w0 ++ post ->
             tget tabs c t = Some (zlen w0, zlen pre, zlen (occurrences docs c t)) ->
             fst (Slice (NewBytesInput cut) (zlen pre) (zlen w0)) = Ret (NewBytesInput w0)) ->
           index_holds_any rb lk c t (occurrences docs c t)) as Hholds.
  { intros c t Hsl. unfold index_holds_any. rewrite Hget. destruct (Z.ltb_spec c 0) as [Hneg|Hc0]; [apply occurrences_neg; exact Hneg|].
    specialize (Hpos c t Hc0). specialize (Hnone c t Hc0). specialize (Hsl Hc0). unfold tget in Hpos, Hnone, Hsl.
    destruct (nth_error tabs (Z.to_nat c)) as [[m|]|] eqn:En; cbn [option_map].
    - unfold IndexHas, IndexGet. cbn [iv_table iv_docs]. split.
      + intros He. rewrite (Hnone He). auto.
      + intros Hne. destruct (Hpos Hne) as (w0 & Ew & Hw0 & pre & post & Ec & Em). rewrite Em. split; [reflexivity|].
        specialize (Hsl Hne w0 pre post Ec Em). destruct (Slice (NewBytesInput cut) (zlen pre) (zlen w0)) as [r i0]. cbn [fst] in Hsl. subst r.
        destruct (c14_any rb _ Hrb (occurrences_ascending docs c t (proj1 Hd) (proj1 (proj2 Hd))) Hne) as (w1 & Ew1 & _ & Hop).
        assert (w1 = w0) as -> by congruence. destruct Hop as (i & Ei & Hrun).
        { rewrite Ec, !zlen_app in Hsz. pose proof (zlen_nonneg pre). pose proof (zlen_nonneg post). lia. }
        exists (NewBytesInput w0), i. split; [reflexivity|]. split; [exact Ei|]. split; [apply stored_ascending, occurrences_ascending; apply Hd|exact Hrun].
    - destruct (occurrences docs c t); [reflexivity|]. destruct Hpos as (? & _ & _ & ? & ? & _ & ?); discriminate.
    - destruct (occurrences docs c t); [reflexivity|]. destruct Hpos as (? & _ & _ & ? & ? & _ & ?); discriminate. }
  intros c t. destruct rest as [|b rest0] eqn:Erest.
  { apply Hholds. intros Hc0 Hne w0 pre post Ec _. rewrite app_nil_r in Hcut. rewrite <- Hcut, Ec in *. rewrite Slice_mid by exact Hsz. reflexivity. }
  destruct (Z.lt_ge_cases c 0) as [Hneg|Hc0]; [left; apply Hholds; intros; lia|].
  destruct (list_eq_dec Z.eq_dec (occurrences docs c t) []) as [He|Hne].
  { left. apply Hholds. intros _ Hn. congruence. }
  destruct (Hpos c t Hc0 Hne) as (w0 & Ew & Hw0 & pre & post & Ec & Em).
  destruct (Z.lt_ge_cases (zlen cut) (zlen pre + zlen w0)) as [Hlong|Hshort].
  - right. unfold tget in Em. destruct (nth_error tabs (Z.to_nat c)) as [[m|]|] eqn:En; try discriminate.
    exists (mkInv cut m). rewrite Hget. replace (c <? 0) with false by lia. rewrite En. split; [reflexivity|]. split; [exact Hne|].
    unfold IndexHas, IndexGet. cbn [iv_table iv_docs]. rewrite Em. split; [reflexivity|]. unfold Slice. cbn [ibuf NewBytesInput].
    rewrite Ec, !zlen_app in Hsz. pose proof (zlen_nonneg pre). pose proof (zlen_nonneg w0). pose proof (zlen_nonneg post).
    assert (wrapi64 (zlen pre + zlen w0) = zlen pre + zlen w0) as -> by (unfold wrapi64; rewrite Z.mod_small; lia).
    replace ((zlen w0 <? 0) || (zlen pre <? 0) || (zlen cut <? zlen pre + zlen w0)) with true by lia. eexists. reflexivity.
  - left. apply Hholds. intros _ _ w1 pre1 post1 Ec1 Em1. rewrite Em in Em1. injection Em1 as Elw Elp.
    assert (pre1 = pre /\ w1 = w0) as [-> ->].
    { rewrite Ec in Ec1. unfold zlen in Elw, Elp. assert (length pre = length pre1) as L1 by lia. assert (length w0 = length w1) as L2 by lia.
      destruct (app_inv_len _ _ _ _ L1 Ec1) as [-> E2]. destruct (app_inv_len _ _ _ _ L2 E2) as [-> _]. auto. }
    assert (exists post', cut = pre ++ w0 ++ post') as [post' Epost].
    { rewrite Hcut, app_assoc in Ec. exists (skipn (length (pre ++ w0)) cut). rewrite app_assoc.
      rewrite <- (firstn_skipn (length (pre ++ w0)) cut) at 1. f_equal.
      apply (f_equal (firstn (length (pre ++ w0)))) in Ec. rewrite (firstn_app _ cut), (firstn_app _ (pre ++ w0)) in Ec.
      assert (length (pre ++ w0) <= length cut)%nat as Hle by (rewrite app_length; unfold zlen in Hshort; lia).
      replace (length (pre ++ w0) - length cut)%nat with O in Ec by lia. rewrite Nat.sub_diag, firstn_all in Ec. cbn [firstn] in Ec.
      rewrite !app_nil_r in Ec. exact Ec. }
    rewrite Epost. rewrite Slice_mid; [reflexivity|]. rewrite <- Epost. rewrite Hcut, zlen_app in Hsz. pose proof (zlen_nonneg (b :: rest0)). lia.
Qed.
Lemma read_any rb g ord docs w ws ds p open dn hn : roaring_ok rb -> roaring_written rb -> gob_ok g -> order_ok ord ->
  docs_any docs -> WI docs w -> zlen w < 2 ^ 32 ->
  commit_indices rb ord 0 w 0 = Ret (ws, ds, p) ->
  open hn = Some (gob_enc g (mkHeader IndexVersion (wrap32 (zlen w)) ds)) ->
  open dn = Some (concat ws) -> zlen (concat ws) < 2 ^ 32 ->
  exists ix, IndexRead g open dn hn = Ret ix /\ forall c t, index_holds_any rb ix c t (occurrences docs c t).
Proof.
  intros Hrb Hrw Hg Ho Hd HW Hwl Hc Hh Hdo Hsz.
  exact (read_cut_any rb g ord docs w ws ds p open dn hn (concat ws) [] Hrb Hrw Hg Ho Hd HW Hwl Hc Hh (eq_sym (app_nil_r _)) Hdo Hsz).
Qed.
Lemma read_cut rb g ord docs w ws ds p open dn hn cut rest : roaring_ok rb -> roaring_written rb -> gob_ok g -> order_ok ord ->
  docs_ok docs -> zlen docs < 2 ^ 32 -> WI docs w -> zlen w < 2 ^ 32 ->
  commit_indices rb ord 0 w 0 = Ret (ws, ds, p) ->
  open hn = Some (gob_enc g (mkHeader IndexVersion (wrap32 (zlen w)) ds)) ->
  concat ws = cut ++ rest ->
  open dn = Some cut -> zlen (concat ws) < 2 ^ 32 ->
  exists ix, IndexRead g open dn hn = Ret ix /\ forall c t,
    if match rest with [] => true | _ => false end then index_holds rb ix c t (posting_of docs c t)
    else holds_or_errs rb ix c t (posting_of docs c t).
Proof.
  intros Hrb Hrw Hg Ho Hd Hdl HW Hwl Hc Hh Hcut Hdo Hsz.
  destruct (read_cut_any rb g ord docs w ws ds p open dn hn cut rest Hrb Hrw Hg Ho (docs_ok_any docs Hd Hdl) HW Hwl Hc Hh Hcut Hdo Hsz) as (ix & E & H).
  exists ix. split; [exact E|]. intros c t. specialize (H c t). pose proof (posting_of_posting docs c t Hd) as Hp. destruct Hd as (_ & _ & Hn).
  rewrite (occurrences_posting_of docs c t Hn) in H. destruct rest; [exact (holds_strict _ _ _ _ _ Hp H)|].
  destruct H as [H|H]; [left; exact (holds_strict _ _ _ _ _ Hp H)|right; exact H].
Qed.
Lemma read_ok rb g ord docs w ws ds p open dn hn : roaring_ok rb -> roaring_written rb -> gob_ok g -> order_ok ord ->
  docs_ok docs -> zlen docs < 2 ^ 32 -> WI docs w -> zlen w < 2 ^ 32 ->
  commit_indices rb ord 0 w 0 = Ret (ws, ds, p) ->
  open hn = Some (gob_enc g (mkHeader IndexVersion (wrap32 (zlen w)) ds)) ->
  open dn = Some (concat ws) -> zlen (concat ws) < 2 ^ 32 ->
  exists ix, IndexRead g open dn hn = Ret ix /\ forall c t, index_holds rb ix c t (posting_of docs c t).
Proof.
  intros Hrb Hrw Hg Ho Hd Hdl HW Hwl Hc Hh Hdo Hsz.
  exact (read_cut rb g ord docs w ws ds p open dn hn (concat ws) [] Hrb Hrw Hg Ho Hd Hdl HW Hwl Hc Hh (eq_sym (app_nil_r _)) Hdo Hsz).
Qed.
