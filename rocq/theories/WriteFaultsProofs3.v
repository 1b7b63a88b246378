(** Proofs about writing to a disk that fails: a commit leaves what some prefix of its
    operations, with some flushes, leaves. *)
From Coq Require Import String ZifyBool.
From Verif Require Import Base BaseLemmas GoMap Store StoreSpec Compression Postings Merger Index IndexSpec IndexProofs2 WriteFaults WriteFaultsProofs WriteFaultsProofs2.
Local Open Scope Z_scope.
Local Notation length := List.length.

(** ** Histories *)
Lemma set_nth_last {A} (x y : A) l : set_nth (length l) x (l ++ [y]) = l ++ [x].
Proof. induction l; cbn; congruence. Qed.
Lemma set_nth_prev {A} (x y z : A) l : set_nth (length l) x (l ++ [y; z]) = l ++ [x; z].
Proof. induction l; cbn; congruence. Qed.
Lemma nth_last {A} (y : A) l : nth_error (l ++ [y]) (length l) = Some y.
Proof. rewrite nth_error_app2, Nat.sub_diag by lia. reflexivity. Qed.
Lemma nth_prev {A} (y z : A) l : nth_error (l ++ [y; z]) (length l) = Some y.
Proof. rewrite nth_error_app2, Nat.sub_diag by lia. reflexivity. Qed.

Definition updated (F F' : fmap) (n : string) (v : bytes) : Prop := forall x, F' x = if String.eqb x n then Some v else F x.
Lemma write_last F hs n p q : fs_step (mkFs F (hs ++ [mkFh n 0 p true])) (OWrite (length hs) q) = mkFs F (hs ++ [mkFh n 0 (p ++ q) true]).
Proof. cbn [fs_step fs_handles fs_files]. rewrite nth_last. cbn [fh_name fh_off fh_pend fh_open]. rewrite set_nth_last. reflexivity. Qed.
Lemma writes_last F hs n ws : forall p, fs_run (mkFs F (hs ++ [mkFh n 0 p true])) (map (OWrite (length hs)) ws) = mkFs F (hs ++ [mkFh n 0 (p ++ concat ws) true]).
Proof. unfold fs_run. induction ws as [|q ws IH]; intros p; cbn [map fold_left concat]; [rewrite app_nil_r; reflexivity|]. rewrite write_last, IH, app_assoc. reflexivity. Qed.
Lemma flush_last F hs n p m b : F n = Some [] ->
  exists F' k, fs_flush (mkFs F (hs ++ [mkFh n 0 p true])) (length hs) m b = mkFs F' (hs ++ [mkFh n k (skipn m p) (negb b)]) /\ updated F F' n (firstn m p).
Proof.
  intros Hn. unfold fs_flush. cbn [fs_handles fs_files]. rewrite nth_last. cbn [fh_name fh_off fh_pend fh_open]. rewrite Hn, set_nth_last. eexists _, _. split; [reflexivity|].
  intros x. destruct (firstn m p) as [|c l] eqn:E.
  - destruct (String.eqb_spec x n) as [->|]; [exact Hn|reflexivity].
  - unfold fset, pwrite. cbn [firstn app skipn]. destruct (String.eqb x n); [|reflexivity]. rewrite skipn_nil, app_nil_r. reflexivity.
Qed.

Lemma fs_run_app d a b : fs_run d (a ++ b) = fs_run (fs_run d a) b.
Proof. apply fold_left_app. Qed.
Section History.
Context (d : fsdir) (dn hn : string) (ws : list bytes) (H : bytes) (Hdiff : dn <> hn).
Notation k := (length (fs_handles d)).
Notation D := (concat ws).
Definition first_ops (m : nat) : list dop := OCreate dn :: map (OWrite k) ws ++ [OFlush k m].
Lemma run_first m : exists F kd, fs_run d (first_ops m) = mkFs F (fs_handles d ++ [mkFh dn kd (skipn m D) true]) /\ updated (fs_files d) F dn (firstn m D).
Proof.
  unfold first_ops. change (fs_run d (OCreate dn :: ?t)) with (fs_run (fs_step d (OCreate dn)) t). cbn [fs_step]. rewrite fs_run_app, writes_last. cbn [app].
  destruct (flush_last (fset (fs_files d) dn []) (fs_handles d) dn D m false) as (F & kd & E & HF); [unfold fset; rewrite String.eqb_refl; reflexivity|].
  exists F, kd. split; [unfold fs_run; cbn [fold_left fs_step]; exact E|]. intros x. rewrite (HF x). unfold fset. destruct (String.eqb x dn); reflexivity.
Qed.
Lemma len_snoc {A} (l : list A) x : length (l ++ [x]) = S (length l).
Proof. rewrite app_length. cbn. lia. Qed.
Lemma run_second m o m2 b : (o = OFlush (S k) m2 /\ b = false) \/ (o = OClose (S k) /\ m2 = length H /\ b = true) -> exists F kd kh, fs_run d (first_ops m ++ [OCreate hn; OWrite (S k) H; o]) = mkFs F (fs_handles d ++ [mkFh dn kd (skipn m D) true; mkFh hn kh (skipn m2 H) (negb b)]) /\
  (forall x, F x = if String.eqb x hn then Some (firstn m2 H) else if String.eqb x dn then Some (firstn m D) else fs_files d x).
Proof.
  intros Ho. destruct (run_first m) as (F & kd & E & HF). rewrite fs_run_app, E. set (hs := fs_handles d ++ [mkFh dn kd (skipn m D) true]).
  assert (S k = length hs) as Ek by (unfold hs; rewrite len_snoc; reflexivity).
  change (fs_run (mkFs F hs) [OCreate hn; OWrite (S k) H; o]) with (fs_step (fs_step (fs_step (mkFs F hs) (OCreate hn)) (OWrite (S k) H)) o). change (fs_step (mkFs F hs) (OCreate hn)) with (mkFs (fset F hn []) (hs ++ [mkFh hn 0 [] true])).
  rewrite Ek, write_last. cbn [app].
  destruct (flush_last (fset F hn []) hs hn H m2 b) as (F2 & kh & E2 & HF2); [unfold fset; rewrite String.eqb_refl; reflexivity|].
  exists F2, kd, kh. split.
  - transitivity (mkFs F2 (hs ++ [mkFh hn kh (skipn m2 H) (negb b)])); [|unfold hs; rewrite <- app_assoc; reflexivity].
    destruct Ho as [(-> & ->)|(-> & -> & ->)].
    + rewrite Ek. exact E2.
    + rewrite Ek. cbn [fs_step fs_handles]. rewrite nth_last. cbn [fh_pend]. exact E2.
  - intros x. rewrite (HF2 x). unfold fset. destruct (String.eqb x hn); [reflexivity|]. apply HF.
Qed.
Lemma run_all : forall x, fs_files (fs_run d (first_ops (length D) ++ [OCreate hn; OWrite (S k) H; OClose (S k)] ++ [OClose k])) x =
  if String.eqb x hn then Some H else if String.eqb x dn then Some D else fs_files d x.
Proof.
  intros x. rewrite app_assoc, fs_run_app. destruct (run_second (length D) (OClose (S k)) (length H) true ltac:(auto)) as (F & kd & kh & E & HF). rewrite E. unfold fs_run. cbn [fold_left fs_step fs_handles].
  rewrite nth_prev. cbn [fh_pend]. unfold fs_flush. cbn [fs_handles fs_files]. rewrite nth_prev. cbn [fh_open fh_pend fh_name fh_off]. rewrite skipn_all2, firstn_nil by lia.
  rewrite !firstn_all in HF. rewrite (HF dn). replace (String.eqb dn hn) with false by (symmetry; apply String.eqb_neq, Hdiff). rewrite String.eqb_refl. cbn [fs_files]. apply HF.
Qed.
Lemma fl_writes j : filter (fun o => negb (is_flush o)) (map (OWrite j) ws) = map (OWrite j) ws.
Proof. induction ws as [|w l IH]; cbn; [reflexivity|]. f_equal. exact IH. Qed.
Lemma fl_first m t : filter (fun o => negb (is_flush o)) (first_ops m ++ t) = OCreate dn :: map (OWrite k) ws ++ filter (fun o => negb (is_flush o)) t.
Proof. unfold first_ops. cbn [app filter is_flush negb]. f_equal. rewrite <- app_assoc, filter_app, fl_writes. reflexivity. Qed.
Lemma fl_in m t j n : (forall j n, In (OFlush j n) t -> (k <= j)%nat) -> In (OFlush j n) (first_ops m ++ t) -> (k <= j)%nat.
Proof.
  intros Ht Hi. apply in_app_iff in Hi. destruct Hi as [Hi|Hi]; [|exact (Ht _ _ Hi)]. unfold first_ops in Hi. destruct Hi as [Hi|Hi]; [discriminate|]. apply in_app_iff in Hi. destruct Hi as [Hi|[Hi|[]]].
  - apply in_map_iff in Hi. destruct Hi as (? & Hx & _). discriminate.
  - injection Hi as <- _. lia.
Qed.
End History.

Section Commit.
Context (M : machine) (pieces : bytes -> list bytes) (Hpieces : pieces_ok pieces).

Lemma prefix_firstn (p rest D : bytes) : p ++ rest = D -> firstn (length p) D = p.
Proof. intros <-. rewrite firstn_app, Nat.sub_diag, firstn_all. cbn. apply app_nil_r. Qed.

Lemma commit_faults rb g ord dn hn w w0 d ops : dn <> hn -> Commit rb g ord dn hn (length (fs_handles d)) w = Ret ops -> (forall x, w_files w0 x = fs_files d x) ->
  exists before after w1 r, commit_to M pieces rb g ord dn hn w w0 = (r, w1) /\ with_flushes (length (fs_handles d)) ops (before ++ after) /\
    (forall x, w_files w1 x = fs_files (fs_run d before) x) /\
    ((r = Ret tt /\ after = [] /\ calls_good w0 w1) \/ ((exists e, r = Fail e) /\ calls_bad w0 w1)).
Proof.
  intros Hdiff Hc Hf. set (k := length (fs_handles d)) in *. unfold Commit in Hc. destruct (commit_indices rb ord 0 w 0) as [[[ws ds] pos]| | |] eqn:Ec; try discriminate. cbn [bind] in Hc.
  set (H := gob_enc g (mkHeader IndexVersion (wrap32 (zlen w)) ds)) in *. assert (ops = OCreate dn :: map (OWrite k) ws ++ [OCreate hn; OWrite (S k) H; OClose (S k); OClose k]) as -> by congruence. clear Hc.
  unfold commit_to, ibind at 1. unfold wrap_err at 1. destruct (create_spec M dn w0) as [(w1 & E1 & R1 & F1 & O1 & G1)|(e & w1 & E1 & F1 & O1 & G1)]; rewrite E1; cbv beta iota.
  2: { exists [], (OCreate dn :: map (OWrite k) ws ++ [OCreate hn; OWrite (S k) H; OClose (S k); OClose k]), w1, (Fail (ErrWrapped e)). split; [reflexivity|]. split; [|split].
    - split.
      + cbn [app filter is_flush negb]. f_equal. rewrite filter_app, fl_writes. reflexivity.
      + cbn [app]. intros j n Hi. destruct Hi as [Hi|Hi]; [discriminate|]. apply in_app_iff in Hi. destruct Hi as [Hi|Hi]; [apply in_map_iff in Hi; destruct Hi as (? & Hx & _); discriminate|]. cbn in Hi. intuition discriminate.
    - intros x. rewrite F1. apply Hf.
    - right. split; [eexists; reflexivity|exact G1]. }
  set (h := length (w_outs w0)) in *. unfold ibind at 1.
  (* the first file at its state *)
  assert (forall w2 n c bf c' bf' e', step h w1 w2 n c bf c' bf' e' -> n = dn /\ c = [] /\ bf = [] /\ w_outs w2 = w_outs w0 ++ [mkBuf dn bf' e'] /\ (forall x, w_files w2 x = if String.eqb x dn then Some c' else fs_files d x)) as Hfirst.
  { intros w2 n c bf c' bf' e' (b & S1 & S2 & S3 & S4 & S5 & S6 & S7 & S8). unfold h in S1. rewrite O1, nth_last in S1. injection S1 as <-. cbn [b_name b_buf] in *. subst n bf. split; [reflexivity|].
    split; [rewrite F1 in S6; unfold fset in S6; rewrite String.eqb_refl in S6; congruence|]. split; [reflexivity|]. split; [rewrite S5, O1; unfold h; apply set_nth_last|].
    intros x. destruct (String.eqb_spec x dn) as [->|Hx]; [exact S7|]. rewrite (S8 x Hx), F1. unfold fset. destruct (String.eqb_spec x dn); [contradiction|apply Hf]. }
  assert (forall r w2 m after t, with_flushes k (OCreate dn :: map (OWrite k) ws ++ t) (first_ops d dn ws m ++ after) -> t = [OCreate hn; OWrite (S k) H; OClose (S k); OClose k] -> (forall x, w_files w2 x = if String.eqb x dn then Some (firstn m (concat ws)) else fs_files d x) -> (exists e, r = Fail e) -> calls_bad w0 w2 ->
    exists before after w1 r', (r, w2) = (r', w1) /\ with_flushes k (OCreate dn :: map (OWrite k) ws ++ [OCreate hn; OWrite (S k) H; OClose (S k); OClose k]) (before ++ after) /\
    (forall x, w_files w1 x = fs_files (fs_run d before) x) /\ ((r' = Ret tt /\ after = [] /\ calls_good w0 w1) \/ ((exists e, r' = Fail e) /\ calls_bad w0 w1))) as Hstop1.
  { intros r w2 m after t Hwf -> Hw2 Hr Hb. exists (first_ops d dn ws m), after, w2, r. split; [reflexivity|]. split; [exact Hwf|]. split; [|right; split; assumption].
    intros x. destruct (run_first d dn ws m) as (F & kd & E & HF). fold k in E. rewrite E. cbn [fs_files]. rewrite (HF x). apply Hw2. }
  assert (forall m m2, with_flushes k (OCreate dn :: map (OWrite k) ws ++ [OCreate hn; OWrite (S k) H; OClose (S k); OClose k]) ((first_ops d dn ws m ++ [OCreate hn; OWrite (S k) H; OFlush (S k) m2]) ++ [OClose (S k); OClose k])) as Hwf2.
  { intros m m2. rewrite <- app_assoc. split; [rewrite fl_first; reflexivity|]. intros j n. apply fl_in. cbn. intros j' n' Hi. intuition (try discriminate). match goal with X : OFlush _ _ = OFlush _ _ |- _ => injection X as <- _ end. fold k. lia. }
  assert (forall m t, t = [OCreate hn; OWrite (S k) H; OClose (S k); OClose k] -> with_flushes k (OCreate dn :: map (OWrite k) ws ++ t) (first_ops d dn ws m ++ t)) as Hwf1.
  { intros m t ->. split; [rewrite fl_first; reflexivity|]. intros j n. apply fl_in. cbn. intuition discriminate. }
  destruct (commit_indices_does M pieces Hpieces rb ord h w 0 0 ws ds pos Ec w1 R1) as [(w2 & E2 & (n & c & bf & c2 & bf2 & S2 & L2 & Q2 & G2))|(e & w2 & E2 & (n & c & bf & c2 & bf2 & S2 & (rest & Q2) & G2))]; rewrite E2; cbv beta iota.
  2: { destruct (Hfirst _ _ _ _ _ _ _ S2) as (-> & -> & -> & O2 & F2). cbn [app] in Q2. eapply (Hstop1 _ w2 (length c2)); [apply Hwf1; reflexivity|reflexivity| |eexists; reflexivity|exact (good_bad _ _ _ G1 G2)].
    intros x. rewrite (prefix_firstn _ _ _ Q2). apply F2. }
  destruct (Hfirst _ _ _ _ _ _ _ S2) as (-> & -> & -> & O2 & F2). cbn [app] in Q2. cbn [fst]. pose proof (good_trans _ _ _ G1 G2) as G12. fold H. clear S2 E2 E1 R1 O1 F1 Hfirst.
  assert (forall w2' , calls_good w0 w2' -> (forall x, w_files w2' x = if String.eqb x dn then Some c2 else fs_files d x) -> True) as _ by trivial.
  unfold ibind at 1. unfold header_to, ibind at 1. unfold wrap_err at 1. destruct (create_spec M hn w2) as [(w3 & E3 & R3 & F3 & O3 & G3)|(e & w3 & E3 & F3 & O3 & G3)]; rewrite E3; cbv beta iota.
  2: { eapply (Hstop1 _ w3 (length c2)); [apply Hwf1; reflexivity|reflexivity| |eexists; reflexivity|exact (good_bad _ _ _ G12 G3)]. intros x. rewrite (prefix_firstn _ _ _ Q2), F3. apply F2. }
  set (h2 := length (w_outs w2)) in *. assert (h2 = S h) as Eh by (unfold h2; rewrite O2, app_length; cbn; unfold h; lia).
  assert (forall w4 n c bf c' bf' e', step h2 w3 w4 n c bf c' bf' e' -> n = hn /\ c = [] /\ bf = [] /\ w_outs w4 = w_outs w2 ++ [mkBuf hn bf' e'] /\
    (forall x, w_files w4 x = if String.eqb x hn then Some c' else if String.eqb x dn then Some c2 else fs_files d x)) as Hsecond.
  { intros w4 n c bf c' bf' e' (b & S1 & S2 & S3 & S4 & S5 & S6 & S7 & S8). unfold h2 in S1. rewrite O3, nth_last in S1. injection S1 as <-. cbn [b_name b_buf] in *. subst n bf. split; [reflexivity|].
    split; [rewrite F3 in S6; unfold fset in S6; rewrite String.eqb_refl in S6; congruence|]. split; [reflexivity|]. split; [rewrite S5, O3; unfold h2; apply set_nth_last|].
    intros x. destruct (String.eqb_spec x hn) as [->|Hx]; [exact S7|]. rewrite (S8 x Hx), F3. unfold fset. destruct (String.eqb_spec x hn); [contradiction|apply F2]. }
  assert (forall r w4 c4 rest, c4 ++ rest = H -> (forall x, w_files w4 x = if String.eqb x hn then Some c4 else if String.eqb x dn then Some c2 else fs_files d x) -> (exists e, r = Fail e) -> calls_bad w0 w4 ->
    exists before after w1 r', (r, w4) = (r', w1) /\ with_flushes k (OCreate dn :: map (OWrite k) ws ++ [OCreate hn; OWrite (S k) H; OClose (S k); OClose k]) (before ++ after) /\
    (forall x, w_files w1 x = fs_files (fs_run d before) x) /\ ((r' = Ret tt /\ after = [] /\ calls_good w0 w1) \/ ((exists e, r' = Fail e) /\ calls_bad w0 w1))) as Hstop2.
  { intros r w4 c4 rest Q4 Hw4 Hr Hb. exists (first_ops d dn ws (length c2) ++ [OCreate hn; OWrite (S k) H; OFlush (S k) (length c4)]), [OClose (S k); OClose k], w4, r. split; [reflexivity|]. split; [apply Hwf2|]. split; [|right; split; assumption].
    intros x. destruct (run_second d dn hn ws H (length c2) (OFlush (S k) (length c4)) (length c4) false ltac:(auto)) as (F & kd & kh & E & HF). fold k in E. rewrite E. cbn [fs_files]. rewrite (HF x), (prefix_firstn _ _ _ Q2), (prefix_firstn _ _ _ Q4). apply Hw4. }
  fold H. unfold ibind at 1. destruct (does_wrap h2 _ _ _ (pieces_does M h2 (pieces H) 0) w3 R3) as [(w4 & E4 & (n & c & bf & c4 & bf4 & S4 & L4 & Q4 & G4))|(e & w4 & E4 & (n & c & bf & c4 & bf4 & S4 & (rest & Q4) & G4))]; rewrite E4; cbv beta iota; rewrite (Hpieces H) in Q4.
  2: { destruct (Hsecond _ _ _ _ _ _ _ S4) as (-> & -> & -> & O4 & F4). cbn [app] in Q4. eapply (Hstop2 _ w4 c4 rest Q4 F4); [eexists; reflexivity|exact (good_bad _ _ _ G12 (good_bad _ _ _ G3 G4))]. }
  assert (ready h2 w4) as R4.
  { destruct S4 as (b & S1 & S2 & S3 & S5 & S6 & S7 & S8 & S9). exists (mkBuf n bf4 false), c4. rewrite S6, (set_nth_same _ _ _ _ S1). auto. }
  destruct (out_close_spec M h2 w4 R4) as (n5 & c5 & bf5 & c5' & bf5' & [(w5 & E5 & S5 & G5)|(e & w5 & E5 & S5 & (rest & Q5) & G5)]); unfold wrap_err at 1; rewrite E5; cbv beta iota.
  2: { destruct (step_trans _ _ _ _ _ _ _ _ _ _ _ _ _ _ _ S4 S5) as (-> & -> & -> & S45). destruct (Hsecond _ _ _ _ _ _ _ S45) as (-> & -> & -> & O5 & F5). cbn [app] in Q4.
    eapply (Hstop2 _ w5 c5' rest); [rewrite Q5; exact Q4|exact F5|eexists; reflexivity|exact (good_bad _ _ _ G12 (good_bad _ _ _ G3 (good_bad _ _ _ G4 G5)))]. }
  destruct (step_trans _ _ _ _ _ _ _ _ _ _ _ _ _ _ _ S4 S5) as (-> & -> & -> & S45). destruct (Hsecond _ _ _ _ _ _ _ S45) as (-> & -> & -> & O5 & F5). cbn [app] in Q4. rewrite Q4 in *.
  assert (calls_good w0 w5) as G15 by exact (good_trans _ _ _ G12 (good_trans _ _ _ G3 (good_trans _ _ _ G4 G5))).
  assert (nth_error (w_outs w5) h = Some (mkBuf dn bf2 false)) as Eh5. { rewrite O5, O2, <- app_assoc. unfold h. apply nth_prev. }
  assert (ready h w5) as R5.
  { exists (mkBuf dn bf2 false), c2. split; [exact Eh5|]. split; [reflexivity|]. split; [exact L2|]. cbn [b_name]. rewrite (F5 dn). replace (String.eqb dn hn) with false by (symmetry; apply String.eqb_neq, Hdiff). rewrite String.eqb_refl. reflexivity. }
  assert (forall w6 n c bf c' bf' e', step h w5 w6 n c bf c' bf' e' -> n = dn /\ c = c2 /\ bf = bf2 /\ (forall x, w_files w6 x = if String.eqb x hn then Some H else if String.eqb x dn then Some c' else fs_files d x)) as Hthird.
  { intros w6 n c bf c' bf' e' (b & S1 & S2 & S3 & S6 & S7 & S8 & S9 & S10). rewrite Eh5 in S1. injection S1 as <-. cbn [b_name b_buf] in *. subst n bf. split; [reflexivity|].
    split; [rewrite (F5 dn) in S8; replace (String.eqb dn hn) with false in S8 by (symmetry; apply String.eqb_neq, Hdiff); rewrite String.eqb_refl in S8; congruence|]. split; [reflexivity|].
    intros x. destruct (String.eqb_spec x dn) as [->|Hx].
    - replace (String.eqb dn hn) with false by (symmetry; apply String.eqb_neq, Hdiff). exact S9.
    - rewrite (S10 x Hx), (F5 x). destruct (String.eqb_spec x dn); [contradiction|reflexivity]. }
  destruct (out_close_spec M h w5 R5) as (n6 & c6 & bf6 & c6' & bf6' & [(w6 & E6 & S6 & G6)|(e & w6 & E6 & S6 & (rest & Q6) & G6)]); unfold wrap_err; rewrite E6; cbv beta iota.
  - destruct (Hthird _ _ _ _ _ _ _ S6) as (-> & -> & -> & F6). rewrite Q2 in F6.
    exists (first_ops d dn ws (length (concat ws)) ++ [OCreate hn; OWrite (S k) H; OClose (S k)] ++ [OClose k]), [], w6, (Ret tt). split; [reflexivity|]. split; [rewrite app_nil_r; apply Hwf1; reflexivity|].
    split; [|left; split; [reflexivity|split; [reflexivity|exact (good_trans _ _ _ G15 G6)]]]. intros x. unfold k. rewrite (run_all d dn hn ws H Hdiff). apply F6.
  - destruct (Hthird _ _ _ _ _ _ _ S6) as (-> & -> & -> & F6). rewrite Q2 in Q6.
    exists (first_ops d dn ws (length c6') ++ [OCreate hn; OWrite (S k) H; OClose (S k)]), [OClose k], w6, (Fail (ErrWrapped e)). split; [reflexivity|]. split; [rewrite <- app_assoc; apply Hwf1; reflexivity|].
    split; [|right; split; [eexists; reflexivity|exact (good_bad _ _ _ G15 G6)]].
    intros x. destruct (run_second d dn hn ws H (length c6') (OClose (S k)) (length H) true ltac:(auto)) as (F & kd & kh & E & HF). fold k in E. rewrite E. cbn [fs_files]. rewrite (HF x), firstn_all, (prefix_firstn _ _ _ Q6). apply F6.
Qed.
End Commit.
