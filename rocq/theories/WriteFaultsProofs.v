(** Proofs about writing to a disk that fails. *)
From Coq Require Import String ZifyBool.
From Verif Require Import Base BaseLemmas GoMap Store StoreSpec Compression Postings Merger CountTrie Float64 Decimal NGram Mph NGramStore GoogleNGram Index WriteFaults.
Local Open Scope Z_scope.
Local Notation length := List.length.

Definition succeeded (c : syscall) : Prop := match c with COpen _ ok => ok = true | CWrite _ p k => k = zlen p end.

(** ** What a step on one output does *)
Definition ready (h : nat) (w : world) : Prop :=
  exists b c, nth_error (w_outs w) h = Some b /\ b_err b = false /\ zlen (b_buf b) <= bufSize /\ w_files w (b_name b) = Some c.
Definition calls_good (w w' : world) : Prop := exists new, w_calls w' = w_calls w ++ new /\ Forall succeeded new.
Definition calls_bad (w w' : world) : Prop := exists new, w_calls w' = w_calls w ++ new /\ Exists (fun c => ~ succeeded c) new.
(* output h, whose file is [n], with contents c and buffer bf, becomes contents c', buffer bf' *)
Definition step (h : nat) (w w' : world) (n : string) (c bf c' bf' : bytes) (e' : bool) : Prop :=
  exists b, nth_error (w_outs w) h = Some b /\ b_name b = n /\ b_buf b = bf /\ b_err b = false /\
    w_outs w' = set_nth h (mkBuf n bf' e') (w_outs w) /\ w_files w n = Some c /\ w_files w' n = Some c' /\
    forall m, m <> n -> w_files w' m = w_files w m.
Definition ok_step (h : nat) (w w' : world) (s : bytes) : Prop :=
  exists n c bf c' bf', step h w w' n c bf c' bf' false /\ zlen bf' <= bufSize /\ c' ++ bf' = c ++ bf ++ s /\ calls_good w w'.
Definition bad_step (h : nat) (w w' : world) (s : bytes) : Prop :=
  exists n c bf c' bf', step h w w' n c bf c' bf' true /\ (exists rest, c' ++ rest = c ++ bf ++ s) /\ calls_bad w w'.
Definition does {A} (h : nat) (p : io A) (a : A) (s : bytes) : Prop :=
  forall w, ready h w ->
  (exists w', p w = (Ret a, w') /\ ok_step h w w' s) \/ (exists e w', p w = (Fail e, w') /\ bad_step h w w' s).

Lemma set_nth_set {A} (x y : A) l : forall h, set_nth h x (set_nth h y l) = set_nth h x l.
Proof. induction l as [|z l IH]; intros [|h]; cbn; [reflexivity..|f_equal; apply IH]. Qed.
Lemma set_nth_same {A} (x : A) l : forall h y, nth_error l h = Some y -> nth_error (set_nth h x l) h = Some x.
Proof. induction l as [|z l IH]; intros [|h] y H; cbn in *; try discriminate; [reflexivity|]. exact (IH h y H). Qed.
Lemma set_nth_else {A} (x : A) l : forall h j, j <> h -> nth_error (set_nth h x l) j = nth_error l j.
Proof. induction l as [|z l IH]; intros [|h] [|j] H; cbn; try reflexivity; [congruence|]. apply IH. congruence. Qed.
Lemma set_nth_len {A} (x : A) l : forall h, length (set_nth h x l) = length l.
Proof. induction l as [|z l IH]; intros [|h]; cbn; [reflexivity..|f_equal; apply IH]. Qed.
Lemma set_nth_id {A} (x : A) l : forall h, nth_error l h = Some x -> set_nth h x l = l.
Proof. induction l as [|z l IH]; intros [|h] H; cbn in *; try discriminate; [congruence|]. f_equal. exact (IH h H). Qed.

Lemma good_trans w1 w2 w3 : calls_good w1 w2 -> calls_good w2 w3 -> calls_good w1 w3.
Proof. intros (a & Ea & Fa) (b & Eb & Fb). exists (a ++ b). rewrite Eb, Ea, app_assoc. split; [reflexivity|]. apply Forall_app. split; assumption. Qed.
Lemma good_bad w1 w2 w3 : calls_good w1 w2 -> calls_bad w2 w3 -> calls_bad w1 w3.
Proof. intros (a & Ea & Fa) (b & Eb & Fb). exists (a ++ b). rewrite Eb, Ea, app_assoc. split; [reflexivity|]. apply Exists_app. right. exact Fb. Qed.
Lemma good_refl w : calls_good w w.
Proof. exists []. rewrite app_nil_r. split; [reflexivity|constructor]. Qed.

Lemma step_trans h w1 w2 w3 n c bf c1 b1 n2 c1' b1' c2 b2 e : step h w1 w2 n c bf c1 b1 false -> step h w2 w3 n2 c1' b1' c2 b2 e ->
  n2 = n /\ c1' = c1 /\ b1' = b1 /\ step h w1 w3 n c bf c2 b2 e.
Proof.
  intros (b & E1 & En & Eb & Ee & Eo & Ef & Ef' & Efr) (d & E1' & En' & Eb' & Ee' & Eo' & Eg & Eg' & Egr).
  rewrite Eo, (set_nth_same _ _ _ _ E1) in E1'. injection E1' as <-. cbn [b_name b_buf] in *. subst n2 b1'. split; [reflexivity|]. split; [congruence|]. split; [reflexivity|].
  exists b. split; [exact E1|]. split; [exact En|]. split; [exact Eb|]. split; [exact Ee|]. split; [rewrite Eo', Eo; apply set_nth_set|]. split; [exact Ef|]. split; [exact Eg'|].
  intros m Hm. rewrite Egr, Efr by exact Hm. reflexivity.
Qed.
Lemma ok_trans h w1 w2 w3 s1 s2 : ok_step h w1 w2 s1 -> ok_step h w2 w3 s2 -> ok_step h w1 w3 (s1 ++ s2).
Proof.
  intros (n & c & bf & c1 & b1 & S1 & L1 & E1 & G1) (n2 & d & bg & c2 & b2 & S2 & L2 & E2 & G2).
  destruct (step_trans _ _ _ _ _ _ _ _ _ _ _ _ _ _ _ S1 S2) as (-> & -> & -> & S3). exists n, c, bf, c2, b2. split; [exact S3|]. split; [exact L2|]. split; [|exact (good_trans _ _ _ G1 G2)].
  rewrite E2. rewrite !app_assoc, E1, !app_assoc. reflexivity.
Qed.
Lemma ok_bad h w1 w2 w3 s1 s2 : ok_step h w1 w2 s1 -> bad_step h w2 w3 s2 -> bad_step h w1 w3 (s1 ++ s2).
Proof.
  intros (n & c & bf & c1 & b1 & S1 & L1 & E1 & G1) (n2 & d & bg & c2 & b2 & S2 & (rest & E2) & G2).
  destruct (step_trans _ _ _ _ _ _ _ _ _ _ _ _ _ _ _ S1 S2) as (-> & -> & -> & S3). exists n, c, bf, c2, b2. split; [exact S3|]. split; [|exact (good_bad _ _ _ G1 G2)].
  exists rest. rewrite E2. rewrite !app_assoc, E1, !app_assoc. reflexivity.
Qed.
Lemma bad_more h w1 w2 s1 s2 : bad_step h w1 w2 s1 -> bad_step h w1 w2 (s1 ++ s2).
Proof. intros (n & c & bf & c1 & b1 & S1 & (rest & E1) & G). exists n, c, bf, c1, b1. split; [exact S1|]. split; [|exact G]. exists (rest ++ s2). rewrite app_assoc, E1, !app_assoc. reflexivity. Qed.
Lemma ok_ready h w w' s : ok_step h w w' s -> ready h w'.
Proof.
  intros (n & c & bf & c' & bf' & (b & E1 & En & Eb & Ee & Eo & Ef & Ef' & Efr) & L & _). exists (mkBuf n bf' false), c'. rewrite Eo, (set_nth_same _ _ _ _ E1).
  split; [reflexivity|]. split; [reflexivity|]. split; [exact L|exact Ef'].
Qed.
Lemma ok_nothing h w : ready h w -> ok_step h w w [].
Proof.
  intros (b & c & E & Ee & L & F). exists (b_name b), c, (b_buf b), c, (b_buf b). split.
  - exists b. split; [exact E|]. split; [reflexivity|]. split; [reflexivity|]. split; [exact Ee|]. split; [|split; [exact F|split; [exact F|reflexivity]]].
    symmetry. apply set_nth_id. rewrite E. destruct b; cbn in *; congruence.
  - split; [exact L|]. split; [rewrite app_nil_r; reflexivity|apply good_refl].
Qed.

Lemma does_ret {A} h (a : A) : does h (lift (Ret a)) a [].
Proof. intros w Hr. left. exists w. split; [reflexivity|apply ok_nothing, Hr]. Qed.
Lemma does_bind {A B} h (p : io A) (q : A -> io B) a b s1 s2 : does h p a s1 -> does h (q a) b s2 -> does h (ibind p q) b (s1 ++ s2).
Proof.
  intros Hp Hq w Hr. destruct (Hp w Hr) as [(w1 & E1 & S1)|(e & w1 & E1 & S1)].
  - destruct (Hq w1 (ok_ready _ _ _ _ S1)) as [(w2 & E2 & S2)|(e & w2 & E2 & S2)]; unfold ibind; rewrite E1.
    + left. exists w2. split; [exact E2|exact (ok_trans _ _ _ _ _ _ S1 S2)].
    + right. exists e, w2. split; [exact E2|exact (ok_bad _ _ _ _ _ _ S1 S2)].
  - right. exists e, w1. split; [unfold ibind; rewrite E1; reflexivity|apply bad_more, S1].
Qed.
Lemma does_lift {A B} h (r : res A) a (q : A -> io B) b s : r = Ret a -> does h (q a) b s -> does h (ibind (lift r) q) b s.
Proof. intros -> H. apply (does_bind h (lift (Ret a)) q a b [] s (does_ret h a) H). Qed.
Lemma does_wrap {A} h (p : io A) a s : does h p a s -> does h (wrap_err p) a s.
Proof. intros H w Hr. destruct (H w Hr) as [(w' & E & S)|(e & w' & E & S)]; unfold wrap_err; rewrite E; [left; exists w'|right; exists (ErrWrapped e), w']; split; auto. Qed.

Lemma zlen_zero {A} (l : list A) : zlen l = 0 -> l = [].
Proof. destruct l; [reflexivity|]. rewrite zlen_cons. pose proof (zlen_nonneg l). lia. Qed.

Section Machine.
Context (M : machine).
Notation os_write := (os_write M). Notation flush := (flush M). Notation buf_write := (buf_write M). Notation out_write := (out_write M).

Lemma os_write_spec n p w c : w_files w n = Some c -> 0 < zlen p ->
  exists k failed w', os_write n p w = (k, failed, w') /\ 0 <= k <= zlen p /\ failed = (k <? zlen p) /\ w_outs w' = w_outs w /\
    w_files w' n = Some (c ++ firstn (Z.to_nat k) p) /\ (forall m, m <> n -> w_files w' m = w_files w m) /\ w_calls w' = w_calls w ++ [CWrite n p k].
Proof.
  intros Hc Hp. unfold WriteFaults.os_write. rewrite Hc. set (k := Z.min (zlen p) (Z.max 0 (room M (length (w_calls w))))). exists k, (k <? zlen p). eexists. split; [reflexivity|].
  pose proof (zlen_nonneg p). split; [lia|]. split; [reflexivity|]. cbn. split; [reflexivity|]. unfold fset. rewrite String.eqb_refl. split; [reflexivity|]. split; [|reflexivity].
  intros m Hm. destruct (String.eqb_spec m n); congruence.
Qed.
Lemma firstn_all' (p : bytes) k : zlen p <= k -> firstn (Z.to_nat k) p = p.
Proof. intros H. apply firstn_all2. unfold zlen in H. lia. Qed.
Lemma skipn_all' (p : bytes) k : zlen p <= k -> skipn (Z.to_nat k) p = [].
Proof. intros H. apply skipn_all2. unfold zlen in H. lia. Qed.

(* flush and buf_write: the buffer is given besides the world *)
Definition bstep (w w' : world) (n : string) (c c' : bytes) : Prop :=
  w_outs w' = w_outs w /\ w_files w n = Some c /\ w_files w' n = Some c' /\ forall m, m <> n -> w_files w' m = w_files w m.
Lemma bstep_trans w1 w2 w3 n c c1 c2 : bstep w1 w2 n c c1 -> bstep w2 w3 n c1 c2 -> bstep w1 w3 n c c2.
Proof. intros (A1 & B1 & C1 & D1) (A2 & B2 & C2 & D2). split; [congruence|]. split; [exact B1|]. split; [exact C2|]. intros m Hm. rewrite D2, D1 by exact Hm. reflexivity. Qed.
Lemma flush_spec b w c : b_err b = false -> w_files w (b_name b) = Some c ->
  exists b' w' c', flush b w = (b', w') /\ b_name b' = b_name b /\ bstep w w' (b_name b) c c' /\
    ((b_err b' = false /\ b_buf b' = [] /\ c' = c ++ b_buf b /\ calls_good w w') \/
     (b_err b' = true /\ (exists rest, c' ++ rest = c ++ b_buf b) /\ calls_bad w w')).
Proof.
  intros He Hc. unfold WriteFaults.flush. rewrite He. destruct (Z.eqb_spec (zlen (b_buf b)) 0) as [Hz|Hz].
  - exists b, w, c. apply zlen_zero in Hz. split; [reflexivity|]. split; [reflexivity|]. split; [split; [reflexivity|auto]|]. left. rewrite Hz, app_nil_r. split; [exact He|]. split; [reflexivity|]. split; [reflexivity|apply good_refl].
  - pose proof (zlen_nonneg (b_buf b)). destruct (os_write_spec (b_name b) (b_buf b) w c Hc ltac:(lia)) as (k & failed & w' & E & Hk & Hf & Ho & Hn & Hfr & Hcl). rewrite E. destruct failed.
    + eexists _, w', _. split; [reflexivity|]. cbn. split; [reflexivity|]. split; [split; [exact Ho|split; [exact Hc|split; [exact Hn|exact Hfr]]]|]. right. split; [reflexivity|]. split.
      * exists (skipn (Z.to_nat k) (b_buf b)). rewrite <- app_assoc, firstn_skipn. reflexivity.
      * eexists. split; [exact Hcl|]. constructor. cbn. lia.
    + eexists _, w', _. split; [reflexivity|]. cbn. split; [reflexivity|]. split; [split; [exact Ho|split; [exact Hc|split; [exact Hn|exact Hfr]]]|]. left. split; [reflexivity|]. split; [reflexivity|].
      rewrite firstn_all' by lia. split; [reflexivity|]. eexists. split; [exact Hcl|]. constructor; [cbn; lia|constructor].
Qed.

(* the loop *)
Definition wrote (b : bufw) (w : world) (p : bytes) (nn : Z) (r : option (Z * bufw * world)) : Prop :=
  exists nn' b' w' c c', r = Some (nn', b', w') /\ b_name b' = b_name b /\ bstep w w' (b_name b) c c' /\
    ((b_err b' = false /\ zlen (b_buf b') <= bufSize /\ c' ++ b_buf b' = c ++ b_buf b ++ p /\ nn' = nn + zlen p /\ calls_good w w') \/
     (b_err b' = true /\ (exists rest, c' ++ rest = c ++ b_buf b ++ p) /\ calls_bad w w')).
(* what fits *)
Lemma write_fits f p nn b w c : b_err b = false -> zlen (b_buf b) + zlen p <= bufSize -> w_files w (b_name b) = Some c -> wrote b w p nn (buf_write (S f) p nn b w).
Proof.
  intros He Hl Hc. cbn [WriteFaults.buf_write]. replace (zlen p >? bufSize - zlen (b_buf b)) with false by lia. cbn [andb]. rewrite He.
  eexists _, _, w, c, c. split; [reflexivity|]. cbn. split; [reflexivity|]. split; [split; [reflexivity|auto]|]. left. split; [reflexivity|]. rewrite zlen_app. split; [lia|]. split; [reflexivity|]. split; [reflexivity|apply good_refl].
Qed.
Lemma write_failed f p nn b w : b_err b = true -> buf_write (S f) p nn b w = Some (nn, b, w).
Proof. intros He. cbn [WriteFaults.buf_write]. rewrite He, andb_false_r. reflexivity. Qed.
(* an empty buffer *)
Lemma write_empty f p nn b w c : b_err b = false -> b_buf b = [] -> w_files w (b_name b) = Some c -> wrote b w p nn (buf_write (S (S f)) p nn b w).
Proof.
  intros He Hb Hc. destruct (Z.le_gt_cases (zlen p) bufSize) as [Hl|Hl]; [apply (write_fits _ _ _ _ _ c); [exact He|rewrite Hb; cbn; exact Hl|exact Hc]|].
  cbn [WriteFaults.buf_write]. rewrite Hb, He. cbn [negb]. replace (zlen p >? bufSize - zlen []) with true by (cbn; lia). cbn [andb]. change (zlen (@nil Z) =? 0) with true. cbv iota.
  destruct (os_write_spec (b_name b) p w c Hc ltac:(unfold bufSize in *; lia)) as (k & failed & w' & E & Hk & Hf & Ho & Hn & Hfr & Hcl). rewrite E. destruct failed.
  - pose proof (write_failed f (skipn (Z.to_nat k) p) (nn + k) (mkBuf (b_name b) [] true) w' eq_refl) as Hw. cbn [WriteFaults.buf_write] in Hw. rewrite Hw.
    eexists _, _, w', c, _. split; [reflexivity|]. cbn. split; [reflexivity|]. split; [split; [exact Ho|split; [exact Hc|split; [exact Hn|exact Hfr]]]|]. right. split; [reflexivity|]. split.
    + exists (skipn (Z.to_nat k) p). rewrite <- app_assoc, firstn_skipn, Hb. reflexivity.
    + eexists. split; [exact Hcl|]. constructor. cbn. lia.
  - assert (k = zlen p) as -> by lia. rewrite firstn_all' in Hn by lia. rewrite skipn_all' by lia.
    destruct (write_fits f [] (nn + zlen p) (mkBuf (b_name b) [] false) w' (c ++ p) eq_refl ltac:(cbn; unfold bufSize; lia) Hn) as (nn' & b' & w2 & c1 & c2 & Er & En & Hs & Hor).
    cbn [WriteFaults.buf_write] in Er. rewrite Er. cbn [b_name b_buf] in *. exists nn', b', w2, c, c2. assert (c1 = c ++ p) as -> by (destruct Hs as (_ & Hx & _); congruence).
    split; [reflexivity|]. split; [exact En|]. split; [eapply bstep_trans; [|exact Hs]; split; [exact Ho|split; [exact Hc|split; [exact Hn|exact Hfr]]]|].
    assert (calls_good w w') as Hg by (eexists; split; [exact Hcl|constructor; [reflexivity|constructor]]). destruct Hor as [(H1 & H2 & H3 & H4 & H5)|(H1 & (rest & H2) & H3)]; [left|right].
    + split; [exact H1|]. split; [exact H2|]. split; [rewrite H3, Hb; cbn; rewrite app_nil_r; reflexivity|]. split; [rewrite H4; cbn; lia|exact (good_trans _ _ _ Hg H5)].
    + split; [exact H1|]. split; [exists rest; rewrite H2, Hb; cbn; rewrite app_nil_r; reflexivity|exact (good_bad _ _ _ Hg H3)].
Qed.
Lemma buf_write_spec p nn b w c : b_err b = false -> zlen (b_buf b) <= bufSize -> w_files w (b_name b) = Some c -> wrote b w p nn (buf_write 4 p nn b w).
Proof.
  intros He Hl Hc. destruct (Z.le_gt_cases (zlen (b_buf b) + zlen p) bufSize) as [Hf|Hf]; [apply (write_fits _ _ _ _ _ c); assumption|].
  destruct (Z.eqb_spec (zlen (b_buf b)) 0) as [Hz|Hz]; [apply (write_empty _ _ _ _ _ c); [exact He|apply zlen_zero, Hz|exact Hc]|].
  pose proof (zlen_nonneg (b_buf b)) as Hb0.
  assert (buf_write 4 p nn b w = (let k := bufSize - zlen (b_buf b) in let '(b', w') := flush (mkBuf (b_name b) (b_buf b ++ firstn (Z.to_nat k) p) false) w in buf_write 3 (skipn (Z.to_nat k) p) (nn + k) b' w')) as ->.
  { change (buf_write 4 p nn b w) with (if (zlen p >? bufSize - zlen (b_buf b)) && negb (b_err b) then
        if zlen (b_buf b) =? 0 then
          let '(k, failed, w') := os_write (b_name b) p w in buf_write 3 (skipn (Z.to_nat k) p) (nn + k) (mkBuf (b_name b) [] failed) w'
        else
          let k := bufSize - zlen (b_buf b) in let '(b', w') := flush (mkBuf (b_name b) (b_buf b ++ firstn (Z.to_nat k) p) false) w in buf_write 3 (skipn (Z.to_nat k) p) (nn + k) b' w'
      else if b_err b then Some (nn, b, w) else Some (nn + zlen p, mkBuf (b_name b) (b_buf b ++ p) false, w)).
    rewrite He. replace (zlen p >? bufSize - zlen (b_buf b)) with true by lia. replace (zlen (b_buf b) =? 0) with false by lia. reflexivity. }
  set (k := bufSize - zlen (b_buf b)). cbv zeta.
  destruct (flush_spec (mkBuf (b_name b) (b_buf b ++ firstn (Z.to_nat k) p) false) w c eq_refl Hc) as (b1 & w1 & c1 & E & En & Hs & Hor). rewrite E. cbn [b_name b_buf] in *.
  destruct Hor as [(H1 & H2 & H3 & H4)|(H1 & (rest & H2) & H3)].
  - destruct (write_empty 1 (skipn (Z.to_nat k) p) (nn + k) b1 w1 c1 H1 H2 ltac:(rewrite En; apply Hs)) as (nn' & b' & w2 & d1 & d2 & Er & En' & Hs' & Hor). rewrite Er.
    assert (d1 = c1) as -> by (destruct Hs' as (_ & Hx & _), Hs as (_ & _ & Hy & _); rewrite En in Hx; congruence). rewrite En in *.
    assert (length (firstn (Z.to_nat k) p) = Z.to_nat k) as Hfl by (rewrite firstn_length; unfold k, zlen, bufSize in *; lia).
    assert (zlen (skipn (Z.to_nat k) p) = zlen p - k) as Hsl by (unfold zlen; rewrite skipn_length; unfold k, zlen, bufSize in *; lia).
    exists nn', b', w2, c, d2. split; [reflexivity|]. split; [congruence|]. split; [exact (bstep_trans _ _ _ _ _ _ _ Hs Hs')|].
    rewrite H2, H3, app_nil_l in Hor. destruct Hor as [(K1 & K2 & K3 & K4 & K5)|(K1 & (rest & K2) & K3)]; [left|right].
    + split; [exact K1|]. split; [exact K2|]. split; [rewrite K3, <- !app_assoc, firstn_skipn; reflexivity|]. split; [rewrite K4, Hsl; lia|exact (good_trans _ _ _ H4 K5)].
    + split; [exact K1|]. split; [exists rest; rewrite K2, <- !app_assoc, firstn_skipn; reflexivity|exact (good_bad _ _ _ H4 K3)].
  - rewrite (write_failed 2) by exact H1. eexists _, b1, w1, c, c1. split; [reflexivity|]. split; [exact En|]. split; [exact Hs|]. right. split; [exact H1|]. split; [|exact H3].
    exists (rest ++ skipn (Z.to_nat k) p). rewrite app_assoc, H2, <- !app_assoc, firstn_skipn. reflexivity.
Qed.

Lemma out_write_does h p : does h (out_write h p) (zlen p) p.
Proof.
  intros w (b & c & Eb & He & Hl & Hc). unfold WriteFaults.out_write. rewrite Eb. destruct (buf_write_spec p 0 b w c He Hl Hc) as (nn & b' & w' & c0 & c' & -> & En & (Ho & H1 & H2 & H3) & Hor).
  destruct b' as [n' bf' e']. cbn [b_name b_err b_buf] in *. subst n'. destruct Hor as [(-> & K2 & K3 & K4 & K5)|(-> & K2 & K3)]; [left|right].
  - eexists. split; [rewrite K4; reflexivity|]. exists (b_name b), c0, (b_buf b), c', bf'. split; [exists b; cbn; rewrite Ho; split; [exact Eb|auto 10]|]. split; [exact K2|]. split; [exact K3|exact K5].
  - eexists _, _. split; [reflexivity|]. exists (b_name b), c0, (b_buf b), c', bf'. split; [exists b; cbn; rewrite Ho; split; [exact Eb|auto 10]|]. split; [exact K2|exact K3].
Qed.
(* closing: everything is in the file *)
Lemma out_close_spec h w : ready h w ->
  exists n c bf c' bf', (exists w', out_close M h w = (Ret tt, w') /\ step h w w' n c bf (c ++ bf) [] false /\ calls_good w w') \/
    (exists e w', out_close M h w = (Fail e, w') /\ step h w w' n c bf c' bf' true /\ (exists rest, c' ++ rest = c ++ bf) /\ calls_bad w w').
Proof.
  intros (b & c & Eb & He & Hl & Hc). unfold out_close. rewrite Eb. destruct (flush_spec b w c He Hc) as (b' & w' & c' & E & En & (Ho & H1 & H2 & H3) & Hor). rewrite E. destruct b' as [n' bf' e']. cbn [b_name b_err b_buf fst snd] in *. subst n'.
  exists (b_name b), c, (b_buf b), c', bf'. destruct Hor as [(-> & -> & -> & K5)|(-> & K2 & K3)]; [left|right].
  - eexists. split; [reflexivity|]. split; [exists b; cbn; rewrite Ho; split; [exact Eb|auto 10]|exact K5].
  - eexists _, _. split; [reflexivity|]. split; [exists b; cbn; rewrite Ho; split; [exact Eb|auto 10]|]. split; [exact K2|exact K3].
Qed.
End Machine.
