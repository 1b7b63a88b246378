(** Statements of C24-C27. *)
From Coq Require Import String ZifyBool.
From Verif Require Import Base BaseLemmas GoMap Store StoreSpec StoreProofs2 Postings PostingsSpec PostingsDrive
  P_PostingsLemmas Merger MergerSpec MergerProofs P_MergerLemmas Index IndexSpec IndexProofs IndexProofs2.
Local Open Scope Z_scope.

Definition starts_ok (docs : list (Z * list term)) : Prop := match docs with [] => False | d :: _ => snd d <> [] end.

Lemma fold_max_le (docs : list (Z * list term)) b : forall m, m < b -> Forall (fun d => zlen (snd d) + 1 < b) docs ->
  fold_left (fun m d => Z.max m (zlen (snd d) + 1)) docs m < b.
Proof. induction docs as [|d docs IH]; intros m Hm Hf; cbn [fold_left]; [exact Hm|]. inversion_clear Hf. apply IH; [lia|assumption]. Qed.

Lemma written docs rb g ord dn hn k : roaring_ok rb -> roaring_written rb -> order_ok ord -> docs_any docs -> starts_ok docs ->
  Forall (fun d => zlen (snd d) + 1 < 2 ^ 32) docs ->
  exists w ws ds p, add_all [] docs = Ret w /\ WI docs w /\ zlen w < 2 ^ 32 /\
    commit_indices rb ord 0 w 0 = Ret (ws, ds, p) /\ concat ws <> [] /\
    Commit rb g ord dn hn k w = Ret (commit_ops dn hn k ws (gob_enc g (mkHeader IndexVersion (wrap32 (zlen w)) ds))).
Proof.
  intros Hrb Hrw Ho Hd Hs Hl.
  destruct (add_all_ok docs [] [] WI_start) as (w & Ew & HW & Hwl).
  { right. destruct docs; [exact I|exact Hs]. }
  exists w. cbn [app] in HW.
  assert (Forall (fun e : entry => ascending (snd e) /\ snd e <> [] /\ zlen (snd e) < 2 ^ 32) (entries ord 0 w)) as Hf.
  { apply Forall_forall. intros [[c t] l] Hin. apply (entries_are docs w ord HW Ho) in Hin. destruct Hin as (Hc0 & -> & Hne). cbn [snd].
    split; [apply occurrences_ascending; apply Hd|]. split; [exact Hne|]. apply Hd. }
  destruct (commit_entries_ok rb Hrb Hrw _ [] Hf) as (ws & ds & Ec & _ & _). rewrite <- commit_indices_entries in Ec.
  exists ws, ds. eexists. split; [exact Ew|]. split; [exact HW|].
  split; [rewrite Hwl; change (zlen (@nil (option index_map))) with 0; apply fold_max_le; [lia|exact Hl]|].
  split; [exact Ec|]. split.
  - (* the first document's first token has a non-empty list *)
    destruct docs as [|[id ts] docs]; [destruct Hs|]. cbn [starts_ok snd] in Hs. destruct ts as [|t ts]; [congruence|].
    set (docs' := (id, t :: ts) :: docs) in *.
    assert (occurrences docs' (zlen (t :: ts)) t <> []) as Hpne.
    { unfold occurrences, docs'. cbn [flat_map fst snd]. rewrite Z.eqb_refl. unfold token_times at 1. cbn [filter]. rewrite (eqb_refl _ beqb_ok). cbn. discriminate. }
    assert (In (zlen (t :: ts), t, occurrences docs' (zlen (t :: ts)) t) (entries ord 0 w)) as Hin.
    { apply (entries_are docs' w ord HW Ho). split; [apply zlen_nonneg|auto]. }
    intros Ee. clear - Ec Ee Hin Hf Hrb Hrw. rewrite commit_indices_entries in Ec. revert Ec Hin Hf. generalize (entries ord 0 w).
    intros es Ec Hin Hf. destruct (commit_entries_ok rb Hrb Hrw es [] Hf) as (ws' & ds' & Ec' & Hde & _).
    change (zlen (@nil Z)) with 0 in *. rewrite Ec in Ec'. injection Ec' as <- <- _. cbn [app] in Hde.
    rewrite Ee in Hde. specialize (Hde ltac:(vm_compute; reflexivity)). destruct (Forall2_In_l _ _ _ Hde _ Hin) as (d & _ & pre & w0 & post & E0 & _ & Hw0 & _).
    symmetry in E0. apply app_eq_nil in E0. destruct E0 as [_ E0]. apply app_eq_nil in E0. destruct E0 as [E0 _]. contradiction.
  - unfold Commit. change (zlen (@nil Z)) with 0 in Ec. rewrite Ec. reflexivity.
Qed.

Definition index_on (rb : roaring) (g : gobcodec) (open : string -> option bytes) (dn hn : string) (docs : list (Z * list term)) : Prop :=
  exists ix, IndexRead g open dn hn = Ret ix /\ forall c t, index_holds rb ix c t (posting_of docs c t).

Definition index_on_any (rb : roaring) (g : gobcodec) (open : string -> option bytes) (dn hn : string) (docs : list (Z * list term)) : Prop :=
  exists ix, IndexRead g open dn hn = Ret ix /\ forall c t, index_holds_any rb ix c t (occurrences docs c t).
Lemma index_on_strict rb g open dn hn docs : docs_ok docs -> index_on_any rb g open dn hn docs -> index_on rb g open dn hn docs.
Proof.
  intros Hd (ix & E & H). exists ix. split; [exact E|]. intros c t. specialize (H c t). rewrite (occurrences_posting_of docs c t (proj2 (proj2 Hd))) in H.
  apply holds_strict; [apply posting_of_posting; exact Hd|exact H].
Qed.

Section C24_any.
Context (rb : roaring) (g : gobcodec) (ord : Z -> index_map -> index_map) (dn hn : string) (h1 : list dop) (docs : list (Z * list term)).
Hypothesis Hrb : roaring_ok rb.
Hypothesis Hrw : roaring_written rb.
Hypothesis Hg : gob_ok g.
Hypothesis Ho : order_ok ord.
Hypothesis Hd : docs_any docs.
Hypothesis Hs : starts_ok docs.
Hypothesis Hl : Forall (fun d => zlen (snd d) + 1 < 2 ^ 32) docs.
Hypothesis Hne : dn <> hn.
Let k := count_creates h1.

Lemma c24_fs_any : exists w ops, add_all [] docs = Ret w /\ Commit rb g ord dn hn k w = Ret ops /\
  forall ops', with_flushes k ops ops' -> let d := fs_run NewFSDirectory (h1 ++ ops') in
    (forall b, fs_open d dn = Some b -> zlen b < 2 ^ 32) -> index_on_any rb g (fs_input d) dn hn docs.
Proof.
  destruct (written docs rb g ord dn hn k Hrb Hrw Ho Hd Hs Hl) as (w & ws & ds & p & Ew & HW & Hwl & Ec & Hcne & Ecm).
  exists w. eexists. split; [exact Ew|]. split; [exact Ecm|]. intros ops' Hfl d Hsz.
  pose proof (docs_file dn hn h1 ws _ ops' Hne Hfl) as Hdf. pose proof (header_file dn hn h1 ws _ ops' Hne Hfl) as Hhf. fold d in Hdf, Hhf.
  apply (read_any rb g ord docs w ws ds p); auto.
  - unfold fs_input. rewrite Hhf. destruct (Hg (mkHeader IndexVersion (wrap32 (zlen w)) ds)) as [_ Hgn].
    destruct (gob_enc g _) eqn:E; [congruence|reflexivity].
  - unfold fs_input. rewrite Hdf. destruct (concat ws); [congruence|reflexivity].
Qed.
Lemma c24_ram_any : no_create dn h1 -> no_create hn h1 ->
  exists w ops, add_all [] docs = Ret w /\ Commit rb g ord dn hn k w = Ret ops /\
  let d := ram_run NewRAMDirectory (h1 ++ ops) in
    (forall b, ram_open d dn = Some b -> zlen b < 2 ^ 32) -> index_on_any rb g (ram_open d) dn hn docs.
Proof.
  intros Hc1 Hc2.
  destruct (written docs rb g ord dn hn k Hrb Hrw Ho Hd Hs Hl) as (w & ws & ds & p & Ew & HW & Hwl & Ec & Hcne & Ecm).
  exists w. eexists. split; [exact Ew|]. split; [exact Ecm|]. intros d Hsz.
  set (hb := gob_enc g _) in *.
  assert (ram_open d dn = Some (concat ws)) as Hdf.
  { unfold d, commit_ops. rewrite (ram_fresh h1 _ dn k eq_refl Hc1).
    - rewrite writes_to_app, writes_map. cbn [writes_to]. replace (Nat.eqb (S k) k) with false by (symmetry; apply Nat.eqb_neq; lia). rewrite app_nil_r. reflexivity.
    - intros Hi. rewrite in_app_iff, in_map_iff in Hi. cbn [In] in Hi. destruct Hi as [(x & H & _)|[H|[H|[H|[H|[]]]]]]; try discriminate. congruence. }
  assert (ram_open d hn = Some hb) as Hhf.
  { unfold d, commit_ops.
    assert (h1 ++ OCreate dn :: map (OWrite k) ws ++ [OCreate hn; OWrite (S k) hb; OClose (S k); OClose k] =
            (h1 ++ OCreate dn :: map (OWrite k) ws) ++ OCreate hn :: [OWrite (S k) hb; OClose (S k); OClose k]) as -> by (rewrite <- app_assoc; reflexivity).
    rewrite (ram_fresh _ _ hn (S k)).
    - cbn [writes_to]. rewrite Nat.eqb_refl, app_nil_r. reflexivity.
    - rewrite count_creates_app. cbn [count_creates]. rewrite creates_map. unfold k. lia.
    - intros Hi. rewrite in_app_iff in Hi. cbn [In] in Hi. rewrite in_map_iff in Hi. destruct Hi as [Hi|[Hi|(x & H & _)]]; [contradiction|congruence|discriminate].
    - intros Hi. cbn [In] in Hi. destruct Hi as [H|[H|[H|[]]]]; discriminate. }
  apply (read_any rb g ord docs w ws ds p); auto.
Qed.
End C24_any.

Section C24.
Context (rb : roaring) (g : gobcodec) (ord : Z -> index_map -> index_map) (dn hn : string) (h1 : list dop) (docs : list (Z * list term)).
Hypothesis Hrb : roaring_ok rb.
Hypothesis Hrw : roaring_written rb.
Hypothesis Hg : gob_ok g.
Hypothesis Ho : order_ok ord.
Hypothesis Hd : docs_ok docs.
Hypothesis Hs : starts_ok docs.
Hypothesis Hl : Forall (fun d => zlen (snd d) + 1 < 2 ^ 32) docs.
Hypothesis Hn : zlen docs < 2 ^ 32.
Hypothesis Hne : dn <> hn.
Let k := count_creates h1.

Lemma c24_fs : exists w ops, add_all [] docs = Ret w /\ Commit rb g ord dn hn k w = Ret ops /\
  forall ops', with_flushes k ops ops' -> let d := fs_run NewFSDirectory (h1 ++ ops') in
    (forall b, fs_open d dn = Some b -> zlen b < 2 ^ 32) -> index_on rb g (fs_input d) dn hn docs.
Proof.
  destruct (c24_fs_any rb g ord dn hn h1 docs Hrb Hrw Hg Ho (docs_ok_any docs Hd Hn) Hs Hl Hne) as (w & ops & E1 & E2 & H).
  exists w, ops. split; [exact E1|]. split; [exact E2|]. intros ops' Hf d Hz. apply index_on_strict; [exact Hd|]. exact (H ops' Hf Hz).
Qed.
Lemma c24_ram : no_create dn h1 -> no_create hn h1 ->
  exists w ops, add_all [] docs = Ret w /\ Commit rb g ord dn hn k w = Ret ops /\
  let d := ram_run NewRAMDirectory (h1 ++ ops) in
    (forall b, ram_open d dn = Some b -> zlen b < 2 ^ 32) -> index_on rb g (ram_open d) dn hn docs.
Proof.
  intros Hc1 Hc2. destruct (c24_ram_any rb g ord dn hn h1 docs Hrb Hrw Hg Ho (docs_ok_any docs Hd Hn) Hs Hl Hne Hc1 Hc2) as (w & ops & E1 & E2 & H).
  exists w, ops. split; [exact E1|]. split; [exact E2|]. intros d Hz. apply index_on_strict; [exact Hd|]. exact (H Hz).
Qed.
End C24.

(** ** Crash: file contents are always a prefix of what was written *)

(* every handle has a created name *)
Lemma handle_created h : forall j n, handle_name h j = Some n -> In (OCreate n) h.
Proof.
  induction h as [|o h IH]; intros j n H; cbn [handle_name] in H; [discriminate|]. destruct o; try (right; apply (IH j n H)).
  destruct j; [injection H as ->; left; reflexivity|right; apply (IH j n H)].
Qed.
Lemma fs_flush_none d h k c n : (forall j f, nth_error (fs_handles d) j = Some f -> fh_name f <> n) -> fs_files (fs_flush d h k c) n = fs_files d n.
Proof.
  intros H. unfold fs_flush. destruct (nth_error (fs_handles d) h) as [f|] eqn:E; [|reflexivity]. specialize (H h f E).
  destruct (fh_open f); [|reflexivity]. destruct (fs_files d (fh_name f)) as [b|]; [|reflexivity]. cbn [fs_files].
  destruct (firstn k (fh_pend f)); [reflexivity|]. apply fset_ne. congruence.
Qed.
Lemma fs_none n h : no_create n h -> fs_open (fs_run NewFSDirectory h) n = None.
Proof.
  unfold fs_open. induction h as [|o h IH] using rev_ind; intros Hc; [reflexivity|].
  pose proof (fs_run_inv h) as [[Hl Hn] Hf].
  assert (no_create n h) as Hc' by (intros H; apply Hc, in_app_iff; auto). specialize (IH Hc').
  unfold fs_run in *. rewrite fold_left_app. cbn [fold_left]. set (d := fold_left fs_step h NewFSDirectory) in *.
  assert (forall j f, nth_error (fs_handles d) j = Some f -> fh_name f <> n) as Hnn.
  { intros j f Ej E. specialize (Hn j). rewrite Ej in Hn. cbn in Hn. rewrite E in Hn. apply Hc'. apply (handle_created h j n). congruence. }
  destruct o as [m|j p|j m|j]; cbn [fs_step].
  - cbn [fs_files]. rewrite fset_ne; [exact IH|]. intros ->. apply Hc, in_app_iff. right. left. reflexivity.
  - destruct (nth_error (fs_handles d) j); cbn [fs_files]; exact IH.
  - rewrite fs_flush_none by exact Hnn. exact IH.
  - destruct (nth_error (fs_handles d) j); [|exact IH]. rewrite fs_flush_none by exact Hnn. exact IH.
Qed.

Definition grows (d : fsdir) (n : string) (k : nat) (w : bytes) : Prop :=
  exists b f, fs_files d n = Some b /\ nth_error (fs_handles d) k = Some f /\ fh_name f = n /\
    (fh_open f = true /\ fh_off f = length b /\ b ++ fh_pend f = w \/ fh_open f = false /\ exists r, w = b ++ r).
Lemma fs_grows h1 n h2 : no_create n h1 -> no_create n h2 ->
  grows (fs_run NewFSDirectory (h1 ++ OCreate n :: h2)) n (count_creates h1) (writes_to (count_creates h1) h2).
Proof.
  intros Hc1. set (k := count_creates h1). induction h2 as [|o h2 IH] using rev_ind; intros Hc2.
  - unfold fs_run. rewrite fold_left_app. cbn [fold_left]. fold (fs_run NewFSDirectory h1).
    pose proof (fs_run_inv h1) as [[Hl _] _]. exists [], (mkFh n 0 [] true). cbn [fs_step fs_files fs_handles fh_name fh_open fh_off fh_pend].
    rewrite fset_eq. split; [reflexivity|]. split; [rewrite nth_error_app2 by (unfold k; lia); unfold k; rewrite Hl, Nat.sub_diag; reflexivity|].
    split; [reflexivity|]. left. auto.
  - assert (no_create n h2) as Hc2' by (intros H; apply Hc2, in_app_iff; auto). specialize (IH Hc2').
    pose proof (fs_run_inv (h1 ++ OCreate n :: h2)) as [[Hl Hn] Hf].
    assert (h1 ++ OCreate n :: h2 ++ [o] = (h1 ++ OCreate n :: h2) ++ [o]) as -> by (rewrite <- app_assoc; reflexivity).
    unfold fs_run in *. rewrite fold_left_app. cbn [fold_left]. set (d := fold_left fs_step (h1 ++ OCreate n :: h2) NewFSDirectory) in *.
    rewrite writes_to_app. destruct IH as (b & f & Hb & Hfk & Hfn & Hst).
    assert (o <> OCreate n) as Hoc by (intros ->; apply Hc2, in_app_iff; right; left; reflexivity).
    assert (forall j, j <> k -> option_map fh_name (nth_error (fs_handles d) j) <> Some n) as Hoth.
    { intros j Hj E. rewrite Hn in E. rewrite handle_name_app in E. fold k in E. destruct (Nat.ltb_spec j k) as [Hlt|Hge].
      - apply handle_created in E. contradiction.
      - destruct (j - k)%nat as [|i] eqn:Ei; [lia|]. cbn [handle_name] in E. apply handle_created in E. contradiction. }
    destruct (op_handle o) as [j|] eqn:Ej; [destruct (Nat.eq_dec j k) as [->|Hjk]|].
    + destruct o as [m|j p|j m|j]; cbn in Ej; try discriminate; injection Ej as ->; cbn [fs_step writes_to].
      * rewrite Hfk, Nat.eqb_refl, app_nil_r. exists b. eexists. cbn [fs_files fs_handles]. split; [exact Hb|].
        split; [apply nth_error_set_nth; apply nth_error_Some; congruence|]. cbn [fh_name fh_open fh_off fh_pend]. split; [exact Hfn|].
        destruct Hst as [(H1 & H2 & H3)|(H1 & r & H3)]; [left|right].
        -- split; [exact H1|]. split; [exact H2|]. rewrite <- H3, app_assoc. reflexivity.
        -- split; [exact H1|]. exists (r ++ p). rewrite H3, app_assoc. reflexivity.
      * rewrite app_nil_r. unfold fs_flush. rewrite Hfk. destruct Hst as [(H1 & H2 & H3)|(H1 & r & H3)]; rewrite H1.
        -- rewrite Hfn, Hb. exists (b ++ firstn m (fh_pend f)). eexists. cbn [fs_files fs_handles negb]. split.
           { destruct (firstn m (fh_pend f)) eqn:Em; [rewrite app_nil_r; exact Hb|]. rewrite fset_eq, H2, pwrite_end. reflexivity. }
           split; [apply nth_error_set_nth; apply nth_error_Some; congruence|]. cbn [fh_name fh_open fh_off fh_pend]. split; [reflexivity|]. left.
           split; [reflexivity|]. rewrite app_length, <- app_assoc, firstn_skipn. split; [lia|exact H3].
        -- exists b, f. repeat split; eauto.
      * rewrite app_nil_r. rewrite Hfk. unfold fs_flush. rewrite Hfk. destruct Hst as [(H1 & H2 & H3)|(H1 & r & H3)]; rewrite H1.
        -- rewrite Hfn, Hb, firstn_all. exists (b ++ fh_pend f). eexists. cbn [fs_files fs_handles negb]. split.
           { destruct (fh_pend f) eqn:Em; [rewrite app_nil_r; exact Hb|]. rewrite fset_eq, H2, pwrite_end. reflexivity. }
           split; [apply nth_error_set_nth; apply nth_error_Some; congruence|]. cbn [fh_name fh_open fh_off fh_pend]. split; [reflexivity|]. right.
           split; [reflexivity|]. exists []. rewrite app_nil_r. congruence.
        -- exists b, f. repeat split; eauto.
    + destruct (fs_step_other d o n k Hoc) as [E1 E2].
      { intros j' Hj'. rewrite Ej in Hj'. injection Hj' as <-. auto. }
      assert (writes_to k [o] = []) as ->.
      { destruct o; cbn in Ej |- *; try discriminate; try reflexivity. injection Ej as ->. apply Nat.eqb_neq in Hjk. rewrite Hjk. reflexivity. }
      rewrite app_nil_r. exists b, f. rewrite E1, E2; [auto|]. apply nth_error_Some; congruence.
    + destruct (fs_step_other d o n k Hoc) as [E1 E2]; [intros; congruence|].
      assert (writes_to k [o] = []) as -> by (destruct o; cbn in Ej |- *; try discriminate; reflexivity).
      rewrite app_nil_r. exists b, f. rewrite E1, E2; [auto|]. apply nth_error_Some; congruence.
Qed.
Lemma fs_prefix h1 n h2 : no_create n h1 -> no_create n h2 ->
  exists b r, fs_open (fs_run NewFSDirectory (h1 ++ OCreate n :: h2)) n = Some b /\ writes_to (count_creates h1) h2 = b ++ r.
Proof.
  intros H1 H2. destruct (fs_grows h1 n h2 H1 H2) as (b & f & Hb & _ & _ & [(_ & _ & H)|(_ & r & H)]); exists b; eauto.
Qed.

Lemma prefix_cases {A} (x : A) : forall l1 l2 P Q, l1 ++ l2 = P ++ x :: Q ->
  (exists m, P = l1 ++ m) \/ (exists m, l1 = P ++ x :: m /\ Q = m ++ l2).
Proof.
  induction l1 as [|y l1 IH]; intros l2 P Q E.
  - left. exists P. reflexivity.
  - destruct P as [|z P]; cbn [app] in E; injection E as -> E.
    + right. exists l1. auto.
    + destruct (IH l2 P Q E) as [(m & ->)|(m & -> & ->)]; [left; exists m; reflexivity|right; exists m; auto].
Qed.
Lemma no_create_nf n h : no_create n (filter nf h) -> no_create n h.
Proof. intros H Hi. apply H. apply (In_nf (OCreate n) h); [reflexivity|exact Hi]. Qed.
Lemma no_create_app n a b : no_create n a -> no_create n b -> no_create n (a ++ b).
Proof. intros Ha Hb Hi. apply in_app_iff in Hi. destruct Hi; auto. Qed.
Lemma no_create_pre n a b : no_create n (a ++ b) -> no_create n a.
Proof. intros H Hi. apply H, in_app_iff. auto. Qed.

Lemma c27_any rb g ord dn hn h1 docs : roaring_ok rb -> roaring_written rb -> gob_ok g -> gob_prefix_fails g -> order_ok ord ->
  docs_any docs -> starts_ok docs -> Forall (fun d => zlen (snd d) + 1 < 2 ^ 32) docs -> dn <> hn ->
  no_create dn h1 -> no_create hn h1 ->
  let k := count_creates h1 in
  exists w ops, add_all [] docs = Ret w /\ Commit rb g ord dn hn k w = Ret ops /\
  (zlen (writes_to k ops) < 2 ^ 32 ->
   forall ops' before after, with_flushes k ops ops' -> ops' = before ++ after ->
   match IndexRead g (fs_input (fs_run NewFSDirectory (h1 ++ before))) dn hn with
   | Ret ix => forall c t, holds_or_errs_any rb ix c t (occurrences docs c t)
   | Fail _ => True
   | _ => False
   end).
Proof.
  intros Hrb Hrw Hg Hgp Ho Hd Hs Hl Hne Hc1 Hc2 k.
  destruct (written docs rb g ord dn hn k Hrb Hrw Ho Hd Hs Hl) as (w & ws & ds & p & Ew & HW & Hwl & Ec & Hcne & Ecm).
  exists w. eexists. split; [exact Ew|]. split; [exact Ecm|].
  set (hd := mkHeader IndexVersion (wrap32 (zlen w)) ds) in *. unfold commit_ops.
  cbn [writes_to]. rewrite writes_to_app, writes_map. cbn [writes_to]. replace (Nat.eqb (S k) k) with false by (symmetry; apply Nat.eqb_neq; lia).
  rewrite app_nil_r. intros Hsz ops' before after [Hf _] Eops. change (fun o => negb (is_flush o)) with nf in Hf.
  set (d := fs_run NewFSDirectory (h1 ++ before)).
  (* the header *)
  assert (fs_open d hn = None \/ exists b r, fs_open d hn = Some b /\ gob_enc g hd = b ++ r) as Hhead.
  { change (OCreate dn :: map (OWrite k) ws ++ [OCreate hn; OWrite (S k) (gob_enc g hd); OClose (S k); OClose k])
      with ((OCreate dn :: map (OWrite k) ws) ++ OCreate hn :: [OWrite (S k) (gob_enc g hd); OClose (S k); OClose k]) in Hf.
    destruct (filter_split nf ops' _ _ Hf) as (a & b & Eab & Ha & Hb).
    destruct (filter_cons_split nf b _ _ Hb) as (f1 & tl & -> & Hf1 & Htl).
    assert (no_create hn (a ++ f1)) as Hnc.
    { apply no_create_nf. rewrite filter_app, Ha, Hf1, app_nil_r. intros Hi. cbn [In] in Hi. rewrite in_map_iff in Hi.
      destruct Hi as [Hi|(x & Hi & _)]; [congruence|discriminate]. }
    assert (no_create hn tl) as Hnc2.
    { apply no_create_nf. rewrite Htl. intros Hi. cbn [In] in Hi. destruct Hi as [Hi|[Hi|[Hi|[]]]]; discriminate. }
    rewrite Eops in Eab. rewrite app_assoc in Eab. destruct (prefix_cases _ _ _ _ _ Eab) as [(m & Em)|(m & -> & Em)].
    - left. apply fs_none. apply no_create_app; [exact Hc2|]. rewrite Em in Hnc. apply no_create_pre in Hnc. exact Hnc.
    - right. unfold d. rewrite app_assoc.
      destruct (fs_prefix (h1 ++ a ++ f1) hn m) as (b & r & Hb0 & Hw).
      + apply no_create_app; assumption.
      + rewrite Em in Hnc2. apply no_create_pre in Hnc2. exact Hnc2.
      + assert (count_creates (h1 ++ a ++ f1) = S k) as Ek.
        { rewrite !count_creates_app, (count_creates_nf a), (count_creates_nf f1), Ha, Hf1. cbn [count_creates]. rewrite creates_map. unfold k. lia. }
        rewrite Ek in Hw. exists b.
        assert (writes_to (S k) tl = gob_enc g hd) as Hfull.
        { rewrite writes_to_nf, Htl. cbn [writes_to]. rewrite Nat.eqb_refl, app_nil_r. reflexivity. }
        rewrite Em, writes_to_app, Hw in Hfull. exists (r ++ writes_to (S k) after). split; [exact Hb0|]. rewrite <- Hfull, app_assoc. reflexivity. }
  assert (fs_open d dn = None \/ exists b r, fs_open d dn = Some b /\ concat ws = b ++ r) as Hdocs.
  { destruct (filter_cons_split nf ops' _ _ Hf) as (f1 & tl & Eab & Hf1 & Htl).
    assert (no_create dn f1) as Hnc by (apply no_create_nf; rewrite Hf1; intros []).
    assert (no_create dn tl) as Hnc2.
    { apply no_create_nf. rewrite Htl. intros Hi. rewrite in_app_iff, in_map_iff in Hi. cbn [In] in Hi.
      destruct Hi as [(x & Hi & _)|[Hi|[Hi|[Hi|[Hi|[]]]]]]; try discriminate. congruence. }
    rewrite Eops in Eab. destruct (prefix_cases _ _ _ _ _ Eab) as [(m & Em)|(m & -> & Em)].
    - left. apply fs_none. apply no_create_app; [exact Hc1|]. rewrite Em in Hnc. apply no_create_pre in Hnc. exact Hnc.
    - right. unfold d. rewrite app_assoc.
      destruct (fs_prefix (h1 ++ f1) dn m) as (b & r & Hb0 & Hw).
      + apply no_create_app; assumption.
      + rewrite Em in Hnc2. apply no_create_pre in Hnc2. exact Hnc2.
      + assert (count_creates (h1 ++ f1) = k) as Ek by (rewrite !count_creates_app, (count_creates_nf f1), Hf1; cbn; unfold k; lia).
        rewrite Ek in Hw. exists b.
        assert (writes_to k tl = concat ws) as Hfull.
        { rewrite writes_to_nf, Htl, writes_to_app, writes_map. cbn [writes_to].
          replace (Nat.eqb (S k) k) with false by (symmetry; apply Nat.eqb_neq; lia). apply app_nil_r. }
        rewrite Em, writes_to_app, Hw in Hfull. exists (r ++ writes_to k after). split; [exact Hb0|]. rewrite <- Hfull, app_assoc. reflexivity. }
  assert (IndexRead g (fs_input d) dn hn = Fail (ErrOther 10) \/ IndexRead g (fs_input d) dn hn = Fail (ErrOther 11) \/
          fs_input d hn = Some (gob_enc g hd)) as [H|[H|Hh]].
  { unfold IndexRead, fs_input at 1 3 5. destruct Hhead as [->|(b & r & -> & Eb)]; [auto|]. destruct b as [|b0 b]; [auto|].
    destruct r as [|r0 r]; [rewrite app_nil_r in Eb; rewrite Eb; auto|]. right. left. rewrite (Hgp hd (b0 :: b) (r0 :: r) Eb); [reflexivity|discriminate]. }
  { rewrite H. exact I. }
  { rewrite H. exact I. }
  assert (fs_input d dn = None \/ exists b r, fs_input d dn = Some b /\ concat ws = b ++ r) as [Hdi|(cut & rest & Hdi & Hcut)].
  { unfold fs_input. destruct Hdocs as [->|(b & r & -> & Eb)]; [auto|]. destruct b; [auto|eauto]. }
  - unfold IndexRead. rewrite Hh. destruct (Hg hd) as [-> _]. unfold hd. cbn [h_version]. rewrite (eqb_refl _ beqb_ok). cbn [negb].
    rewrite Hdi. exact I.
  - destruct (read_cut_any rb g ord docs w ws ds p (fs_input d) dn hn cut rest Hrb Hrw Hg Ho Hd HW Hwl Ec Hh Hcut Hdi Hsz) as (ix & -> & Hix).
    intros c t. specialize (Hix c t). destruct rest; [left; exact Hix|exact Hix].
Qed.
Lemma c27_partial rb g ord dn hn h1 docs : roaring_ok rb -> roaring_written rb -> gob_ok g -> gob_prefix_fails g -> order_ok ord ->
  docs_ok docs -> starts_ok docs -> Forall (fun d => zlen (snd d) + 1 < 2 ^ 32) docs -> zlen docs < 2 ^ 32 -> dn <> hn ->
  no_create dn h1 -> no_create hn h1 ->
  let k := count_creates h1 in
  exists w ops, add_all [] docs = Ret w /\ Commit rb g ord dn hn k w = Ret ops /\
  (zlen (writes_to k ops) < 2 ^ 32 ->
   forall ops' before after, with_flushes k ops ops' -> ops' = before ++ after ->
   match IndexRead g (fs_input (fs_run NewFSDirectory (h1 ++ before))) dn hn with
   | Ret ix => forall c t, holds_or_errs rb ix c t (posting_of docs c t)
   | Fail _ => True
   | _ => False
   end).
Proof.
  intros Hrb Hrw Hg Hgp Ho Hd Hs Hl Hn Hne Hc1 Hc2 k.
  destruct (c27_any rb g ord dn hn h1 docs Hrb Hrw Hg Hgp Ho (docs_ok_any docs Hd Hn) Hs Hl Hne Hc1 Hc2) as (w & ops & E1 & E2 & H).
  exists w, ops. split; [exact E1|]. split; [exact E2|]. intros Hz ops' before after Hf E. specialize (H Hz ops' before after Hf E).
  destruct (IndexRead g _ dn hn) as [ix|e| |]; try exact H. intros c t. specialize (H c t). pose proof (posting_of_posting docs c t Hd) as Hp.
  rewrite (occurrences_posting_of docs c t (proj2 (proj2 Hd))) in H. destruct H as [H|H]; [left; exact (holds_strict _ _ _ _ _ Hp H)|right; exact H].
Qed.

(** ** Search *)
Definition holds_iv (rb : roaring) (iv : inverted) (t : term) (l : list Z) : Prop :=
  (l = [] -> IndexHas iv t = false /\ IndexGet iv t = Ret None) /\
  (l <> [] -> IndexHas iv t = true /\
     exists r it, IndexGet iv t = Ret (Some (zlen l, r)) /\ openPosting rb r (zlen l) = Ret it /\ stands_for it l).
Definition ne (l : list Z) : bool := match l with [] => false | _ => true end.
Section Search.
Context (rb : roaring) (iv : inverted) (P : term -> list Z).
Lemma filterTerms_ok terms : forall T k, (forall t, In t terms -> holds_iv rb iv t (P t)) ->
  filterTerms iv terms T k = filter (fun t => ne (P t)) terms \/
  (k + zlen (filterTerms iv terms T k) < T /\ k + zlen (filter (fun t => ne (P t)) terms) < T).
Proof.
  induction terms as [|t ts IH]; intros T k H; cbn [filterTerms filter]; [auto|].
  assert (zlen (filter (fun t => ne (P t)) (t :: ts)) <= zlen (t :: ts)) as Hle.
  { unfold zlen. enough (length (filter (fun t => ne (P t)) (t :: ts)) <= length (t :: ts))%nat by lia.
    clear. induction (t :: ts) as [|x l IH]; cbn; [lia|]. destruct (ne (P x)); cbn; lia. }
  assert (IndexHas iv t = ne (P t)) as Eh.
  { destruct (H t (or_introl eq_refl)) as [H1 H2]. destruct (P t); [apply H1; reflexivity|apply H2; discriminate]. }
  rewrite Eh. destruct (k + zlen (t :: ts) >=? T) eqn:E.
  - assert (forall t0, In t0 ts -> holds_iv rb iv t0 (P t0)) as H' by (intros; apply H; right; assumption).
    destruct (ne (P t)).
    + destruct (IH T (k + 1) H') as [->|[H1 H2]]; [auto|]. right. rewrite !zlen_cons. lia.
    + destruct (IH T k H') as [->|[H1 H2]]; auto.
  - right. cbn [filter] in Hle. split; [|lia]. change (zlen (@nil term)) with 0. pose proof (zlen_nonneg (filter (fun t0 => ne (P t0)) (t :: ts))).
    cbn [filter] in H0. lia.
Qed.
Lemma open_lists_ok terms : (forall t, In t terms -> holds_iv rb iv t (P t)) -> Forall (fun t => P t <> []) terms ->
  exists its, open_lists rb iv terms = Ret its /\ lists its (map P terms).
Proof.
  induction terms as [|t ts IH]; intros H Hne; cbn [open_lists map]; [exists []; split; [reflexivity|constructor]|].
  inversion_clear Hne. destruct IH as (its & Ei & Hl); auto.
  { intros; apply H; right; assumption. }
  destruct (H t (or_introl eq_refl)) as [_ H3]. destruct (H3 H0) as (_ & r & it & Eg & Eo & Hs). rewrite Eg, Eo, Ei.
  exists (it :: its). split; [reflexivity|constructor; assumption].
Qed.
End Search.
Lemma count_filter_ne x ls : count x (filter ne ls) = count x ls.
Proof.
  unfold count. f_equal. induction ls as [|l ls IH]; [reflexivity|]. destruct l as [|y l]; cbn [filter ne existsb]; [exact IH|].
  destruct (existsb (Z.eqb x) (y :: l)); cbn [existsb] in *; destruct ((x =? y) || existsb (Z.eqb x) l); rewrite ?IH; reflexivity.
Qed.
Lemma is_answer_ne ls T cs : is_answer (filter ne ls) T cs <-> is_answer ls T cs.
Proof. unfold is_answer. setoid_rewrite count_filter_ne. reflexivity. Qed.
Lemma filter_map_ne {A} (P : A -> list Z) l : map P (filter (fun t => ne (P t)) l) = filter ne (map P l).
Proof. induction l as [|x l IH]; [reflexivity|]. cbn [filter map]. destruct (ne (P x)); cbn [map]; rewrite IH; reflexivity. Qed.

Lemma c26 {St} (collect : St -> Z -> option err * St) srt rb iv P terms T s :
  sorter_ok srt -> (forall t, In t terms -> holds_iv rb iv t (P t)) -> zlen terms <= 65535 -> 1 <= T ->
  exists cs, is_answer (map P terms) T cs /\
    Search rb (CPMerge collect srt) iv terms T s =
      wrapped (if T <? zlen (filter (fun t => ne (P t)) terms) then wrapped (feed collect cs s) else feed collect cs s).
Proof.
  intros Hsrt H Hn HT. set (F := filter (fun t => ne (P t)) terms).
  assert (zlen F <= zlen terms) as HF.
  { unfold zlen, F. enough (length (filter (fun t => ne (P t)) terms) <= length terms)%nat by lia.
    clear. induction terms as [|x l IH]; cbn; [lia|]. destruct (ne (P x)); cbn; lia. }
  unfold Search. destruct (filterTerms_ok rb iv P terms T 0 H) as [->|[H1 H2]]; fold F.
  - destruct (zlen F <? T) eqn:E.
    + exists []. split; [|replace (T <? zlen F) with false by lia; reflexivity].
      apply is_answer_ne. rewrite <- filter_map_ne. fold F. apply answer_nil. left. unfold zlen in *. rewrite map_length. lia.
    + destruct (open_lists_ok rb iv P F) as (its & Eo & Hl).
      { intros t Hi. apply H. apply filter_In in Hi. apply Hi. }
      { apply Forall_forall. intros t Hi. apply filter_In in Hi. destruct (P t); [destruct Hi; discriminate|discriminate]. }
      rewrite Eo. destruct (c16 collect srt Hsrt its (map P F) T s Hl) as (cs & Ha & Em).
      * unfold nonempty. apply Forall_forall. intros l Hi. apply in_map_iff in Hi. destruct Hi as (t & <- & Hi). apply filter_In in Hi.
        destruct (P t); [destruct Hi; discriminate|discriminate].
      * unfold zlen in *. rewrite map_length. lia.
      * exact HT.
      * exists cs. split; [apply is_answer_ne; rewrite <- filter_map_ne; exact Ha|]. rewrite Em.
        assert (zlen (map P F) = zlen F) as -> by (unfold zlen; rewrite map_length; reflexivity).
        unfold wrapped. destruct (T <? zlen F); cbn [fst snd]; destruct (feed collect cs s) as [[]?]; reflexivity.
  - assert (0 <= zlen F) by apply zlen_nonneg. fold F in H2.
    replace (zlen (filterTerms iv terms T 0) <? T) with true by lia.
    exists []. split; [|replace (T <? zlen F) with false by lia; reflexivity].
    apply is_answer_ne. rewrite <- filter_map_ne. fold F. apply answer_nil. left. unfold zlen in *. rewrite map_length. lia.
Qed.

(** ** C25 *)
Lemma AddDocument_total w id ts : w <> [] \/ ts <> [] -> exists w', AddDocument w id ts = Ret w' /\ w' <> [].
Proof.
  intros Hne. unfold AddDocument. set (c := zlen ts). pose proof (zlen_nonneg ts : 0 <= c) as Hc.
  assert (exists w1, (if zlen w <=? c then if c * 2 <? c + 1 then Panic else Ret (w ++ repeat None (Z.to_nat (c + 1 - zlen w))) else Ret w)
            = Ret w1 /\ c < zlen w1) as (w1 & -> & Hl).
  { destruct (zlen w <=? c) eqn:E.
    - assert (c <> 0) as Hc0.
      { intros E0. destruct Hne as [Hw|Ht].
        - destruct w; [congruence|]. rewrite zlen_cons in E. pose proof (zlen_nonneg w). lia.
        - destruct ts; [congruence|]. unfold c in E0. rewrite zlen_cons in E0. pose proof (zlen_nonneg ts). lia. }
      replace (c * 2 <? c + 1) with false by lia. eexists. split; [reflexivity|].
      rewrite zlen_app. unfold zlen at 2. rewrite repeat_length. lia.
    - exists w. split; [reflexivity|lia]. }
  cbn [bind]. destruct (index_ok' w1 c ltac:(lia)) as (o & Ei & _). rewrite Ei. cbn [bind].
  eexists. split; [reflexivity|]. intros E0. apply (f_equal (@length _)) in E0. rewrite set_nth_opt_length in E0. unfold zlen in Hl. cbn in E0. lia.
Qed.
Lemma add_all_nonempty docs : forall w, w <> [] -> exists w', add_all w docs = Ret w'.
Proof.
  induction docs as [|[id ts] docs IH]; intros w Hw; cbn [add_all]; [eauto|].
  destruct (AddDocument_total w id ts (or_introl Hw)) as (w' & -> & Hw'). cbn [bind]. apply IH. exact Hw'.
Qed.
Lemma add_all_total docs :
  (exists w, add_all [] docs = Ret w) /\ ~ (exists id ds, docs = (id, []) :: ds) \/
  add_all [] docs = Panic /\ exists id ds, docs = (id, []) :: ds.
Proof.
  destruct docs as [|[id ts] docs].
  - left. split; [eexists; reflexivity|]. intros (? & ? & E). discriminate.
  - destruct ts as [|t ts].
    + right. split; [reflexivity|eauto].
    + left. split; [|intros (? & ? & E); discriminate]. cbn [add_all].
      destruct (AddDocument_total [] id (t :: ts)) as (w' & -> & Hw'); [right; discriminate|]. cbn [bind]. apply add_all_nonempty. exact Hw'.
Qed.
Lemma no_tokens_unfound docs1 id docs2 c t : posting_of (docs1 ++ (id, []) :: docs2) c t = posting_of (docs1 ++ docs2) c t.
Proof. unfold posting_of. rewrite !filter_app, !map_app. cbn [filter snd existsb]. rewrite andb_false_r. reflexivity. Qed.

(** ** C26 in terms of documents *)
Lemma posting_of_In docs c t x : In x (posting_of docs c t) <-> exists ts, In (x, ts) docs /\ zlen ts = c /\ existsb (beqb t) ts = true.
Proof.
  unfold posting_of. rewrite in_map_iff. split.
  - intros ([y ts] & <- & H). apply filter_In in H. destruct H as [H E]. cbn [snd fst] in *. exists ts. apply andb_prop in E. split; [exact H|]. split; [lia|apply E].
  - intros (ts & H & Hc & E). exists (x, ts). split; [reflexivity|]. apply filter_In. split; [exact H|]. cbn [snd]. rewrite E. lia.
Qed.
Lemma docs_unique docs x ts ts' : docs_ok docs -> In (x, ts) docs -> In (x, ts') docs -> ts = ts'.
Proof.
  intros (Hs & _ & _). induction docs as [|d docs IH]; intros H H'; [destruct H|]. cbn [map] in Hs. inversion_clear Hs.
  rewrite Forall_forall in H1. destruct H as [->|H], H' as [E|H'].
  - congruence.
  - apply (in_map fst) in H'. apply H1 in H'. cbn in H'. lia.
  - subst d. apply (in_map fst) in H. apply H1 in H. cbn in H. lia.
  - apply IH; assumption.
Qed.
Lemma count_docs docs c terms x ts : docs_ok docs -> In (x, ts) docs -> zlen ts = c ->
  count x (map (posting_of docs c) terms) = zlen (filter (fun t => existsb (beqb t) ts) terms).
Proof.
  intros Hd Hin Hc. unfold count. induction terms as [|t terms IH]; [reflexivity|]. cbn [map filter].
  assert (existsb (Z.eqb x) (posting_of docs c t) = existsb (beqb t) ts) as ->.
  { apply Bool.eq_iff_eq_true. rewrite existsb_exists. split.
    - intros (y & Hy & E). apply Z.eqb_eq in E. subst y. apply posting_of_In in Hy. destruct Hy as (ts' & H1 & _ & H2).
      rewrite (docs_unique docs x ts ts' Hd Hin H1). exact H2.
    - intros E. exists x. split; [|apply Z.eqb_refl]. apply posting_of_In. exists ts. auto. }
  destruct (existsb (beqb t) ts); rewrite ?zlen_cons, IH; reflexivity.
Qed.
Lemma count_none docs c terms x : (forall ts, In (x, ts) docs -> zlen ts <> c) -> count x (map (posting_of docs c) terms) = 0.
Proof.
  intros H. unfold count. induction terms as [|t terms IH]; [reflexivity|]. cbn [map filter].
  destruct (existsb (Z.eqb x) (posting_of docs c t)) eqn:E; [|exact IH]. apply existsb_exists in E. destruct E as (y & Hy & E). apply Z.eqb_eq in E. subst y.
  apply posting_of_In in Hy. destruct Hy as (ts & H1 & H2 & _). destruct (H ts H1 H2).
Qed.
Lemma c26_docs {St} (collect : St -> Z -> option err * St) srt rb ix c iv docs terms T s :
  sorter_ok srt -> docs_ok docs -> IndicesGet ix c = Some iv ->
  (forall t, index_holds rb ix c t (posting_of docs c t)) -> zlen terms <= 65535 -> 1 <= T ->
  exists cs, StronglySorted (fun a b => fst a < fst b) cs /\
    (forall x n, In (x, n) cs <->
       T <= n /\ exists ts, In (x, ts) docs /\ zlen ts = c /\ n = zlen (filter (fun t => existsb (beqb t) ts) terms)) /\
    exists e, (e = feed collect cs s \/ e = wrapped (feed collect cs s)) /\
      Search rb (CPMerge collect srt) iv terms T s = wrapped e.
Proof.
  intros H1 Hd H2 H3 H4 H5.
  destruct (c26 collect srt rb iv (posting_of docs c) terms T s H1) as (cs & [Hs Ha] & Es); auto.
  { intros t _. specialize (H3 t). unfold index_holds in H3. rewrite H2 in H3. exact H3. }
  exists cs. split; [exact Hs|]. split.
  - intros x n. rewrite Ha. split.
    + intros (-> & Hn & HT). split; [exact HT|].
      assert (count x (map (posting_of docs c) terms) <> 0) as Hnz by lia.
      assert (exists ts, In (x, ts) docs /\ zlen ts = c) as (ts & Hin & Hc).
      { clear - Hnz. unfold count in Hnz. induction terms as [|t terms IH]; [destruct (Hnz eq_refl)|]. cbn [map filter] in Hnz.
        destruct (existsb (Z.eqb x) (posting_of docs c t)) eqn:E; [|apply IH; exact Hnz]. apply existsb_exists in E. destruct E as (y & Hy & E). apply Z.eqb_eq in E. subst y.
        apply posting_of_In in Hy. destruct Hy as (ts & H1 & H2 & _). eauto. }
      exists ts. split; [exact Hin|]. split; [exact Hc|]. apply count_docs; assumption.
    + intros (HT & ts & Hin & Hc & ->). rewrite (count_docs docs c terms x ts Hd Hin Hc). lia.
  - eexists. split; [|exact Es]. destruct (T <? _); auto.
Qed.

(** ** C27 counterexample *)
Lemma c27_refuted rb g ord : gob_ok g -> order_ok ord ->
  exists old new ops1 ops2 before after ix iv r it,
    old = [(1, [bs "a"])] /\ new = [(2, [bs "b"])] /\
    (exists w, add_all [] old = Ret w /\ Commit rb g ord "d" "h" 0 w = Ret ops1) /\
    (exists w ops, add_all [] new = Ret w /\ Commit rb g ord "d" "h" 2 w = Ret ops /\ with_flushes 2 ops ops2) /\
    ops2 = before ++ after /\
    IndexRead g (fs_input (fs_run NewFSDirectory (ops1 ++ before))) "d" "h" = Ret ix /\
    IndicesGet ix 1 = Some iv /\ IndexGet iv (bs "a") = Ret (Some (1, r)) /\ openPosting rb r 1 = Ret it /\
    iter_run it [CGet; CLen] = [AVal (Ret 2); ALen 1] /\
    posting_of old 1 (bs "a") = [1] /\ posting_of new 1 (bs "a") = [].
Proof.
  intros Hg Ho.
  assert (forall t l, ord 1 [(t, l)] = [(t, l)]) as Eo.
  { intros t l. pose proof (Ho 1 [(t, l)]) as H. apply Permutation_length_1_inv in H. exact H. }
  set (H1 := mkHeader IndexVersion 2 [mkDesc (bs "a") 1 1 0 1]). set (H2 := mkHeader IndexVersion 2 [mkDesc (bs "b") 1 1 0 1]).
  set (ops1 := commit_ops "d" "h" 0 [[1]] (gob_enc g H1)).
  set (before := [OCreate "d"%string; OWrite 2 [2]; OFlush 2 1]). set (after := [OCreate "h"%string; OWrite 3 (gob_enc g H2); OClose 3; OClose 2]).
  exists [(1, [bs "a"])], [(2, [bs "b"])], ops1, (before ++ after), before, after.
  exists [None; Some (mkInv [2] [(bs "a", (1, 0, 1))])], (mkInv [2] [(bs "a", (1, 0, 1))]), (NewBytesInput [2]).
  eexists. split; [reflexivity|]. split; [reflexivity|]. split.
  { exists [None; Some [(bs "a", [1])]]. split; [reflexivity|]. unfold Commit. cbn [commit_indices]. change (0 + 1) with 1. rewrite Eo.
    vm_compute (commit_index _ _ _ _). reflexivity. }
  split.
  { exists [None; Some [(bs "b", [2])]], (commit_ops "d" "h" 2 [[2]] (gob_enc g H2)). split; [reflexivity|]. split.
    - unfold Commit. cbn [commit_indices]. change (0 + 1) with 1. rewrite Eo. vm_compute (commit_index _ _ _ _). reflexivity.
    - split; [reflexivity|]. intros j n Hi. cbn in Hi. repeat destruct Hi as [Hi|Hi]; try discriminate; [injection Hi; lia|destruct Hi]. }
  split; [reflexivity|]. split.
  { assert (with_flushes (count_creates []) (commit_ops "d" "h" (count_creates []) [[1]] (gob_enc g H1)) ops1) as Hfl.
    { split; [reflexivity|]. intros j n Hi. cbn in Hi. intuition discriminate. }
    pose proof (header_file "d" "h" [] [[1]] (gob_enc g H1) ops1 ltac:(discriminate) Hfl) as Hh. cbn [app] in Hh.
    set (d1 := fs_run NewFSDirectory ops1) in *.
    assert (length (fs_handles d1) = 2%nat) as Hlen.
    { pose proof (fs_run_inv ops1) as [[Hl _] _]. exact Hl. }
    assert (fs_open (fs_run NewFSDirectory (ops1 ++ before)) "h" = Some (gob_enc g H1) /\ fs_open (fs_run NewFSDirectory (ops1 ++ before)) "d" = Some [2]) as [E1 E2].
    { unfold fs_run. rewrite fold_left_app. fold (fs_run NewFSDirectory ops1). fold d1. unfold before. cbn [fold_left].
      destruct (fs_handles d1) as [|x [|y [|z l]]] eqn:Ed; try discriminate.
      unfold fs_open in *. cbn [fs_step]. rewrite Ed. cbn [app fs_handles fs_files nth_error set_nth fh_name fh_off fh_pend fh_open fs_flush].
      unfold fs_flush. cbn [fs_handles fs_files nth_error fh_open fh_name fh_pend fh_off app firstn]. rewrite fset_eq. cbn [fs_files].
      split; [|apply fset_eq]. rewrite !fset_ne by discriminate. exact Hh. }
    unfold IndexRead, fs_input. rewrite E1, E2. destruct (Hg H1) as [Hdec Hne]. destruct (gob_enc g H1) as [|b hb]; [congruence|]. rewrite Hdec. reflexivity. }
  split; [reflexivity|]. split; [vm_compute; reflexivity|]. split; [vm_compute; reflexivity|]. split; [vm_compute; reflexivity|]. split; reflexivity.
Qed.

(** ** Instances of the contracts *)
Lemma rb4_written : roaring_written rb4.
Proof. intros [|x l] _ H; [congruence|]. cbn. discriminate. Qed.
(* a length-prefixed serialisation of headers *)
Definition ser_str (b : bytes) : bytes := zlen b :: b.
Definition ser_desc (d : desc) : bytes := ser_str (d_term d) ++ [d_indice d; d_size d; d_pos d; d_len d].
Definition ser (h : header) : bytes := ser_str (h_version h) ++ [h_indices h] ++ zlen (h_terms h) :: concat (map ser_desc (h_terms h)).
Definition par_str (b : bytes) : option (bytes * bytes) :=
  match b with n :: r => Some (firstn (Z.to_nat n) r, skipn (Z.to_nat n) r) | [] => None end.
Fixpoint par_descs (n : nat) (b : bytes) : option (list desc) :=
  match n with
  | O => Some []
  | S n' => match par_str b with
            | Some (t, i :: s :: p :: l :: r) => option_map (cons (mkDesc t i s p l)) (par_descs n' r)
            | _ => None
            end
  end.
Definition gob1 : gobcodec := mkGob (fun h => zlen (ser h) :: ser h)
  (fun b => match b with
            | n :: r => if n =? zlen r then
                match par_str r with
                | Some (v, i :: n :: r) => option_map (mkHeader v i) (par_descs (Z.to_nat n) r)
                | _ => None
                end else None
            | [] => None
            end).
Lemma par_ser_str b r : par_str (ser_str b ++ r) = Some (b, r).
Proof.
  unfold ser_str. cbn [app par_str]. unfold zlen. rewrite Nat2Z.id, firstn_app, skipn_app, Nat.sub_diag, firstn_all, skipn_all. cbn [firstn skipn app].
  rewrite app_nil_r. reflexivity.
Qed.
Lemma par_ser_descs ds : par_descs (length ds) (concat (map ser_desc ds)) = Some ds.
Proof.
  induction ds as [|d ds IH]; [reflexivity|]. cbn [length map concat par_descs]. unfold ser_desc at 1. rewrite <- app_assoc, par_ser_str. cbn [app].
  rewrite IH. destruct d; reflexivity.
Qed.
Lemma gob1_ok : gob_ok gob1.
Proof.
  intros h. split; [|discriminate]. cbn [gob_dec gob_enc gob1]. rewrite Z.eqb_refl. unfold ser. rewrite par_ser_str. cbn [app].
  unfold zlen. rewrite Nat2Z.id, par_ser_descs. destruct h; reflexivity.
Qed.
Lemma gob1_prefix : gob_prefix_fails gob1.
Proof.
  intros h [|n p] s E Hs; [reflexivity|]. cbn [gob_enc gob1 app] in E. injection E as <- E. cbn [gob_dec gob1].
  rewrite E, zlen_app. destruct s; [congruence|]. rewrite zlen_cons. pose proof (zlen_nonneg s). replace (_ =? zlen p) with false by lia. reflexivity.
Qed.
