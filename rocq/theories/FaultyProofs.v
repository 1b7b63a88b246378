(** Proofs about the indexer command on a disk that fails. *)
From Coq Require Import String ZifyBool.
From Verif Require Import Base BaseLemmas GoMap Store StoreSpec Compression CompressionProofs Postings Merger CountTrie Float64 Decimal NGram Mph NGramStore GoogleNGram Index IndexSpec IndexProofs IndexProofs2 P_IndexLemmas Analysis Scanner Http NGramIndex CdbDict Paths Config.
From Verif Require Import Indexer Deploy IndexerKill KillProofs2.
From Verif Require Import WriteFaults WriteFaultsProofs WriteFaultsProofs2 WriteFaultsProofs3 FaultyIndexer.
Local Open Scope Z_scope.
Local Notation length := List.length.

(** ** Commit always ends *)
Lemma slice_in {A} (l : list A) i j : 0 <= i <= j -> j <= zlen l -> exists s, slice l i j = Ret s.
Proof. intros H1 H2. unfold slice. replace ((0 <=? i) && (i <=? j) && (j <=? zlen l)) with true by lia. eauto. Qed.
Lemma skip_total l : forall fuel i prev total o, 0 <= i -> (Z.to_nat (zlen l - i) < fuel)%nat -> exists n o', skipEncode_loop fuel skippingGapSize l i prev total o = Ret (n, o').
Proof.
  induction fuel as [|fuel IH]; intros i prev total o Hi Hf; [lia|]. cbn [skipEncode_loop]. destruct (Z.ltb_spec i (zlen l)) as [Hl|Hl]; [|eauto]. cbv zeta.
  set (j := if i + skippingGapSize >? zlen l then zlen l else i + skippingGapSize). assert (i <= j <= zlen l) as Hj by (unfold j, skippingGapSize; destruct (i + 64 >? zlen l) eqn:E; lia).
  destruct (slice_in l i j ltac:(lia) ltac:(lia)) as [s ->]. cbn [bind]. rewrite varIntEncode_ok. cbn [bind]. destruct (index_ok' l i ltac:(lia)) as (x & -> & _). cbn [bind]. unfold WriteUInt16, Write. cbn [bind].
  apply IH; unfold skippingGapSize; lia.
Qed.
Lemma posting_total rb l o : exists n o', encodePosting rb l o = Ret (n, o').
Proof.
  unfold encodePosting. destruct (Z.leb_spec (zlen l) (skippingGapSize + 1)) as [H|H]; [unfold vbEncode; rewrite varIntEncode_ok; eauto|]. destruct (zlen l <=? maxSkippingLen); [|unfold bitmapEncode; eauto].
  unfold skipEncode. replace (zlen l <? skippingGapSize) with false by (unfold skippingGapSize in *; lia). change (skippingGapSize * 5 <? 0) with false. cbv iota. apply skip_total; [lia|unfold zlen; lia].
Qed.
Lemma commit_index_total rb c m : forall pos, exists r, commit_index rb c m pos = Ret r.
Proof.
  induction m as [|[t l] m IH]; intros pos; cbn [commit_index]; [eauto|]. destruct (posting_total rb l []) as (n & w & ->). cbn [bind]. destruct (IH (pos + n)) as [[[ws ds] p] ->]. cbn [bind]. eauto.
Qed.
Lemma commit_indices_total rb ord w : forall c pos, exists r, commit_indices rb ord c w pos = Ret r.
Proof.
  induction w as [|[m|] w IH]; intros c pos; cbn [commit_indices]; [eauto| |apply IH]. destruct (commit_index_total rb c (ord c m) pos) as [[[ws ds] p] ->]. cbn [bind]. destruct (IH (c + 1) p) as [[[ws2 ds2] p2] ->]. cbn [bind]. eauto.
Qed.
Lemma commit_total rb g ord dn hn h w : exists ws ds, Commit rb g ord dn hn h w = Ret (commit_ops dn hn h ws (gob_enc g (mkHeader IndexVersion (wrap32 (zlen w)) ds))).
Proof. unfold Commit. destruct (commit_indices_total rb ord w 0 0) as [[[ws ds] p] ->]. cbn [bind]. exists ws, ds. reflexivity. Qed.

(** ** One commit *)
Section Commit.
Context (M : machine) (pieces : bytes -> list bytes) (Hp : pieces_ok pieces) (rb : roaring) (g : gobcodec) (ord : Z -> index_map -> index_map).
Definition no_files : world := mkWorld (fun _ => None) [] [].
Lemma commit_done dn hn w : dn <> hn ->
  exists ops before after w1 r, Commit rb g ord dn hn 0 w = Ret ops /\ commit_to M pieces rb g ord dn hn w no_files = (r, w1) /\ with_flushes 0 ops (before ++ after) /\
    (forall x, w_files w1 x = fs_open (fs_run NewFSDirectory before) x) /\
    ((r = Ret tt /\ after = [] /\ Forall succeeded (w_calls w1)) \/ ((exists e, r = Fail e) /\ Exists (fun c => ~ succeeded c) (w_calls w1))).
Proof.
  intros Hne. destruct (commit_total rb g ord dn hn 0 w) as (ws & ds & Ec). eexists. destruct (commit_faults M pieces Hp rb g ord dn hn w no_files NewFSDirectory _ Hne Ec ltac:(reflexivity)) as (before & after & w1 & r & E & Hf & Hx & Hr).
  exists before, after, w1, r. split; [exact Ec|]. split; [exact E|]. split; [exact Hf|]. split; [exact Hx|].
  destruct Hr as [(-> & -> & new & En & Hn)|(He & new & En & Hn)]; cbn [no_files w_calls app] in En; rewrite En; [left|right]; auto.
Qed.
Lemma no_docs dn hn w : can_open M dn = false -> commit_to M pieces rb g ord dn hn w no_files = (Fail (ErrWrapped (ErrWrapped (ErrOther 13))), mkWorld (fun _ => None) [] [COpen dn false]).
Proof. intros H. unfold commit_to, ibind, wrap_err, create_output. rewrite H. reflexivity. Qed.
Lemma no_head dn hn w w1 : can_open M hn = false -> commit_to M pieces rb g ord dn hn w no_files <> (Ret tt, w1).
Proof.
  intros H. unfold commit_to, ibind at 1. destruct (wrap_err (create_output M dn) no_files) as [[h| | |] w2]; [|discriminate..]. unfold ibind at 1.
  destruct (commit_indices_to M pieces rb ord h 0 w 0 w2) as [[r| | |] w3]; [|discriminate..]. unfold header_to, ibind, wrap_err, create_output. rewrite H. discriminate.
Qed.
(* what was to be written is a directory of its own *)
Lemma flushed dn hn w ops before : dn <> hn -> Commit rb g ord dn hn 0 w = Ret ops -> with_flushes 0 ops before ->
  exists d h, fs_open (fs_run NewFSDirectory before) dn = Some d /\ fs_open (fs_run NewFSDirectory before) hn = Some h /\ fs_open (fs_run NewFSDirectory ops) dn = Some d /\ fs_open (fs_run NewFSDirectory ops) hn = Some h.
Proof.
  intros Hne Ec Hf. destruct (commit_total rb g ord dn hn 0 w) as (ws & ds & E). rewrite E in Ec. injection Ec as <-. set (hb := gob_enc g (mkHeader IndexVersion (wrap32 (zlen w)) ds)) in *.
  assert (with_flushes 0 (commit_ops dn hn 0 ws hb) (commit_ops dn hn 0 ws hb)) as Hself.
  { destruct Hf as [Hf _]. split; [|intros j n _; lia]. rewrite <- Hf. apply filter_twice. }
  exists (concat ws), hb.
  split; [exact (docs_file dn hn [] ws hb before Hne Hf)|]. split; [exact (header_file dn hn [] ws hb before Hne Hf)|]. split; [exact (docs_file dn hn [] ws hb _ Hne Hself)|exact (header_file dn hn [] ws hb _ Hne Hself)].
Qed.
End Commit.

(** ** The jobs *)
Definition went (e : event) : Prop := match e with ESys _ c => succeeded c | EDict _ ok => ok = true end.
Lemma went_all p cs : Forall succeeded cs -> Forall went (map (fun c => ESys (path_in p (call_name c)) c) cs).
Proof. intros H. induction H; cbn; constructor; auto. Qed.
Lemma went_bad p cs : Exists (fun c => ~ succeeded c) cs -> Exists (fun e => ~ went e) (map (fun c => ESys (path_in p (call_name c)) c) cs).
Proof. intros H. induction H; cbn; [left|right]; auto. Qed.

Section Jobs.
Context (F : faults) (pieces : bytes -> list bytes) (Hp : pieces_ok pieces) (L : cdblib) (rb : roaring) (g : gobcodec) (ord : Z -> index_map -> index_map) (lower : bytes -> bytes) (chunk : nat -> nat) (fuel : nat) (O : outside).
Notation fjob := (faulty_job F pieces L rb g ord lower chunk fuel O).
Notation job := (index_job L rb g ord lower chunk fuel O).
Notation killed := (killed_job L rb g ord lower chunk fuel O).

Lemma merged_after k p w dir : (forall x, w_files w x = fs_open dir x) -> merged k p w = let k1 := match fs_open dir dl with Some b => put k (list_path p) (CText b) | None => k end in match fs_open dir hd with Some b => put k1 (header_path p) (CText b) | None => k1 end.
Proof. intros H. unfold merged. rewrite !H. reflexivity. Qed.

Lemma job_spec k evs d : exists k1 new r, fjob k evs d = (k1, evs ++ new, r) /\
  ((r = Ret tt /\ job k d = (k1, Ret tt) /\ Forall went new) \/
   (r <> Ret tt /\ killed k d k1 /\ ((exists e, r = Fail e) /\ Exists (fun e => ~ went e) new \/ snd (job k d) = r /\ Forall went new))).
Proof.
  unfold faulty_job, index_job. cbv zeta. destruct (d_disc d) eqn:Hd; cbn [negb].
  2: { exists k, [], (Ret tt). rewrite app_nil_r. split; [reflexivity|left]. auto. }
  destruct (k (GetSourcePath (d_place d))) as [src|] eqn:Hsrc.
  2: { exists k, [], (Fail (ErrWrapped (ErrOther 1))). rewrite app_nil_r. split; [reflexivity|right]. split; [discriminate|]. split; [constructor|]. right. auto. }
  assert (k (GetSourcePath (d_place d)) <> None) as Hs by congruence.
  destruct (o_create O (GetDictionaryFile (d_place d))) eqn:Hc; cbn [negb].
  2: { eexists k, [_], _. split; [reflexivity|right]. split; [discriminate|]. split; [constructor|]. left. split; [eexists; reflexivity|left; cbn; discriminate]. }
  destruct (BuildCDBDictionary L chunk fuel (text_at (put k (GetDictionaryFile (d_place d)) CBroken) (GetSourcePath (d_place d)))) as [recs|e| |] eqn:Eb.
  2-4: eexists _, [], _; rewrite app_nil_r; (split; [reflexivity|right]; split; [discriminate|]; split; [apply killed_dictionary; assumption|right; auto]).
  destruct (f_dict F (length evs) (GetDictionaryFile (d_place d))) as [c|].
  { eexists _, [_], _. split; [reflexivity|right]. split; [discriminate|]. split; [apply killed_dictionary; assumption|]. left. split; [eexists; reflexivity|left; cbn; discriminate]. }
  set (k2 := put k (GetDictionaryFile (d_place d)) (CDict recs)). assert (killed k d k2) as Hk2 by (apply killed_dictionary; assumption).
  destruct (o_dir O (GetIndexPath (d_place d))) eqn:Hdir; cbn [negb].
  2: { eexists _, [_], _. split; [reflexivity|right]. split; [discriminate|]. split; [exact Hk2|right]. split; [reflexivity|repeat constructor]. }
  destruct (st <- CdbIterate L (index_step lower (d_conf d)) recs (Ret []) ;; st) as [w|e| |] eqn:Ei.
  2-4: eexists _, [_], _; (split; [reflexivity|right]; split; [discriminate|]; split; [exact Hk2|right]; split; [reflexivity|repeat constructor]).
  unfold commit_on. set (evs2 := evs ++ [EDict (GetDictionaryFile (d_place d)) true]). set (M := machine_at F O evs2 (d_place d)).
  destruct (o_create O (list_path (d_place d))) eqn:Hcl; cbn [negb].
  2: { fold no_files. rewrite (no_docs M pieces rb g ord dl hd w) by exact Hcl. unfold merged. cbn [w_files w_calls map]. unfold evs2. rewrite <- app_assoc. eexists _, _, _. split; [reflexivity|right]. split; [discriminate|]. split; [exact Hk2|]. left.
       split; [eexists; reflexivity|]. right. left. cbn. discriminate. }
  assert (dl <> hd) as Hne by discriminate.
  destruct (commit_done M pieces Hp rb g ord dl hd w Hne) as (ops & before & after & w1 & r & Ec & E & Hf & Hx & Hr). fold no_files. rewrite E, Ec. rewrite (merged_after _ _ _ _ Hx). cbv zeta.
  assert (killed k d (after_ops k2 (d_place d) before)) as Hk3 by (eapply killed_index; eassumption). unfold after_ops in Hk3. cbv zeta in Hk3.
  eexists _, _, r. unfold evs2 at 1. rewrite <- app_assoc. split; [reflexivity|]. destruct Hr as [(-> & -> & Hg)|((e & ->) & Hb)].
  - left. split; [reflexivity|]. rewrite app_nil_r in Hf. destruct (o_create O (header_path (d_place d))) eqn:Hch; cbn [negb]; [|exfalso; exact (no_head M pieces rb g ord dl hd w w1 Hch E)].
    destruct (flushed rb g ord dl hd w ops before Hne Ec Hf) as (b & h & E1 & E2 & E3 & E4). rewrite E1, E2, E3, E4. split; [reflexivity|]. apply Forall_app. split; [repeat constructor|apply went_all, Hg].
  - right. split; [discriminate|]. split; [exact Hk3|]. left. split; [eexists; reflexivity|]. apply Exists_app. right. apply went_bad, Hb.
Qed.

Lemma jobs_spec dict ds : forall k evs b, exists k1 new r, faulty_jobs F pieces L rb g ord lower chunk fuel O dict k evs ds b = (k1, evs ++ new, r) /\
  (((exists b', r = Ret b') /\ index_jobs L rb g ord lower chunk fuel O dict k ds b = (k1, r) /\ Forall went new) \/
   ((forall b', r <> Ret b') /\ killed_jobs L rb g ord lower chunk fuel O dict k ds k1 /\ ((exists e, r = Fail e) /\ Exists (fun e => ~ went e) new \/ snd (index_jobs L rb g ord lower chunk fuel O dict k ds b) = r /\ Forall went new))).
Proof.
  induction ds as [|d ds IH]; intros k evs b; cbn [faulty_jobs index_jobs].
  - exists k, [], (Ret b). rewrite app_nil_r. split; [reflexivity|left]. split; [eauto|auto].
  - destruct (negb (beqb dict []) && negb (beqb dict (p_name (d_place d)))) eqn:Hs.
    + destruct (IH k evs b) as (k1 & new & r & E & Hr). exists k1, new, r. split; [exact E|]. destruct Hr as [Hr|(H1 & H2 & H3)]; [left; exact Hr|right]. split; [exact H1|]. split; [apply kill_skip; assumption|exact H3].
    + destruct (job_spec k evs d) as (k1 & new & r & E & [(-> & Ej & Hw)|(Hne & Hk & Hr)]).
      * rewrite E, Ej. destruct (IH k1 (evs ++ new) true) as (k2 & new2 & r2 & E2 & Hr2). exists k2, (new ++ new2), r2. split; [rewrite app_assoc; exact E2|]. destruct Hr2 as [(H1 & H2 & H3)|(H1 & H2 & H3)]; [left|right].
        -- split; [exact H1|]. split; [exact H2|]. apply Forall_app. auto.
        -- split; [exact H1|]. split; [eapply kill_later; eassumption|]. destruct H3 as [[H3 H4]|[H3 H4]]; [left|right]; (split; [exact H3|]); [apply Exists_app; right; exact H4|apply Forall_app; auto].
      * rewrite E. assert (forall r', snd (job k d) = r' -> (forall u, r' <> Ret u) -> snd (match job k d with (k', Ret _) => index_jobs L rb g ord lower chunk fuel O dict k' ds true | (k', Fail e) => (k', Fail e) | (k', Panic) => (k', Panic) | (k', NoFuel) => (k', NoFuel) end) = match r' with Ret _ => Ret false | Fail e => Fail e | Panic => Panic | NoFuel => NoFuel end) as Hj.
        { intros r' H Hn. destruct (job k d) as [k' r'']. cbn [snd] in H. subst r''. destruct r' as [u| | |]; [exfalso; exact (Hn u eq_refl)|reflexivity..]. }
        destruct r as [[]|e| |]; [contradiction|eexists k1, new, (Fail e)|eexists k1, new, Panic|eexists k1, new, NoFuel]; (split; [reflexivity|right]); (split; [intros b' Hb'; discriminate Hb'|]); (split; [apply kill_in; assumption|]).
        -- destruct Hr as [[_ Hr]|[Hr1 Hr2]]; [left; split; [eexists; reflexivity|exact Hr]|right; split; [exact (Hj _ Hr1 ltac:(discriminate))|exact Hr2]].
        -- destruct Hr as [[(e' & He) Hr]|[Hr1 Hr2]]; [discriminate He|right; split; [exact (Hj _ Hr1 ltac:(discriminate))|exact Hr2]].
        -- destruct Hr as [[(e' & He) Hr]|[Hr1 Hr2]]; [discriminate He|right; split; [exact (Hj _ Hr1 ltac:(discriminate))|exact Hr2]].
Qed.
End Jobs.
