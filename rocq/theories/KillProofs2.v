(** Lemmas for C97: what a killed indexer leaves. *)
From Coq Require Import String ZifyBool Permutation Sorted Lia.
From Verif Require Import Base BaseLemmas GoMap Store StoreSpec StoreProofs Postings PostingsSpec PostingsDrive P_PostingsLemmas Merger MergerSpec P_MergerLemmas Index IndexSpec IndexProofs IndexProofs2 P_IndexLemmas Text Analysis Decimal Scanner ScannerSpec
  Mph Float64 Metric FloatProofs MetricFloat TopK Suggest SuggestSpec P_Suggest Autocomplete AutocompleteSpec Http HttpSpec P_Http NGramIndex NGramIndexSpec NGramIndexProofs P_NGramIndex NGramIndexAnySpec NGramIndexAny CdbDict CdbDictSpec P_Cdb Paths PathsSpec Indexer IndexerSpec P_Indexer IndexerKill KillProofs1.
Local Open Scope Z_scope.
Local Notation length := List.length.

Section Frame.
Context (L : cdblib) (rb : roaring) (g : gobcodec) (ord : Z -> index_map -> index_map) (lower : bytes -> bytes) (chunk : nat -> nat) (fuel : nat) (O : outside).
Notation job := (index_job L rb g ord lower chunk fuel O).
Notation jobs := (index_jobs L rb g ord lower chunk fuel O).
Notation killed := (killed_job L rb g ord lower chunk fuel O).
Lemma after_other k p ops x : x <> list_path p -> x <> header_path p -> after_ops k p ops x = k x.
Proof. intros H1 H2. unfold after_ops. cbv zeta. destruct (fs_open _ hd), (fs_open _ dl); rewrite ?put_other by assumption; reflexivity. Qed.
Lemma killed_frame k d k1 path : killed k d k1 -> (d_disc d = true -> ~ In path (files_of d)) -> k1 path = k path.
Proof.
  intros Hk H. destruct Hk as [|c Hd _ _|recs w ops before after Hd _ _ _ _ _ _ _ _]; [reflexivity| |]; specialize (H Hd); unfold files_of, index_files in H;
    assert (path <> GetDictionaryFile (d_place d) /\ path <> header_path (d_place d) /\ path <> list_path (d_place d)) as (H1 & H2 & H3) by (repeat split; intros ->; apply H; cbn; tauto).
  - apply put_other, H1.
  - rewrite after_other by assumption. apply put_other, H1.
Qed.
Lemma killed_jobs_frame dict k ds k1 : killed_jobs L rb g ord lower chunk fuel O dict k ds k1 -> forall path, (forall d, In d (on_disc (selected dict ds)) -> ~ In path (files_of d)) -> k1 path = k path.
Proof.
  induction 1 as [k ds|k d ds k1 Hs Hk IH|k d ds k1 Hs Hk|k d ds k' k1 Hs Ej Hk IH]; intros path H; [reflexivity| | |].
  - apply IH. intros d' Hd'. apply H. unfold selected. cbn [filter]. replace (beqb dict [] || beqb dict (p_name (d_place d))) with false by (destruct (beqb dict []), (beqb dict (p_name (d_place d))); cbn in Hs |- *; congruence). exact Hd'.
  - apply (killed_frame k d k1 path Hk). intros Hd. apply H. unfold selected. cbn [filter]. replace (beqb dict [] || beqb dict (p_name (d_place d))) with true by (destruct (beqb dict []), (beqb dict (p_name (d_place d))); cbn in Hs |- *; congruence). apply on_disc_in. split; [left; reflexivity|exact Hd].
  - rewrite IH.
    + replace k' with (fst (job k d)) by (rewrite Ej; reflexivity). apply job_frame. intros Hd. apply H. unfold selected. cbn [filter]. replace (beqb dict [] || beqb dict (p_name (d_place d))) with true by (destruct (beqb dict []), (beqb dict (p_name (d_place d))); cbn in Hs |- *; congruence). apply on_disc_in. split; [left; reflexivity|exact Hd].
    + intros d' Hd'. apply H. unfold selected. cbn [filter]. replace (beqb dict [] || beqb dict (p_name (d_place d))) with true by (destruct (beqb dict []), (beqb dict (p_name (d_place d))); cbn in Hs |- *; congruence). apply on_disc_in in Hd'. apply on_disc_in. split; [right|]; apply Hd'.
Qed.
Lemma again_job k k1 d k' : index_job L rb g ord lower chunk fuel O k d = (k', Ret tt) -> d_disc d = true -> ~ In (source_of d) (files_of d) -> k1 (source_of d) = k (source_of d) ->
  exists k1', job k1 d = (k1', Ret tt) /\ forall p, In p (files_of d) -> k1' p = k' p.
Proof.
  intros E Hd Hs Hk. unfold index_job in *. cbv zeta in *. rewrite Hd in *. cbn [negb] in *. change (GetSourcePath (d_place d)) with (source_of d) in *. rewrite Hk.
  destruct (k (source_of d)) as [c|] eqn:Ec; [|discriminate E]. destruct (o_create O (GetDictionaryFile (d_place d))); cbn [negb] in *; [|discriminate E].
  assert (forall k0 : disk, text_at (put k0 (GetDictionaryFile (d_place d)) CBroken) (source_of d) = text_at k0 (source_of d)) as Ht. { intros k0. unfold text_at. rewrite put_other; [reflexivity|]. intros Ex. apply Hs. rewrite Ex. left. reflexivity. }
  rewrite Ht in *. assert (text_at k1 (source_of d) = text_at k (source_of d)) as -> by (unfold text_at; rewrite Hk, Ec; reflexivity).
  destruct (BuildCDBDictionary L chunk fuel (text_at k (source_of d))) as [recs|e| |]; try discriminate E. destruct (o_dir O (GetIndexPath (d_place d))); cbn [negb] in *; [|discriminate E].
  destruct (st <- CdbIterate L (index_step lower (d_conf d)) recs (Ret []) ;; st) as [w|e| |]; try discriminate E. destruct (o_create O (list_path (d_place d))); cbn [negb] in *; [|discriminate E].
  destruct (Commit rb g ord dl hd 0 w) as [ops|e| |]; try discriminate E. destruct (o_create O (header_path (d_place d))); cbn [negb] in *; [|discriminate E]. injection E as <-.
  eexists. split; [reflexivity|]. intros p Hp. unfold put. destruct (beqb p (header_path (d_place d))) eqn:E1; [reflexivity|]. destruct (beqb p (list_path (d_place d))) eqn:E2; [reflexivity|]. destruct (beqb p (GetDictionaryFile (d_place d))) eqn:E3; [reflexivity|].
  exfalso. unfold files_of, index_files in Hp. cbn in Hp. destruct Hp as [<-|[<-|[<-|[]]]]; rewrite (eqb_refl _ beqb_ok) in *; discriminate.
Qed.
Lemma again_jobs ds : forall k k1 b k' b', jobs [] k ds b = (k', Ret b') -> (forall p, (forall d, In d (on_disc ds) -> ~ In p (files_of d)) -> k1 p = k p) ->
  (forall d d', In d (on_disc ds) -> In d' (on_disc ds) -> ~ In (source_of d) (files_of d')) ->
  exists k1', jobs [] k1 ds b = (k1', Ret b') /\ forall p, k1' p = k' p.
Proof.
  induction ds as [|d ds IH]; intros k k1 b k' b' E Hk Hs.
  - cbn [index_jobs] in *. injection E as <- <-. exists k1. split; [reflexivity|]. intros p. apply Hk. intros d [].
  - cbn [index_jobs] in *. rewrite (eqb_refl _ beqb_ok) in *. cbn [negb andb] in *. destruct (job k d) as [k2 [u|e| |]] eqn:Ej; try discriminate E. destruct u.
    assert (forall d0 d', In d0 (on_disc ds) -> In d' (on_disc ds) -> ~ In (source_of d0) (files_of d')) as Hs'.
    { intros d0 d' H0 H1. apply Hs; apply on_disc_in; apply on_disc_in in H0; apply on_disc_in in H1; (split; [right|]; tauto). }
    destruct (d_disc d) eqn:Hd.
    + assert (In d (on_disc (d :: ds))) as Hin by (apply on_disc_in; split; [left; reflexivity|exact Hd]).
      destruct (again_job k k1 d k2 Ej Hd (Hs d d Hin Hin) ltac:(apply Hk; intros d' Hd'; apply Hs; assumption)) as (k3 & E3 & H3). rewrite E3. apply (IH k2 k3 true k' b' E); [|exact Hs'].
      intros p Hp. destruct (in_dec (list_eq_dec Z.eq_dec) p (files_of d)) as [Hi|Hi]; [apply H3, Hi|].
      replace k3 with (fst (job k1 d)) by (rewrite E3; reflexivity). replace k2 with (fst (job k d)) by (rewrite Ej; reflexivity). rewrite !job_frame by (intros _; exact Hi). apply Hk.
      intros d' Hd'. unfold on_disc in Hd'. cbn [filter] in Hd'. rewrite Hd in Hd'. destruct Hd' as [<-|Hd']; [exact Hi|apply Hp, Hd'].
    + unfold index_job in Ej |- *. cbv zeta in *. rewrite Hd in *. cbn [negb] in *. injection Ej as <-. apply (IH k k1 true k' b' E); [|exact Hs'].
      intros p Hp. apply Hk. intros d' Hd'. apply Hp. unfold on_disc in *. cbn [filter] in Hd'. rewrite Hd in Hd'. exact Hd'.
Qed.
Lemma again_indexer pidPath host ds k k1 k' notes : indexer L rb g ord lower chunk fuel O [] pidPath host (Ret ds) k = (k', notes, Ret tt) ->
  (forall p, (forall d, In d (on_disc ds) -> ~ In p (files_of d)) -> k1 p = k p) -> (forall d d', In d (on_disc ds) -> In d' (on_disc ds) -> ~ In (source_of d) (files_of d')) ->
  exists k1', indexer L rb g ord lower chunk fuel O [] pidPath host (Ret ds) k1 = (k1', notes, Ret tt) /\ forall p, k1' p = k' p.
Proof.
  intros E Hk Hs. unfold indexer in *. destruct (jobs [] k ds false) as [k2 [b|e| |]] eqn:Ej; try discriminate E. destruct (again_jobs ds k k1 false k2 b Ej Hk Hs) as (k3 & E3 & H3). rewrite E3.
  destruct b; [|injection E as <- <-; exists k3; auto].
  assert (send_signal O k3 pidPath = send_signal O k2 pidPath) as Hsig by (unfold send_signal, text_at; rewrite H3; reflexivity). rewrite Hsig.
  destruct (if beqb pidPath [] then _ else _) as [n1 r1]. destruct r1 as [u|e| |]; [|discriminate E..]. destruct (if beqb host [] then _ else _) as [n2 r2]. injection E as <- <- ->. exists k3. auto.
Qed.
End Frame.

(** ** The files of an index in the midst of the commit *)
Lemma commit_cut dn hn ws hb before after : dn <> hn -> with_flushes 0 (commit_ops dn hn 0 ws hb) (before ++ after) ->
  let d := fs_run NewFSDirectory before in
  (fs_open d hn = None \/ exists b r, fs_open d hn = Some b /\ hb = b ++ r) /\ (fs_open d dn = None \/ exists b r, fs_open d dn = Some b /\ concat ws = b ++ r).
Proof.
  intros Hne [Hf _] d. change (fun o => negb (is_flush o)) with nf in Hf. unfold commit_ops in Hf. split.
  - change (OCreate dn :: map (OWrite 0) ws ++ [OCreate hn; OWrite 1 hb; OClose 1; OClose 0]) with ((OCreate dn :: map (OWrite 0) ws) ++ OCreate hn :: [OWrite 1 hb; OClose 1; OClose 0]) in Hf.
    destruct (filter_split nf (before ++ after) _ _ Hf) as (a & b & Eab & Ha & Hb). destruct (filter_cons_split nf b _ _ Hb) as (f1 & tl & -> & Hf1 & Htl).
    assert (no_create hn (a ++ f1)) as Hnc. { apply no_create_nf. rewrite filter_app, Ha, Hf1, app_nil_r. intros Hi. cbn [In] in Hi. rewrite in_map_iff in Hi. destruct Hi as [Hi|(x & Hi & _)]; [congruence|discriminate]. }
    assert (no_create hn tl) as Hnc2. { apply no_create_nf. rewrite Htl. intros Hi. cbn [In] in Hi. destruct Hi as [Hi|[Hi|[Hi|[]]]]; discriminate. }
    rewrite app_assoc in Eab. destruct (prefix_cases _ _ _ _ _ Eab) as [(m & Em)|(m & -> & Em)].
    + left. apply fs_none. rewrite Em in Hnc. apply no_create_pre in Hnc. exact Hnc.
    + right. destruct (fs_prefix (a ++ f1) hn m) as (b & r & Hb0 & Hw); [exact Hnc|rewrite Em in Hnc2; apply no_create_pre in Hnc2; exact Hnc2|].
      assert (count_creates (a ++ f1) = 1%nat) as Ek. { rewrite !count_creates_app, (count_creates_nf a), (count_creates_nf f1), Ha, Hf1. cbn [count_creates]. rewrite creates_map. reflexivity. }
      rewrite Ek in Hw. exists b. assert (writes_to 1 tl = hb) as Hfull. { rewrite writes_to_nf, Htl. cbn [writes_to Nat.eqb]. apply app_nil_r. }
      rewrite Em, writes_to_app, Hw in Hfull. exists (r ++ writes_to 1 after). split; [exact Hb0|]. rewrite <- Hfull, app_assoc. reflexivity.
  - destruct (filter_cons_split nf (before ++ after) _ _ Hf) as (f1 & tl & Eab & Hf1 & Htl).
    assert (no_create dn f1) as Hnc by (apply no_create_nf; rewrite Hf1; intros []).
    assert (no_create dn tl) as Hnc2. { apply no_create_nf. rewrite Htl. intros Hi. rewrite in_app_iff, in_map_iff in Hi. cbn [In] in Hi. destruct Hi as [(x & Hi & _)|[Hi|[Hi|[Hi|[Hi|[]]]]]]; try discriminate. congruence. }
    destruct (prefix_cases _ _ _ _ _ Eab) as [(m & Em)|(m & -> & Em)].
    + left. apply fs_none. rewrite Em in Hnc. apply no_create_pre in Hnc. exact Hnc.
    + right. destruct (fs_prefix f1 dn m) as (b & r & Hb0 & Hw); [exact Hnc|rewrite Em in Hnc2; apply no_create_pre in Hnc2; exact Hnc2|].
      assert (count_creates f1 = 0%nat) as Ek by (rewrite (count_creates_nf f1), Hf1; reflexivity). rewrite Ek in Hw. exists b.
      assert (writes_to 0 tl = concat ws) as Hfull. { rewrite writes_to_nf, Htl, writes_to_app, writes_map. cbn [writes_to Nat.eqb]. apply app_nil_r. }
      rewrite Em, writes_to_app, Hw in Hfull. exists (r ++ writes_to 0 after). split; [exact Hb0|]. rewrite <- Hfull, app_assoc. reflexivity.
Qed.

(** ** The first deployment *)
Lemma filter_twice {A} (f : A -> bool) l : filter f (filter f l) = filter f l.
Proof. induction l as [|o l IH]; [reflexivity|]. cbn [filter]. destruct (f o) eqn:E; [cbn [filter]; rewrite E, IH; reflexivity|exact IH]. Qed.
Section First.
Context (L : cdblib) (rb : roaring) (g : gobcodec) (ord : Z -> index_map -> index_map) (lowr : Z -> Z) (chunk : nat -> nat) (fuel : nat) (O : outside).
Notation lower := (ToLower lowr).
Notation job := (index_job L rb g ord lower chunk fuel O).
Notation killed := (killed_job L rb g ord lower chunk fuel O).
Context (HL : cdb_ok L) (Hrb : roaring_ok rb) (Hrw : roaring_written rb) (Hg : gob_ok g) (Hgp : gob_prefix_fails g) (Ho : order_ok ord).
(* what is opened: nothing, or the dictionary with a beginning of its index *)
Definition partly (k1 : disk) (d : description) (words : list bytes) : Prop :=
  (exists e, open_disc g k1 d = Fail e) \/
  exists recs ix1 ix, open_disc g k1 d = Ret (recs, ix1) /\ cut_of ix1 ix /\ index_built rb g ord "" lowr (d_conf d) words ix /\ forall key, is_u32 key -> CdbGet L recs key = Ret (DictGet words key).
Lemma no_header k1 d : k1 (header_path (d_place d)) = None -> exists e, open_disc g k1 d = Fail e.
Proof.
  intros H. unfold open_disc. cbv zeta. destruct (k1 (GetDictionaryFile (d_place d))) as [[b|recs|]|]; eauto. unfold IndexRead. change (String.eqb hd dl) with false. cbv iota. unfold text_at. rewrite H. cbn [bind]. eauto.
Qed.
Lemma served_partly k1 d words : serves L rb g ord lowr k1 d words -> partly k1 d words.
Proof.
  intros (recs & ix & E & Hb & Hget). destruct (open_disc g k1 d) as [[recs' ix']|e| |] eqn:Eo; try discriminate. injection E as -> ->. right. exists recs, ix, ix. split; [exact Eo|]. split; [|split; assumption].
  unfold open_disc in Eo. cbv zeta in Eo. destruct (k1 (GetDictionaryFile (d_place d))) as [[b|recs0|]|]; try discriminate. unfold IndexRead in Eo.
  match type of Eo with (bind (match ?a with _ => _ end) _) = _ => destruct a as [hb|]; [|discriminate Eo] end. destruct (gob_dec g hb) as [h|]; [|discriminate Eo]. destruct (negb _); [discriminate Eo|].
  match type of Eo with (bind (match ?a with _ => _ end) _) = _ => destruct a as [docs|]; [|discriminate Eo] end. destruct (build_tables (h_terms h) _) as [tabs|e| |]; try discriminate Eo. cbn [bind] in Eo. injection Eo as _ <-.
  exists tabs, docs, []. rewrite app_nil_r. auto.
Qed.
Lemma read_header open dn hn h : open hn = Some (gob_enc g h) -> beqb (h_version h) IndexVersion = true -> forall docs, open dn = Some docs ->
  IndexRead g open dn hn = tabs <- build_tables (h_terms h) (repeat None (Z.to_nat (h_indices h))) ;; Ret (map (option_map (mkInv docs)) tabs).
Proof. intros E Hv docs Ed. unfold IndexRead. rewrite E. destruct (Hg h) as [-> _]. rewrite Hv. cbn [negb]. rewrite Ed. reflexivity. Qed.
Definition disk_open (k : disk) (p : place) (n : string) : option bytes := match (if String.eqb n dl then text_at k (list_path p) else text_at k (header_path p)) with [] => None | b => Some b end.
Lemma job_partly k d words k1 : d_disc d = true -> ~ In (source_of d) (files_of d) -> good_source rb g ord lowr fuel (text_at k (source_of d)) d words -> writable O d ->
  (forall p, In p (files_of d) -> k p = None) -> killed k d k1 -> partly k1 d words.
Proof.
  intros Hd Hsrc Hgood Hw Hnone Hk. destruct (job_good L rb g ord lowr chunk fuel O HL Hrb Hrw Hg Ho k d words Hd Hsrc Hgood) as [Hserve Hret]. specialize (Hret Hw). specialize (Hserve Hret).
  destruct (own_files (d_place d)) as (N1 & N2 & N3).
  assert (In (header_path (d_place d)) (files_of d)) as Hh by (cbn; tauto).
  assert (In (list_path (d_place d)) (files_of d)) as Hl by (cbn; tauto).
  destruct Hk as [|c _ _ _|recs w ops before after _ Hs Hc1 Eb Hdir Ei Hc2 Ec Hfl].
  - left. apply no_header, Hnone, Hh.
  - left. apply no_header. rewrite put_other by (intros E; congruence). apply Hnone, Hh.
  - assert (exists k2, job k d = (k2, Ret tt) /\ k2 (GetDictionaryFile (d_place d)) = Some (CDict recs) /\ k2 (list_path (d_place d)) = Some (match fs_open (fs_run NewFSDirectory ops) dl with Some b => CText b | None => CBroken end) /\
        k2 (header_path (d_place d)) = Some (match fs_open (fs_run NewFSDirectory ops) hd with Some b => CText b | None => CBroken end)) as (k2 & Ej & F1 & F2 & F3).
    { unfold index_job. cbv zeta. rewrite Hd, Hc1. cbn [negb]. destruct (k (GetSourcePath (d_place d))); [|contradiction]. rewrite Eb, Hdir, Hc2. cbn [negb]. rewrite Ei, Ec. destruct Hw as [Hw _]. rewrite (Hw _ Hh). cbn [negb]. eexists. split; [reflexivity|].
      rewrite !put_other by congruence. rewrite !put_same. split; [reflexivity|]. split; [|reflexivity]. rewrite put_other by congruence. apply put_same. }
    rewrite Ej in Hserve. cbn [fst] in Hserve. destruct Hserve as (recs' & ix & Eo & Hb & Hget).
    unfold Commit in Ec. destruct (commit_indices rb ord 0 w 0) as [[[ws ds] pos]|e| |]; try discriminate Ec. cbn [bind] in Ec. injection Ec as Ec. set (h := mkHeader IndexVersion (wrap32 (zlen w)) ds) in *.
    change (OCreate dl :: map (OWrite 0) ws ++ [OCreate hd; OWrite 1 (gob_enc g h); OClose 1; OClose 0] = ops) with (commit_ops dl hd 0 ws (gob_enc g h) = ops) in Ec. subst ops.
    assert (dl <> hd) as Hne by discriminate.
    assert (with_flushes 0 (commit_ops dl hd 0 ws (gob_enc g h)) (commit_ops dl hd 0 ws (gob_enc g h))) as Hself.
    { destruct Hfl as [Hf _]. split; [|intros j n _; lia]. rewrite <- Hf. apply filter_twice. }
    pose proof (docs_file dl hd [] ws (gob_enc g h) (commit_ops dl hd 0 ws (gob_enc g h)) Hne Hself) as Fd. pose proof (header_file dl hd [] ws (gob_enc g h) (commit_ops dl hd 0 ws (gob_enc g h)) Hne Hself) as Fh. cbn [app] in Fd, Fh. rewrite Fd in F2. rewrite Fh in F3.
    destruct (commit_cut dl hd ws (gob_enc g h) before after Hne Hfl) as [Ch Cd]. set (dir := fs_run NewFSDirectory before) in *. set (k1 := after_ops (put k (GetDictionaryFile (d_place d)) (CDict recs)) (d_place d) before).
    assert (k1 (header_path (d_place d)) = match fs_open dir hd with Some b => Some (CText b) | None => None end) as K3.
    { unfold k1, after_ops. cbv zeta. fold dir. destruct (fs_open dir hd) as [b|]; [apply put_same|]. destruct (fs_open dir dl); rewrite ?put_other by congruence; apply Hnone, Hh. }
    assert (k1 (list_path (d_place d)) = match fs_open dir dl with Some b => Some (CText b) | None => None end) as K2.
    { unfold k1, after_ops. cbv zeta. fold dir. destruct (fs_open dir hd) as [b|]; rewrite ?(put_other _ (header_path _)) by congruence; (destruct (fs_open dir dl); [apply put_same|]; rewrite ?put_other by congruence; apply Hnone, Hl). }
    assert (k1 (GetDictionaryFile (d_place d)) = Some (CDict recs)) as K1 by (unfold k1; rewrite after_other by congruence; apply put_same).
    destruct Ch as [Ch|(hb & hr & Ch & Eh)]; [left; apply no_header; rewrite K3, Ch; reflexivity|]. rewrite Ch in K3.
    assert (forall k0 : disk, k0 (GetDictionaryFile (d_place d)) = Some (CDict recs) -> open_disc g k0 d = ix <- IndexRead g (disk_open k0 (d_place d)) dl hd ;; Ret (recs, ix)) as Hopen by (intros k0 E0; unfold open_disc; rewrite E0; reflexivity).
    rewrite (Hopen k2 F1) in Eo. destruct (Hg h) as [_ Hnil].
    assert (disk_open k2 (d_place d) hd = Some (gob_enc g h)) as O3 by (unfold disk_open; change (String.eqb hd dl) with false; cbv iota; unfold text_at; rewrite F3; destruct (gob_enc g h); [contradiction|reflexivity]).
    destruct (disk_open k2 (d_place d) dl) as [docs|] eqn:O2.
    2:{ exfalso. unfold IndexRead in Eo. rewrite O3 in Eo. destruct (Hg h) as [Hdec _]. rewrite Hdec in Eo. unfold h in Eo. cbn [h_version] in Eo. rewrite (eqb_refl _ beqb_ok) in Eo. cbn [negb] in Eo. rewrite O2 in Eo. discriminate Eo. }
    rewrite (read_header _ dl hd h O3 (eqb_refl _ beqb_ok _) docs O2) in Eo. assert (docs = concat ws) as ->. { unfold disk_open in O2. change (String.eqb dl dl) with true in O2. cbv iota in O2. unfold text_at in O2. rewrite F2 in O2. destruct (concat ws); [discriminate O2|injection O2 as <-; reflexivity]. }
    destruct (build_tables (h_terms h) (repeat None (Z.to_nat (h_indices h)))) as [tabs|e| |] eqn:Et; try discriminate Eo. cbn [bind] in Eo. injection Eo as <- <-.
    unfold partly. rewrite (Hopen k1 K1).
    destruct hb as [|h0 hb].
    { left. unfold IndexRead, disk_open. change (String.eqb hd dl) with false. cbv iota. unfold text_at at 1. rewrite K3. cbn [bind]. eauto. }
    destruct hr as [|r0 hr].
    2:{ left. unfold IndexRead, disk_open. change (String.eqb hd dl) with false. cbv iota. unfold text_at at 1. rewrite K3. rewrite (Hgp h (h0 :: hb) (r0 :: hr) Eh) by discriminate. cbn [bind]. eauto. }
    rewrite app_nil_r in Eh. assert (disk_open k1 (d_place d) hd = Some (gob_enc g h)) as O4 by (unfold disk_open; change (String.eqb hd dl) with false; cbv iota; unfold text_at; rewrite K3, Eh; reflexivity).
    destruct (disk_open k1 (d_place d) dl) as [cut|] eqn:O5.
    2:{ left. unfold IndexRead. rewrite O4. destruct (Hg h) as [Hdec _]. rewrite Hdec. unfold h. cbn [h_version]. rewrite (eqb_refl _ beqb_ok). cbn [negb]. rewrite O5. cbn [bind]. eauto. }
    right. rewrite (read_header _ dl hd h O4 (eqb_refl _ beqb_ok _) cut O5), Et. cbn [bind]. eexists. eexists. eexists. split; [reflexivity|]. split; [|split; [exact Hb|exact Hget]].
    unfold disk_open in O5. change (String.eqb dl dl) with true in O5. cbv iota in O5. unfold text_at in O5. rewrite K2 in O5. destruct Cd as [Cd|(b & r & Cd & Er)]; rewrite Cd in O5; [discriminate O5|]. destruct b as [|b0 b]; [discriminate O5|]. injection O5 as <-.
    exists tabs, (b0 :: b), r. split; [reflexivity|]. rewrite Er. reflexivity.
Qed.
Lemma apart_tail d ds : apart (d :: ds) -> apart ds /\ forall d', In d' ds -> forall p, In p (files_of d) -> ~ In p (files_of d').
Proof. intros [HF Hs]. inversion_clear HF. split; [split; [assumption|intros x y Hx Hy; apply Hs; right; assumption]|]. rewrite Forall_forall in H. exact H. Qed.
Lemma jobs_partly dict k ds k1 : killed_jobs L rb g ord lower chunk fuel O dict k ds k1 -> forall d words, apart (on_disc (selected dict ds)) -> In d (on_disc (selected dict ds)) ->
  good_source rb g ord lowr fuel (text_at k (source_of d)) d words -> writable O d -> (forall p, In p (files_of d) -> k p = None) -> partly k1 d words.
Proof.
  induction 1 as [k ds|k d ds k1 Hs Hk IH|k d ds k1 Hs Hk|k d ds k' k1 Hs Ej Hk IH]; intros d0 words Ha Hin Hgood Hw Hnone.
  - left. apply no_header, Hnone. cbn; tauto.
  - apply IH; try assumption.
    + unfold selected in Ha. cbn [filter] in Ha. replace (beqb dict [] || beqb dict (p_name (d_place d))) with false in Ha by (destruct (beqb dict []), (beqb dict (p_name (d_place d))); cbn in Hs |- *; congruence). exact Ha.
    + unfold selected in Hin. cbn [filter] in Hin. replace (beqb dict [] || beqb dict (p_name (d_place d))) with false in Hin by (destruct (beqb dict []), (beqb dict (p_name (d_place d))); cbn in Hs |- *; congruence). exact Hin.
  - unfold selected in Ha, Hin. cbn [filter] in Ha, Hin. replace (beqb dict [] || beqb dict (p_name (d_place d))) with true in Ha, Hin by (destruct (beqb dict []), (beqb dict (p_name (d_place d))); cbn in Hs |- *; congruence). fold (selected dict ds) in *.
    unfold on_disc in Ha, Hin. cbn [filter] in Ha, Hin. destruct (d_disc d) eqn:Hd; fold (on_disc (selected dict ds)) in *.
    + destruct (apart_tail _ _ Ha) as [_ Hap]. destruct Hin as [<-|Hin]; [apply (job_partly k d words k1 Hd); try assumption; apply (proj2 Ha); left; reflexivity|].
      left. apply no_header. rewrite (killed_frame L rb g ord lower chunk fuel O k d k1 _ Hk); [apply Hnone; cbn; tauto|]. intros _ Hp. apply (Hap d0 Hin _ Hp). cbn; tauto.
    + left. apply no_header. rewrite (killed_frame L rb g ord lower chunk fuel O k d k1 _ Hk); [apply Hnone; cbn; tauto|]. congruence.
  - pose proof (killed_jobs_frame L rb g ord lower chunk fuel O dict k' ds k1 Hk) as Hfr.
    unfold selected in Ha, Hin. cbn [filter] in Ha, Hin. replace (beqb dict [] || beqb dict (p_name (d_place d))) with true in Ha, Hin by (destruct (beqb dict []), (beqb dict (p_name (d_place d))); cbn in Hs |- *; congruence). fold (selected dict ds) in *.
    unfold on_disc in Ha, Hin. cbn [filter] in Ha, Hin. assert (k' = fst (job k d)) as Ek by (rewrite Ej; reflexivity). destruct (d_disc d) eqn:Hd; fold (on_disc (selected dict ds)) in *.
    + destruct (apart_tail _ _ Ha) as [Ha' Hap]. destruct Hin as [<-|Hin].
      * apply served_partly. destruct (job_good L rb g ord lowr chunk fuel O HL Hrb Hrw Hg Ho k d words Hd (proj2 Ha d d (or_introl eq_refl) (or_introl eq_refl)) Hgood) as [Hserve Hret]. specialize (Hserve (Hret Hw)). rewrite <- Ek in Hserve. destruct Hserve as (recs & ix & Eo & Hb & Hget).
        exists recs, ix. split; [|split; assumption]. rewrite <- Eo. apply open_ext. intros p Hp. apply Hfr. intros d' Hd' Hp'. exact (Hap d' Hd' p Hp Hp').
      * apply IH; try assumption.
        -- replace (text_at k' (source_of d0)) with (text_at k (source_of d0)); [exact Hgood|]. unfold text_at. rewrite Ek, job_frame; [reflexivity|]. intros _. apply (proj2 Ha); [right; exact Hin|left; reflexivity].
        -- intros p Hp. rewrite Ek, job_frame; [apply Hnone, Hp|]. intros _ Hp'. exact (Hap d0 Hin p Hp' Hp).
    + apply IH; try assumption.
      * replace (text_at k' (source_of d0)) with (text_at k (source_of d0)); [exact Hgood|]. unfold text_at. rewrite Ek, job_frame; [reflexivity|]. congruence.
      * intros p Hp. rewrite Ek, job_frame; [apply Hnone, Hp|]. congruence.
Qed.
End First.
