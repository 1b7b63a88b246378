(** C88: the indexer command. *)
From Coq Require Import String ZifyBool Permutation Sorted Lia.
From Verif Require Import Base BaseLemmas GoMap Store StoreSpec Postings PostingsSpec PostingsDrive P_PostingsLemmas Merger MergerSpec P_MergerLemmas Index IndexSpec IndexProofs P_IndexLemmas Text Analysis Decimal Scanner ScannerSpec
  Mph Float64 Metric FloatProofs MetricFloat TopK Suggest SuggestSpec P_Suggest Autocomplete AutocompleteSpec Http HttpSpec P_Http NGramIndex NGramIndexSpec NGramIndexProofs P_NGramIndex NGramIndexAnySpec NGramIndexAny CdbDict CdbDictSpec P_Cdb Paths PathsSpec Indexer IndexerSpec.
From Verif Require P_Index.
Local Open Scope Z_scope.
Local Notation length := List.length.

Lemma indexable_builds rb g ord name lowr d words : roaring_ok rb -> roaring_written rb -> gob_ok g -> order_ok ord -> indexable lowr d words ->
  exists ops, IndexDictionary rb g ord (documentListFile name) (headerFile name) 0 (ToLower lowr) d words = Ret ops /\ with_flushes 0 ops ops /\
  ((forall b, ram_open (ram_run NewRAMDirectory ops) (documentListFile name) = Some b -> zlen b < 2 ^ 32) -> exists ix, RAMBuild rb g ord name (ToLower lowr) d words = Ret ix) /\
  (forall ops', with_flushes 0 ops ops' -> (forall b, fs_open (fs_run NewFSDirectory ops') (documentListFile name) = Some b -> zlen b < 2 ^ 32) -> exists ix, FSBuild g name (fs_run NewFSDirectory ops') = Ret ix).
Proof.
  intros H1 H2 H3 H4 [H|H].
  - destruct (C71_index_builds_partial rb g ord name lowr d words H1 H2 H3 H4 H) as (ops & E & Hf & A & B). exists ops. auto.
  - destruct (dict_built_any rb g ord name lowr d words H1 H2 H3 H4 H) as (ops & E & Hf & A & B). exists ops. split; [exact E|]. split; [exact Hf|]. split.
    + intros Hs. destruct (A Hs) as (ix & Er & _). eauto.
    + intros ops' Hf' Hs. destruct (B ops' Hf' Hs) as (ix & Er & _). eauto.
Qed.
Lemma put_same k p c : put k p c p = Some c.
Proof. unfold put. rewrite (eqb_refl _ beqb_ok). reflexivity. Qed.
Lemma put_other k p c x : x <> p -> put k p c x = k x.
Proof. intros H. unfold put. destruct (beqb x p) eqn:E; [apply beqb_ok in E; contradiction|reflexivity]. Qed.
Lemma own_files p : GetDictionaryFile p <> list_path p /\ GetDictionaryFile p <> header_path p /\ list_path p <> header_path p.
Proof.
  unfold GetDictionaryFile, list_path, header_path, in_directory. repeat split; intros E; apply app_inv_head in E; injection E as E; apply app_inv_head in E; discriminate.
Qed.

Section Jobs.
Context (L : cdblib) (rb : roaring) (g : gobcodec) (ord : Z -> index_map -> index_map) (lower : bytes -> bytes) (chunk : nat -> nat) (fuel : nat) (O : outside).
Notation job := (index_job L rb g ord lower chunk fuel O).
Notation jobs := (index_jobs L rb g ord lower chunk fuel O).
Lemma job_frame k d path : (d_disc d = true -> ~ In path (files_of d)) -> fst (job k d) path = k path.
Proof.
  intros H. unfold index_job. cbv zeta. destruct (d_disc d); cbn [negb]; [|reflexivity]. specialize (H eq_refl). unfold files_of, index_files in H.
  assert (path <> GetDictionaryFile (d_place d) /\ path <> header_path (d_place d) /\ path <> list_path (d_place d)) as (H1 & H2 & H3) by (repeat split; intros ->; apply H; cbn; tauto).
  repeat match goal with |- context [match ?x with _ => _ end] => destruct x end; cbn [fst]; rewrite ?put_other by assumption; reflexivity.
Qed.
Lemma jobs_selected dict ds : forall k b, jobs dict k ds b = jobs [] k (selected dict ds) b.
Proof.
  induction ds as [|d ds IH]; intros k b; [reflexivity|]. cbn [index_jobs selected filter]. fold (selected dict ds). rewrite (negb_orb (beqb dict [])) || idtac.
  destruct (beqb dict []) eqn:E1; cbn [negb andb orb].
  - cbn [index_jobs]. rewrite (eqb_refl _ beqb_ok). cbn [negb andb]. destruct (job k d) as [k' [u|e| |]]; try reflexivity. apply IH.
  - destruct (beqb dict (p_name (d_place d))); cbn [negb]; [|apply IH]. cbn [index_jobs]. rewrite (eqb_refl _ beqb_ok). cbn [negb andb]. destruct (job k d) as [k' [u|e| |]]; try reflexivity. apply IH.
Qed.
(* jobs one after the other *)
Fixpoint seq_jobs (k : disk) (ds : list description) : disk := match ds with [] => k | d :: ds' => seq_jobs (fst (job k d)) ds' end.
Lemma jobs_cases ds : forall k b k' r, jobs [] k ds b = (k', r) ->
  (r = Ret (b || negb (match ds with [] => true | _ => false end)) /\ k' = seq_jobs k ds /\ forall done d rest, ds = done ++ d :: rest -> snd (job (seq_jobs k done) d) = Ret tt) \/
  (exists done d rest, ds = done ++ d :: rest /\ (forall done' d' rest', done = done' ++ d' :: rest' -> snd (job (seq_jobs k done') d') = Ret tt) /\ k' = fst (job (seq_jobs k done) d) /\
     (forall u, snd (job (seq_jobs k done) d) <> Ret u) /\ (forall u, r <> Ret u)).
Proof.
  induction ds as [|d ds IH]; intros k b k' r; cbn [index_jobs].
  - intros E. injection E as <- <-. left. split; [rewrite orb_false_r; reflexivity|]. split; [reflexivity|]. intros [|x done] y rest E; discriminate E.
  - rewrite (eqb_refl _ beqb_ok). cbn [negb andb]. destruct (job k d) as [k1 r1] eqn:E1. destruct r1 as [u|e| |].
    + intros E. destruct (IH _ _ _ _ E) as [(-> & -> & H)|(done & d0 & rest & -> & H1 & -> & H2 & H3)].
      * left. split; [rewrite orb_true_r; destruct b; reflexivity|]. cbn [seq_jobs]. rewrite E1. cbn [fst]. split; [reflexivity|]. intros [|x done] y rest Ed; injection Ed as <- Ed.
        -- cbn [seq_jobs]. rewrite E1. destruct u. reflexivity.
        -- cbn [seq_jobs]. rewrite E1. cbn [fst]. eapply H. exact Ed.
      * right. exists (d :: done), d0, rest. split; [reflexivity|]. cbn [seq_jobs]. rewrite E1. cbn [fst]. split; [|split; [reflexivity|split; assumption]].
        intros [|x done'] d' rest' Ed; injection Ed as <- Ed; cbn [seq_jobs]; rewrite E1; [destruct u; reflexivity|]. cbn [fst]. eapply H1. exact Ed.
    + intros E. injection E as <- <-. right. exists [], d, ds. cbn [seq_jobs app]. rewrite E1. split; [reflexivity|]. split; [intros [|? ?] ? ? Ed; discriminate Ed|]. split; [reflexivity|]. split; discriminate.
    + intros E. injection E as <- <-. right. exists [], d, ds. cbn [seq_jobs app]. rewrite E1. split; [reflexivity|]. split; [intros [|? ?] ? ? Ed; discriminate Ed|]. split; [reflexivity|]. split; discriminate.
    + intros E. injection E as <- <-. right. exists [], d, ds. cbn [seq_jobs app]. rewrite E1. split; [reflexivity|]. split; [intros [|? ?] ? ? Ed; discriminate Ed|]. split; [reflexivity|]. split; discriminate.
Qed.
Lemma seq_frame ds : forall k path, (forall d, In d (on_disc ds) -> ~ In path (files_of d)) -> seq_jobs k ds path = k path.
Proof.
  induction ds as [|d ds IH]; intros k path H; [reflexivity|]. cbn [seq_jobs]. rewrite IH.
  - apply job_frame. intros Hd. apply H. unfold on_disc. cbn [filter]. rewrite Hd. left. reflexivity.
  - intros d' Hd'. apply H. unfold on_disc in *. cbn [filter]. destruct (d_disc d); [right|]; exact Hd'.
Qed.
End Jobs.

(** ** What a job leaves *)
Lemma read_ext g o o' dn hn : o hn = o' hn -> o dn = o' dn -> IndexRead g o dn hn = IndexRead g o' dn hn.
Proof. intros E1 E2. unfold IndexRead. rewrite E1, E2. reflexivity. Qed.
Lemma open_ext g k k' d : (forall p, In p (files_of d) -> k p = k' p) -> open_disc g k d = open_disc g k' d.
Proof.
  intros H. unfold open_disc, text_at. cbv zeta. rewrite (H (GetDictionaryFile (d_place d))), (H (list_path (d_place d))), (H (header_path (d_place d))) by (cbn; tauto). reflexivity.
Qed.
Section Good.
Context (L : cdblib) (rb : roaring) (g : gobcodec) (ord : Z -> index_map -> index_map) (lowr : Z -> Z) (chunk : nat -> nat) (fuel : nat) (O : outside).
Notation lower := (ToLower lowr).
Notation job := (index_job L rb g ord lower chunk fuel O).
(** A source the index of which is meant: lines of 1 to 65535 bytes that are a dictionary for
    the description, all files below 4 GB. *)
Definition good_source (file : bytes) (d : description) (words : list bytes) : Prop :=
  file_ok file words /\ indexable lowr (d_conf d) words /\ (2 * length file + 1 < fuel)%nat /\
  forall ops b, IndexDictionary rb g ord dl hd 0 lower (d_conf d) words = Ret ops -> fs_open (fs_run NewFSDirectory ops) dl = Some b -> zlen b < 2 ^ 32.
(** What is opened for the description is the dictionary and the index of the words. *)
Definition serves (k : disk) (d : description) (words : list bytes) : Prop :=
  exists recs ix, open_disc g k d = Ret (recs, ix) /\ index_built rb g ord "" lowr (d_conf d) words ix /\ forall key, is_u32 key -> CdbGet L recs key = Ret (DictGet words key).
Context (HL : cdb_ok L) (Hrb : roaring_ok rb) (Hrw : roaring_written rb) (Hg : gob_ok g) (Ho : order_ok ord).
Lemma job_good k d words : d_disc d = true -> ~ In (source_of d) (files_of d) -> good_source (text_at k (source_of d)) d words ->
  (snd (job k d) = Ret tt -> serves (fst (job k d)) d words) /\ (writable O d -> snd (job k d) = Ret tt).
Proof.
  intros Hd Hsrc (Hf & Hdict & Hfu & Hz).
  destruct (C74_indexer_partial L rb g ord "" lower (d_conf d) chunk fuel _ words HL Hf Hfu) as (_ & recs & Eb & _ & Hget & _ & Ej).
  destruct (indexable_builds rb g ord "" lowr (d_conf d) words Hrb Hrw Hg Ho Hdict) as (ops & Eo & Hfl & _ & Hfs).
  destruct (Hfs ops Hfl (fun b Hb => Hz ops b Eo Hb)) as (ix & Ex). rewrite Eo in Ej. cbn [bind] in Ej. unfold indexJob in Ej. rewrite Eb in Ej.
  unfold IndexCdb in Ej. destruct (CdbIterate L (index_step lower (d_conf d)) recs (Ret [])) as [st|e| |] eqn:Ei; try discriminate. cbn [bind] in Ej. destruct st as [w|e| |] eqn:Est; try discriminate. cbn [bind] in Ej.
  change (documentListFile "") with dl in *. change (headerFile "") with hd in *. destruct (Commit rb g ord dl hd 0 w) as [ops'|e| |] eqn:Ec; try discriminate. cbn [bind] in Ej. injection Ej as ->.
  assert (k (source_of d) <> None) as Hk.
  { intros E. unfold text_at in Hf. rewrite E in Hf. destruct Hf as (Hw & _). cbn in Hw. destruct Hdict as [(_ & _ & (w0 & ws & E0 & _) & _)|(_ & _ & _ & (w0 & ws & E0 & _) & _)]; rewrite Hw in E0; discriminate. }
  unfold index_job. cbv zeta. rewrite Hd. cbn [negb]. change (GetSourcePath (d_place d)) with (source_of d). destruct (k (source_of d)) as [c|] eqn:Ek; [|contradiction].
  assert (text_at (put k (GetDictionaryFile (d_place d)) CBroken) (source_of d) = text_at k (source_of d)) as Et.
  { unfold text_at. rewrite put_other; [reflexivity|]. intros E. apply Hsrc. rewrite E. left. reflexivity. }
  rewrite Et, Eb, Ei. cbn [bind]. rewrite Ec. destruct (own_files (d_place d)) as (N1 & N2 & N3).
  assert (forall x : bool, negb x = true -> (x = true -> False)) as Hneg by (intros []; discriminate).
  split.
  - destruct (o_create O (GetDictionaryFile (d_place d))); cbn [negb]; [|discriminate]. destruct (o_dir O (GetIndexPath (d_place d))); cbn [negb]; [|discriminate].
    destruct (o_create O (list_path (d_place d))); cbn [negb]; [|discriminate]. destruct (o_create O (header_path (d_place d))); cbn [negb fst snd]; [|discriminate]. intros _.
    exists recs, ix. split; [|split; [|exact Hget]].
    + unfold open_disc. cbv zeta. rewrite put_other, put_other, put_same by assumption.
      assert (text_at (put (put (put k (GetDictionaryFile (d_place d)) (CDict recs)) (list_path (d_place d)) (match fs_open (fs_run NewFSDirectory ops) dl with Some b => CText b | None => CBroken end)) (header_path (d_place d)) (match fs_open (fs_run NewFSDirectory ops) hd with Some b => CText b | None => CBroken end)) (list_path (d_place d)) = match fs_open (fs_run NewFSDirectory ops) dl with Some b => b | None => [] end) as T1
        by (unfold text_at; rewrite put_other, put_same by assumption; destruct (fs_open _ dl); reflexivity).
      assert (text_at (put (put (put k (GetDictionaryFile (d_place d)) (CDict recs)) (list_path (d_place d)) (match fs_open (fs_run NewFSDirectory ops) dl with Some b => CText b | None => CBroken end)) (header_path (d_place d)) (match fs_open (fs_run NewFSDirectory ops) hd with Some b => CText b | None => CBroken end)) (header_path (d_place d)) = match fs_open (fs_run NewFSDirectory ops) hd with Some b => b | None => [] end) as T2
        by (unfold text_at; rewrite put_same; destruct (fs_open _ hd); reflexivity).
      unfold FSBuild in Ex. change (documentListFile "") with dl in Ex. change (headerFile "") with hd in Ex. erewrite read_ext; [rewrite Ex; reflexivity| |].
      * change (String.eqb hd dl) with false. cbv iota. rewrite T2. unfold fs_input. destruct (fs_open (fs_run NewFSDirectory ops) hd) as [[|? ?]|]; reflexivity.
      * change (String.eqb dl dl) with true. cbv iota. rewrite T1. unfold fs_input. destruct (fs_open (fs_run NewFSDirectory ops) dl) as [[|? ?]|]; reflexivity.
    + exists ops. split; [exact Eo|]. right. exists ops. split; [exact Hfl|]. split; [exact Ex|]. intros b Hb. exact (Hz ops b Eo Hb).
  - intros [Hc Hdir]. rewrite !Hc by (cbn; tauto). rewrite Hdir. reflexivity.
Qed.
End Good.

Lemma fop_app {A} (R : A -> A -> Prop) l1 l2 : ForallOrdPairs R (l1 ++ l2) -> ForallOrdPairs R l1 /\ ForallOrdPairs R l2 /\ forall x y, In x l1 -> In y l2 -> R x y.
Proof.
  induction l1 as [|a l1 IH]; cbn [app]; intros H; [split; [constructor|split; [exact H|intros x y []]]|]. inversion_clear H. destruct (IH H1) as (I1 & I2 & I3). apply Forall_app in H0. destruct H0 as [F1 F2].
  split; [constructor; assumption|]. split; [exact I2|]. intros x y [<-|Hx] Hy; [rewrite Forall_forall in F2; apply F2; exact Hy|apply I3; assumption].
Qed.
Lemma on_disc_app a b : on_disc (a ++ b) = on_disc a ++ on_disc b.
Proof. apply filter_app. Qed.
Lemma on_disc_in d ds : In d (on_disc ds) <-> In d ds /\ d_disc d = true.
Proof. apply filter_In. Qed.

Section Runs.
Context (L : cdblib) (rb : roaring) (g : gobcodec) (ord : Z -> index_map -> index_map) (lowr : Z -> Z) (chunk : nat -> nat) (fuel : nat) (O : outside).
Notation lower := (ToLower lowr).
Notation job := (index_job L rb g ord lower chunk fuel O).
Notation seqj := (seq_jobs L rb g ord lower chunk fuel O).
Lemma seq_app a : forall k b, seqj k (a ++ b) = seqj (seqj k a) b.
Proof. induction a as [|d a IH]; intros k b; [reflexivity|]. cbn [app seq_jobs]. apply IH. Qed.
Lemma indexer_cases dict pidPath host ds k k' notes r : indexer L rb g ord lower chunk fuel O dict pidPath host (Ret ds) k = (k', notes, r) ->
  let sel := selected dict ds in
  (exists done d rest, sel = done ++ d :: rest /\ (forall done' d' rest', done = done' ++ d' :: rest' -> snd (job (seqj k done') d') = Ret tt) /\ k' = fst (job (seqj k done) d) /\
     (forall u, snd (job (seqj k done) d) <> Ret u) /\ notes = [] /\ forall u, r <> Ret u) \/
  (k' = seqj k sel /\ (forall done d rest, sel = done ++ d :: rest -> snd (job (seqj k done) d) = Ret tt) /\
   (sel = [] -> notes = [] /\ r = Ret tt) /\
   (sel <> [] -> (notes, r) = let '(n1, r1) := if beqb pidPath [] then ([], Ret tt) else send_signal O k' pidPath in
                              match r1 with Ret _ => let '(n2, r2) := if beqb host [] then ([], Ret tt) else send_request O host in (n1 ++ n2, r2) | r => (n1, r) end)).
Proof.
  intros E sel. unfold indexer in E. rewrite jobs_selected in E. fold sel in E. destruct (index_jobs L rb g ord lower chunk fuel O [] k sel false) as [k1 r1] eqn:Ej.
  destruct (jobs_cases _ _ _ _ _ _ _ _ sel _ _ _ _ Ej) as [(-> & -> & H)|(done & d & rest & Es & H1 & -> & H2 & H3)].
  - right. cbn [orb] in E. destruct sel as [|d0 sel0] eqn:Es; cbn [negb] in E.
    + injection E as <- <- <-. split; [reflexivity|]. split; [exact H|]. split; [split; reflexivity|]. intros X. exfalso. apply X. reflexivity.
    + set (kf := seqj k (d0 :: sel0)) in *. destruct (if beqb pidPath [] then _ else _) as [n1 [u|e| |]] eqn:E1.
      * destruct (if beqb host [] then _ else _) as [n2 r2] eqn:E2. injection E as <- <- <-. split; [reflexivity|]. split; [exact H|]. split; [intros X; discriminate X|]. intros _. rewrite E1, ?E2. reflexivity.
      * injection E as <- <- <-. split; [reflexivity|]. split; [exact H|]. split; [intros X; discriminate X|]. intros _. rewrite E1, ?E2. reflexivity.
      * injection E as <- <- <-. split; [reflexivity|]. split; [exact H|]. split; [intros X; discriminate X|]. intros _. rewrite E1, ?E2. reflexivity.
      * injection E as <- <- <-. split; [reflexivity|]. split; [exact H|]. split; [intros X; discriminate X|]. intros _. rewrite E1, ?E2. reflexivity.
  - left. exists done, d, rest. split; [exact Es|]. split; [exact H1|]. destruct r1 as [u|e| |]; [exfalso; exact (H3 u eq_refl)|injection E as <- <- <-..]; (split; [reflexivity|split; [exact H2|split; [reflexivity|discriminate]]]).
Qed.
Context (HL : cdb_ok L) (Hrb : roaring_ok rb) (Hrw : roaring_written rb) (Hg : gob_ok g) (Ho : order_ok ord) (W : description -> list bytes).
Lemma source_kept k done ds d : apart (on_disc ds) -> (forall x, In x done -> In x ds) -> In d (on_disc ds) -> text_at (seqj k done) (source_of d) = text_at k (source_of d).
Proof.
  intros [_ Ha] Hin Hd. unfold text_at. rewrite seq_frame; [reflexivity|]. intros d' Hd'. apply on_disc_in in Hd'. apply Ha; [exact Hd|]. apply on_disc_in. split; [apply Hin|]; apply Hd'.
Qed.
Lemma seq_serves k ds : apart (on_disc ds) -> (forall d, In d (on_disc ds) -> good_source rb g ord lowr fuel (text_at k (source_of d)) d (W d)) ->
  (forall done d rest, ds = done ++ d :: rest -> snd (job (seqj k done) d) = Ret tt) -> forall d, In d (on_disc ds) -> serves L rb g ord lowr (seqj k ds) d (W d).
Proof.
  intros Ha Hgood Hok d Hd. pose proof (proj1 (on_disc_in _ _) Hd) as [Hin Hdisc]. apply in_split in Hin. destruct Hin as (pre & post & Es).
  pose proof (Hok pre d post Es) as Hj. rewrite Es, seq_app. cbn [seq_jobs].
  destruct (job_good L rb g ord lowr chunk fuel O HL Hrb Hrw Hg Ho (seqj k pre) d (W d) Hdisc) as [Hs _]; [apply (proj2 Ha); exact Hd|rewrite (source_kept k pre ds d Ha); [apply Hgood; exact Hd|intros x Hx; rewrite Es; apply in_app_iff; left; exact Hx|exact Hd]|].
  destruct (Hs Hj) as (recs & ix & E & B & G). exists recs, ix. split; [|split; assumption]. rewrite <- E. apply open_ext. intros p Hp. apply seq_frame. intros d' Hd' Hp'.
  destruct Ha as [Ha _]. rewrite Es, on_disc_app in Ha. destruct (fop_app _ _ _ Ha) as (_ & Ha2 & _). unfold on_disc in Ha2 at 1. cbn [filter] in Ha2. rewrite Hdisc in Ha2. inversion_clear Ha2. rewrite Forall_forall in H. exact (H d' Hd' p Hp Hp').
Qed.
End Runs.

(** ** C88 *)
(** Nothing but the files of the selected descriptions with driver DISC is written, however
    the run ends. *)
Theorem C88_untouched : forall L rb g ord lower chunk fuel O dict pidPath host configs k k' notes r,
  indexer L rb g ord lower chunk fuel O dict pidPath host configs k = (k', notes, r) ->
  forall path, (forall ds d, configs = Ret ds -> In d (on_disc (selected dict ds)) -> ~ In path (files_of d)) -> k' path = k path.
Proof.
  intros L rb g ord lower chunk fuel O dict pidPath host configs k k' notes r E path H. unfold indexer in E. destruct configs as [ds|e| |]; [|injection E as <- _ _; reflexivity..].
  rewrite jobs_selected in E. destruct (index_jobs L rb g ord lower chunk fuel O [] k (selected dict ds) false) as [k1 r1] eqn:Ej. assert (k1 path = k path) as Hk.
  { destruct (jobs_cases _ _ _ _ _ _ _ _ _ _ _ _ _ Ej) as [(_ & -> & _)|(done & d & rest & Es & _ & -> & _)].
    - apply seq_frame. intros d Hd. exact (H ds d eq_refl Hd).
    - rewrite job_frame; [apply seq_frame|].
      + intros d' Hd'. apply (H ds d' eq_refl). rewrite Es. rewrite on_disc_app. apply in_app_iff. left. exact Hd'.
      + intros Hd. apply (H ds d eq_refl). rewrite Es. apply on_disc_in. split; [apply in_app_iff; right; left; reflexivity|exact Hd]. }
  destruct r1 as [[]|e| |]; [|injection E as <- _ _; exact Hk..].
  destruct (if beqb pidPath [] then _ else _) as [n1 [u|e| |]]; [|injection E as <- _ _; exact Hk..]. destruct (if beqb host [] then _ else _) as [n2 r2]. injection E as <- _ _. exact Hk.
Qed.
Print Assumptions C88_untouched.
(** The descriptions are done in order up to the first failure: what is opened for those done
    afterwards is the dictionary and the index of their sources; those after the failing one
    have the files they had; and then nobody is told and the command fails. *)
Theorem C88_in_order_partial : forall L rb g ord lowr chunk fuel O dict pidPath host ds k k' notes r (W : description -> list bytes),
  cdb_ok L -> roaring_ok rb -> roaring_written rb -> gob_ok g -> order_ok ord -> apart (on_disc (selected dict ds)) ->
  (forall d, In d (on_disc (selected dict ds)) -> good_source rb g ord lowr fuel (text_at k (source_of d)) d (W d)) ->
  indexer L rb g ord (ToLower lowr) chunk fuel O dict pidPath host (Ret ds) k = (k', notes, r) ->
  exists done rest, selected dict ds = done ++ rest /\ (forall d, In d (on_disc done) -> serves L rb g ord lowr k' d (W d)) /\
    (rest <> [] -> notes = [] /\ (forall u, r <> Ret u) /\ forall d p, In d (on_disc (tl rest)) -> In p (files_of d) -> k' p = k p).
Proof.
  intros L rb g ord lowr chunk fuel O dict pidPath host ds k k' notes r W HL Hrb Hrw Hg Ho Ha Hgood E.
  destruct (indexer_cases L rb g ord lowr chunk fuel O dict pidPath host ds k k' notes r E) as [(done & d & rest & Es & H1 & -> & H2 & H3 & H4)|(-> & H & _)].
  - exists done, (d :: rest). split; [exact Es|]. rewrite Es in Ha, Hgood. rewrite on_disc_app in Ha. destruct Ha as [Ha Hb]. destruct (fop_app _ _ _ Ha) as (A1 & A2 & A3). split.
    + intros d' Hd'. destruct (seq_serves L rb g ord lowr chunk fuel O HL Hrb Hrw Hg Ho W k done) with (d := d') as (recs & ix & Ex & B & G); try assumption.
      * split; [exact A1|]. intros x y Hx Hy. apply Hb; apply in_app_iff; left; assumption.
      * intros x Hx. apply Hgood. rewrite on_disc_app. apply in_app_iff. left. exact Hx.
      * exists recs, ix. split; [|split; assumption]. rewrite <- Ex. apply open_ext. intros p Hp. apply job_frame. intros Hd. apply (A3 d' d); [exact Hd'| |exact Hp]. apply on_disc_in. split; [left; reflexivity|exact Hd].
    + intros _. split; [exact H3|]. split; [exact H4|]. cbn [tl]. intros d' p Hd' Hp. rewrite job_frame, seq_frame; [reflexivity| |].
      * intros x Hx Hpx. apply (A3 x d' Hx) with (p := p); [|exact Hpx|exact Hp]. apply on_disc_in in Hd'. apply on_disc_in. split; [right|]; apply Hd'.
      * intros Hd Hpd. unfold on_disc in A2. cbn [filter] in A2. rewrite Hd in A2. inversion_clear A2. rewrite Forall_forall in H. exact (H d' Hd' p Hpd Hp).
  - exists (selected dict ds), []. split; [rewrite app_nil_r; reflexivity|]. split; [|intros X; exfalso; apply X; reflexivity]. apply seq_serves; assumption.
Qed.
Print Assumptions C88_in_order_partial.
(** So after a run that succeeded, or told anybody, all selected descriptions are done. *)
Theorem C88_success_partial : forall L rb g ord lowr chunk fuel O dict pidPath host ds k k' notes r (W : description -> list bytes),
  cdb_ok L -> roaring_ok rb -> roaring_written rb -> gob_ok g -> order_ok ord -> apart (on_disc (selected dict ds)) ->
  (forall d, In d (on_disc (selected dict ds)) -> good_source rb g ord lowr fuel (text_at k (source_of d)) d (W d)) ->
  indexer L rb g ord (ToLower lowr) chunk fuel O dict pidPath host (Ret ds) k = (k', notes, r) -> r = Ret tt \/ notes <> [] ->
  forall d, In d (on_disc (selected dict ds)) -> serves L rb g ord lowr k' d (W d).
Proof.
  intros L rb g ord lowr chunk fuel O dict pidPath host ds k k' notes r W HL Hrb Hrw Hg Ho Ha Hgood E Hr d Hd.
  destruct (C88_in_order_partial L rb g ord lowr chunk fuel O dict pidPath host ds k k' notes r W HL Hrb Hrw Hg Ho Ha Hgood E) as (done & rest & Es & H1 & H2). destruct rest as [|x rest].
  - rewrite app_nil_r in Es. apply H1. rewrite <- Es. exact Hd.
  - destruct (H2 ltac:(discriminate)) as (N & F & _). destruct Hr as [->|Hn]; [exfalso; exact (F tt eq_refl)|contradiction].
Qed.
Print Assumptions C88_success_partial.
(** Who is told, and what success means: the signal goes to the number in the PID file, before
    the request; success of a run with a job means that both were sent as asked for and that
    the server answered "OK"; a run without a job does nothing and succeeds. *)
Theorem C88_notices : forall L rb g ord lowr chunk fuel O dict pidPath host ds k k' notes r,
  indexer L rb g ord (ToLower lowr) chunk fuel O dict pidPath host (Ret ds) k = (k', notes, r) ->
  (selected dict ds = [] -> k' = k /\ notes = [] /\ r = Ret tt) /\
  (forall u, r = Ret u -> selected dict ds <> [] -> exists pid, (pidPath <> [] -> numeral (TrimSpace (text_at k' pidPath)) pid /\ o_kill O pid = None) /\ (host <> [] -> o_post O host = Ret (bs "OK")) /\
     notes = (if beqb pidPath [] then [] else [Signalled pid]) ++ (if beqb host [] then [] else [Posted host])) /\
  (forall url, In (Posted url) notes -> url = host /\ host <> [] /\ (pidPath <> [] -> exists pid, In (Signalled pid) notes)) /\
  (forall pid, In (Signalled pid) notes -> pidPath <> [] /\ numeral (TrimSpace (text_at k' pidPath)) pid).
Proof.
  intros L rb g ord lowr chunk fuel O dict pidPath host ds k k' notes r E.
  assert (forall p, beqb p [] = true -> p <> [] -> False) as Hnil by (intros p Hp Hn; apply beqb_ok in Hp; contradiction).
  assert (forall p : bytes, beqb p [] = false -> p <> []) as Hnn by (intros p Hp ->; discriminate Hp).
  assert (forall ns rr, (ns, rr) = (if beqb pidPath [] then ([], Ret tt) else send_signal O k' pidPath) ->
     (beqb pidPath [] = true /\ ns = [] /\ rr = Ret tt) \/ (beqb pidPath [] = false /\ ((ns = [] /\ forall u, rr <> Ret u) \/ exists pid, ns = [Signalled pid] /\ rr = Ret tt /\ numeral (TrimSpace (text_at k' pidPath)) pid /\ o_kill O pid = None))) as Hsig.
  { intros ns rr Es. destruct (beqb pidPath []); [left; injection Es as -> ->; auto|right]. split; [reflexivity|]. unfold send_signal in Es. destruct (k' pidPath); [|injection Es as -> ->; left; split; [reflexivity|discriminate]].
    destruct (ParseInt (TrimSpace (text_at k' pidPath))) as [pid|e| |] eqn:Ep; [|injection Es as -> ->; left; split; [reflexivity|discriminate]..].
    destruct (o_kill O pid) eqn:Ek; injection Es as -> ->; [left; split; [reflexivity|discriminate]|]. right. exists pid. apply (proj1 (C66_parse_int _ _)) in Ep. split; [reflexivity|]. split; [reflexivity|]. split; [apply Ep|exact Ek]. }
  destruct (indexer_cases L rb g ord lowr chunk fuel O dict pidPath host ds k k' notes r E) as [(done & d & rest & Es & _ & _ & _ & -> & Hr)|(-> & _ & H1 & H2)].
  - split; [intros Hs; rewrite Hs in Es; destruct done; discriminate Es|]. split; [intros u ->; exfalso; exact (Hr u eq_refl)|]. split; intros ? [].
  - split; [intros Hs; destruct (H1 Hs) as [-> ->]; rewrite Hs; split; [reflexivity|split; reflexivity]|].
    destruct (selected dict ds) as [|d0 sel] eqn:Es; [destruct (H1 eq_refl) as [-> ->]; split; [intros u _ X; exfalso; apply X; reflexivity|]; split; intros ? []|].
    specialize (H2 ltac:(discriminate)). set (kf := seq_jobs L rb g ord (ToLower lowr) chunk fuel O k (d0 :: sel)) in *.
    destruct (if beqb pidPath [] then _ else _) as [n1 r1] eqn:E1. destruct (Hsig n1 r1 eq_refl) as [(P0 & -> & ->)|(P0 & [(-> & Hf)|(pid & -> & -> & Hp & Hk)])].
    + destruct (beqb host []) eqn:P1.
      * injection H2 as -> ->. split; [intros u _ _; exists 0; split; [intros X; destruct (Hnil _ P0 X)|split; [intros X; destruct (Hnil _ P1 X)|rewrite P0; reflexivity]]|]. split; intros ? [].
      * unfold send_request in H2. injection H2 as -> ->. cbn [app]. split.
        -- intros u Hu _. exists 0. split; [intros X; destruct (Hnil _ P0 X)|]. rewrite P0. split; [|reflexivity]. intros _. destruct (o_post O host) as [body|e| |]; try discriminate Hu. match type of Hu with (if ?b then _ else _) = _ => destruct b eqn:Eb end; [|discriminate Hu]. apply beqb_ok in Eb. rewrite Eb. reflexivity.
        -- split; [intros url [Hx|[]]; injection Hx as <-; split; [reflexivity|split; [apply Hnn; exact P1|intros X; destruct (Hnil _ P0 X)]]|intros pid [Hx|[]]; discriminate Hx].
    + destruct r1 as [u|e| |]; [exfalso; exact (Hf u eq_refl)|..]; injection H2 as -> ->; (split; [intros u Hu; discriminate Hu|split; intros ? []]).
    + destruct (beqb host []) eqn:P1.
      * injection H2 as -> ->. cbn [app]. split; [intros u _ _; exists pid; split; [intros _; split; assumption|split; [intros X; destruct (Hnil _ P1 X)|rewrite P0; reflexivity]]|].
        split; [intros url [Hx|[]]; discriminate Hx|]. intros pid' [Hx|[]]. injection Hx as <-. split; [apply Hnn; exact P0|exact Hp].
      * unfold send_request in H2. injection H2 as -> ->. cbn [app]. split.
        -- intros u Hu _. exists pid. split; [intros _; split; assumption|]. rewrite P0. split; [|reflexivity]. intros _. destruct (o_post O host) as [body|e| |]; try discriminate Hu. match type of Hu with (if ?b then _ else _) = _ => destruct b eqn:Eb end; [|discriminate Hu]. apply beqb_ok in Eb. rewrite Eb. reflexivity.
        -- split; [intros url [Hx|[Hx|[]]]; [discriminate Hx|]; injection Hx as <-; split; [reflexivity|split; [apply Hnn; exact P1|intros _; exists pid; left; reflexivity]]|].
           intros pid' [Hx|[Hx|[]]]; [|discriminate Hx]. injection Hx as <-. split; [apply Hnn; exact P0|exact Hp].
Qed.
Print Assumptions C88_notices.

(** The command succeeds when the files can be written, the sources are good, the PID file is
    there and readable, the signal can be sent and the server says "OK". *)
Lemma jobs_succeed L rb g ord lowr chunk fuel O (W : description -> list bytes) : cdb_ok L -> roaring_ok rb -> roaring_written rb -> gob_ok g -> order_ok ord -> forall all k ds, apart (on_disc all) -> (forall d, In d ds -> In d all) ->
  (forall d, In d (on_disc ds) -> writable O d /\ good_source rb g ord lowr fuel (text_at k (source_of d)) d (W d)) ->
  forall done d rest, ds = done ++ d :: rest -> snd (index_job L rb g ord (ToLower lowr) chunk fuel O (seq_jobs L rb g ord (ToLower lowr) chunk fuel O k done) d) = Ret tt.
Proof.
  intros HL Hrb Hrw Hg Ho all k ds Ha Hin H done d rest E. destruct (d_disc d) eqn:Hd; [|unfold index_job; rewrite Hd; reflexivity].
  assert (In d (on_disc ds)) as Hi by (apply on_disc_in; split; [rewrite E; apply in_app_iff; right; left; reflexivity|exact Hd]). destruct (H d Hi) as [Hw Hs].
  assert (In d (on_disc all)) as Hia by (apply on_disc_in; split; [apply Hin; apply on_disc_in in Hi; apply Hi|exact Hd]).
  refine (proj2 (job_good L rb g ord lowr chunk fuel O HL Hrb Hrw Hg Ho _ d (W d) Hd _ _) Hw); [apply (proj2 Ha); exact Hia|].
  rewrite (source_kept L rb g ord lowr chunk fuel O k done all d Ha); [exact Hs| |exact Hia]. intros x Hx. apply Hin. rewrite E. apply in_app_iff. left. exact Hx.
Qed.
Lemma decimal_digits s : forall a, decimal s a = fold_left (fun a c => a * 10 + (c - 48)) s a.
Proof. induction s as [|c s IH]; intros a; [reflexivity|]. cbn [decimal fold_left]. rewrite IH. f_equal. lia. Qed.
Lemma space_left_digits s : (match s with [] => True | c :: _ => 48 <= c <= 57 end) -> space_left s = s.
Proof. destruct s as [|c s]; [reflexivity|]. intros H. cbn [space_left]. unfold is_space. destruct (c =? 32) eqn:E1; [lia|]. destruct ((9 <=? c) && (c <=? 13)) eqn:E2; [lia|reflexivity]. Qed.
Lemma trim_digits s : Forall (fun c => 48 <= c <= 57) s -> TrimSpace s = s.
Proof.
  intros H. unfold TrimSpace. rewrite (space_left_digits s) by (destruct s; [exact I|exact (Forall_inv H)]). rewrite space_left_digits; [apply rev_involutive|].
  pose proof (Forall_rev H) as Hr. destruct (rev s); [exact I|exact (Forall_inv Hr)].
Qed.
Lemma pid_numeral pid : 0 <= pid < 2 ^ 63 -> ParseInt (TrimSpace (Decimal.dec pid)) = Ret pid.
Proof.
  intros H. destruct (dec_spec pid) as (H1 & H2 & H3 & _); [unfold is_u64; lia|]. assert (Forall (fun c => 48 <= c <= 57) (dec pid)) as Hd.
  { rewrite Forall_forall in *. intros c Hc. specialize (H1 c Hc). unfold Decimal.is_digit in H1. lia. }
  rewrite trim_digits by exact Hd. apply C66_parse_int. split; [|lia]. exists (dec pid). split; [exact H3|]. split; [exact Hd|]. left. split; [left; reflexivity|]. rewrite decimal_digits. symmetry. exact H2.
Qed.
Theorem C88_succeeds_partial : forall L rb g ord lowr chunk fuel O dict pidPath host ds k k' notes r pid (W : description -> list bytes),
  cdb_ok L -> roaring_ok rb -> roaring_written rb -> gob_ok g -> order_ok ord -> apart (on_disc (selected dict ds)) ->
  (forall d, In d (on_disc (selected dict ds)) -> writable O d /\ good_source rb g ord lowr fuel (text_at k (source_of d)) d (W d)) ->
  (pidPath <> [] -> k pidPath = Some (pid_file pid) /\ 0 < pid < 2 ^ 31 /\ o_kill O pid = None /\ forall d, In d (on_disc (selected dict ds)) -> ~ In pidPath (files_of d)) ->
  (host <> [] -> o_post O host = Ret (bs "OK")) ->
  indexer L rb g ord (ToLower lowr) chunk fuel O dict pidPath host (Ret ds) k = (k', notes, r) ->
  r = Ret tt /\ (forall d, In d (on_disc (selected dict ds)) -> serves L rb g ord lowr k' d (W d)) /\
  (selected dict ds <> [] -> (pidPath <> [] -> In (Signalled pid) notes) /\ (host <> [] -> In (Posted host) notes)).
Proof.
  intros L rb g ord lowr chunk fuel O dict pidPath host ds k k' notes r pid W HL Hrb Hrw Hg Ho Ha Hgood Hpid Hhost E.
  pose proof (jobs_succeed L rb g ord lowr chunk fuel O W HL Hrb Hrw Hg Ho (selected dict ds) k (selected dict ds) Ha (fun d H => H) Hgood) as Hjobs.
  assert (r = Ret tt /\ (selected dict ds <> [] -> (pidPath <> [] -> In (Signalled pid) notes) /\ (host <> [] -> In (Posted host) notes))) as [Hr Hn].
  { destruct (indexer_cases L rb g ord lowr chunk fuel O dict pidPath host ds k k' notes r E) as [(done & d & rest & Es & _ & _ & Hf & _)|(Hk & _ & H1 & H2)]; [exfalso; exact (Hf tt (Hjobs done d rest Es))|].
    destruct (selected dict ds) as [|d0 sel] eqn:Es; [split; [apply H1; reflexivity|intros X; exfalso; apply X; reflexivity]|]. specialize (H2 ltac:(discriminate)).
    assert (pidPath <> [] -> send_signal O k' pidPath = ([Signalled pid], Ret tt)) as Hs.
    { intros Hp. destruct (Hpid Hp) as (P1 & P2 & P3 & P4). assert (k' pidPath = Some (pid_file pid)) as Hk'.
      { rewrite <- P1. eapply C88_untouched; [exact E|]. intros ds' d Ed Hd. injection Ed as <-. apply P4. rewrite <- Es. exact Hd. }
      unfold send_signal. rewrite Hk'. unfold text_at. rewrite Hk'. cbn [pid_file]. rewrite pid_numeral by lia. rewrite P3. reflexivity. }
    assert (host <> [] -> send_request O host = ([Posted host], Ret tt)) as Hq.
    { intros Hh. unfold send_request. rewrite (Hhost Hh). rewrite (eqb_refl _ beqb_ok). reflexivity. }
    destruct (beqb pidPath []) eqn:P0; destruct (beqb host []) eqn:P1.
    - apply beqb_ok in P0, P1. subst. injection H2 as -> ->. split; [reflexivity|]. intros _. split; intros X; exfalso; apply X; reflexivity.
    - apply beqb_ok in P0. assert (host <> []) as Hh by (intros X; rewrite X in P1; discriminate P1). rewrite (Hq Hh) in H2. cbn [app] in H2. injection H2 as -> ->. split; [reflexivity|]. intros _. split; [intros X; exfalso; apply X; exact P0|intros _; left; reflexivity].
    - apply beqb_ok in P1. assert (pidPath <> []) as Hh by (intros X; rewrite X in P0; discriminate P0). rewrite (Hs Hh) in H2. cbn [app] in H2. injection H2 as -> ->. split; [reflexivity|]. intros _. split; [intros _; left; reflexivity|intros X; exfalso; apply X; exact P1].
    - assert (pidPath <> []) as Hh by (intros X; rewrite X in P0; discriminate P0). assert (host <> []) as Hh' by (intros X; rewrite X in P1; discriminate P1). rewrite (Hs Hh), (Hq Hh') in H2. cbn [app] in H2. injection H2 as -> ->.
      split; [reflexivity|]. intros _. split; intros _; [left|right; left]; reflexivity. }
  split; [exact Hr|]. split; [|exact Hn]. eapply C88_success_partial; try eassumption; [intros d Hd; apply Hgood; exact Hd|left; exact Hr].
Qed.
Print Assumptions C88_succeeds_partial.
(** And then the completions are those of the source's lines, and the suggestions those of the
    index of its lines, for which C71, C72 and C95 say what they are. *)
Theorem C88_served_partial : forall L rb srt g ord lowr chunk fuel O dict pidPath host ds k k' notes r (W : description -> list bytes),
  cdb_ok L -> roaring_ok rb -> roaring_written rb -> gob_ok g -> order_ok ord -> sorter_ok srt -> apart (on_disc (selected dict ds)) ->
  (forall d, In d (on_disc (selected dict ds)) -> good_source rb g ord lowr fuel (text_at k (source_of d)) d (W d)) ->
  indexer L rb g ord (ToLower lowr) chunk fuel O dict pidPath host (Ret ds) k = (k', notes, r) -> r = Ret tt \/ notes <> [] ->
  forall d, In d (on_disc (selected dict ds)) -> exists recs ix, open_disc g k' d = Ret (recs, ix) /\
  (forall query limit, let q := prefix_grams lowr (d_conf d) query in NoDup q -> 1 <= zlen q < 2 ^ 32 -> 0 <= limit ->
     forall sched, DiscAutocomplete L rb srt ix recs (ToLower lowr) (d_conf d) query limit sched = ServiceAutocomplete rb srt ix (W d) (ToLower lowr) (d_conf d) query limit sched /\
     forall r, dictionary_ok lowr (d_conf d) (W d) -> DiscAutocomplete L rb srt ix recs (ToLower lowr) (d_conf d) query limit sched = Some r ->
     r = Ret (map (fun i => (of_int 0, entry_at (W d) i)) (firstn (Z.to_nat limit) (matches lowr (d_conf d) q (W d))))) /\
  (forall query m alpha topK, let q := entry_grams lowr (d_conf d) query in
     NoDup q -> 1 <= zlen q <= 65535 -> (m = Overlap -> zlen q <= 32767) -> alpha_ok alpha -> 1 <= topK -> (exists w, In w (W d) /\ MinY m alpha (zlen q) <= zlen (entry_grams lowr (d_conf d) w)) ->
     forall sched, DiscSuggest L rb srt ix recs (ToLower lowr) (d_conf d) query alpha m topK sched = ServiceSuggest rb srt ix (W d) (ToLower lowr) (d_conf d) query alpha m topK sched) /\
  index_built rb g ord "" lowr (d_conf d) (W d) ix.
Proof.
  intros L rb srt g ord lowr chunk fuel O dict pidPath host ds k k' notes r W HL Hrb Hrw Hg Ho Hs Ha Hgood E Hr d Hd.
  destruct (C88_success_partial L rb g ord lowr chunk fuel O dict pidPath host ds k k' notes r W HL Hrb Hrw Hg Ho Ha Hgood E Hr d Hd) as (recs & ix & Eo & Hb & Hget). destruct (Hgood d Hd) as (_ & Hdict & _).
  exists recs, ix. split; [exact Eo|]. split; [|split; [|exact Hb]].
  - intros query limit q Nq Hq Hl sched. pose proof (C74_disc_autocomplete_partial L rb srt g ord "" lowr (d_conf d) (W d) recs ix query limit Hrb Hrw Hg Ho Hs Hdict Hb Hget Nq Hq Hl sched) as He. split; [exact He|]. intros r0 Hdict' H0. rewrite He in H0.
    exact (C73_autocomplete_partial rb srt g ord "" lowr (d_conf d) (W d) ix query limit Hrb Hrw Hg Ho Hs Hdict' Hb Nq Hq Hl sched r0 H0).
  - intros query m alpha topK q Nq H1 H2 H3 H4 H5. eapply C74_disc_suggest_partial; eassumption.
Qed.
Print Assumptions C88_served_partial.

(** The PID file the server writes is read back as its PID. *)
Theorem C88_pid : forall O k pidPath pid, k pidPath = Some (pid_file pid) -> 0 < pid < 2 ^ 31 -> o_kill O pid = None -> send_signal O k pidPath = ([Signalled pid], Ret tt).
Proof. intros O k pidPath pid Hk Hp Ho. unfold send_signal, text_at. rewrite Hk. cbn [pid_file]. rewrite pid_numeral by lia. rewrite Ho. reflexivity. Qed.
Print Assumptions C88_pid.

(** ** Concrete runs *)
Definition d88 (name src : string) : description := mkDesc (mkPlace (bs name) (bs src) (bs "out") (bs "/d")) true demo71_conf.
Definition out88 : outside := mkOut (fun _ => true) (fun p => beqb p (bs "/d/out")) (fun _ => None) (fun _ => Ret (bs "OK")).
Definition run88 (pid host : string) (ds : list description) (k : disk) := indexer lib74 rb4 gob1 (fun _ m => rev m) (ToLower demo71_low) (fun _ => 3%nat) 100 out88 [] (bs pid) (bs host) (Ret ds) k.
Definition disk88 (file : bytes) : disk := put (put (fun _ => None) (bs "/d/a.txt") (CText file)) (bs "/pid") (pid_file 4711).
Definition asked88 (k : disk) (d : description) : option (res (list (f64 * bytes))) :=
  match open_disc gob1 k d with Ret (recs, ix) => DiscAutocomplete lib74 rb4 (fun l => l) ix recs (ToLower demo71_low) demo71_conf (bs "A") 2 (demo73_sched (bs "A")) | _ => None end.
Definition status88 (r : res unit) : bool := match r with Ret _ => true | _ => false end.

(** A run that fails half-way can leave the new dictionary with the old index, which opens
    without an error: here the new source has an empty line, and the words answered to "A" are
    not completions of it. *)
Definition file88 : bytes := bs "uu" ++ [10] ++ bs "vv" ++ [10] ++ bs "ww" ++ [10; 10].
Definition disk88_1 : disk := fst (fst (run88 "/pid" "" [d88 "x" "a.txt"] (disk88 demo74_file))).
Definition disk88_2 : disk := fst (fst (run88 "/pid" "" [d88 "x" "a.txt"] (put disk88_1 (bs "/d/a.txt") (CText file88)))).
Lemma order_rev : order_ok (fun _ m => rev m).
Proof. intros m gen. apply Permutation_rev. Qed.
Lemma good88 name src : good_source rb4 gob1 (fun _ m => rev m) demo71_low 100 demo74_file (d88 name src) demo71_words.
Proof.
  split; [exact demo74_ok|]. split; [exact (or_introl demo71_ok)|]. split; [vm_compute; lia|]. intros ops b E Eb. change (d_conf (d88 name src)) with demo71_conf in E.
  assert (match IndexDictionary rb4 gob1 (fun _ m => rev m) dl hd 0 (ToLower demo71_low) demo71_conf demo71_words with Ret ops => match fs_open (fs_run NewFSDirectory ops) dl with Some b => zlen b <? 2 ^ 32 | None => true end | _ => true end = true) as H by (vm_compute; reflexivity).
  rewrite E, Eb in H. lia.
Qed.
Theorem C88_mixed_refuted : exists d file k2 notes r2, serves lib74 rb4 gob1 (fun _ m => rev m) demo71_low disk88_1 d demo71_words /\
  asked88 disk88_1 d = Some (Ret [(of_int 0, bs "Abc"); (of_int 0, bs "ab")]) /\
  run88 "/pid" "" [d] (put disk88_1 (source_of d) (CText file)) = (k2, notes, r2) /\ status88 r2 = false /\
  asked88 k2 d = Some (Ret [(of_int 0, bs "vv"); (of_int 0, bs "ww")]).
Proof.
  exists (d88 "x" "a.txt"), file88. destruct (run88 "/pid" "" [d88 "x" "a.txt"] (put disk88_1 (source_of (d88 "x" "a.txt")) (CText file88))) as [[k2 notes] r2] eqn:E. exists k2, notes, r2. split; [|split; [vm_compute; reflexivity|split; [reflexivity|]]].
  - unfold disk88_1. destruct (run88 "/pid" "" [d88 "x" "a.txt"] (disk88 demo74_file)) as [[k1 n1] r1] eqn:E1. cbn [fst]. unfold run88 in E1.
    refine (C88_success_partial lib74 rb4 gob1 _ demo71_low _ 100 out88 [] (bs "/pid") (bs "") [d88 "x" "a.txt"] (disk88 demo74_file) k1 n1 r1 (fun _ => demo71_words) lib74_ok rb4_ok rb4_written gob1_ok order_rev _ _ E1 _ (d88 "x" "a.txt") _).
    + split; [repeat constructor|]. intros d d' [<-|[]] [<-|[]] H. vm_compute in H. intuition discriminate.
    + intros d [<-|[]]. exact (good88 "x" "a.txt").
    + left. assert (status88 (snd (run88 "/pid" "" [d88 "x" "a.txt"] (disk88 demo74_file))) = true) as Hs by (vm_compute; reflexivity). unfold run88 in Hs. rewrite E1 in Hs. destruct r1 as [[]|e| |]; [reflexivity|discriminate Hs..].
    + left. reflexivity.
  - split.
    + assert (status88 (snd (run88 "/pid" "" [d88 "x" "a.txt"] (put disk88_1 (source_of (d88 "x" "a.txt")) (CText file88)))) = false) as Hs by (vm_compute; reflexivity). rewrite E in Hs. exact Hs.
    + assert (asked88 (fst (fst (run88 "/pid" "" [d88 "x" "a.txt"] (put disk88_1 (source_of (d88 "x" "a.txt")) (CText file88))))) (d88 "x" "a.txt") = Some (Ret [(of_int 0, bs "vv"); (of_int 0, bs "ww")])) as Hs by (vm_compute; reflexivity). rewrite E in Hs. exact Hs.
Qed.
Print Assumptions C88_mixed_refuted.
(** A PID file that says "-1" makes the command signal every process of the user. *)
Theorem C88_pid_refuted : snd (fst (run88 "/pid" "" [d88 "x" "a.txt"] (put (disk88 demo74_file) (bs "/pid") (CText (bs "-1" ++ [10]))))) = [Signalled (-1)].
Proof. vm_compute. reflexivity. Qed.
Print Assumptions C88_pid_refuted.
(** The signal is sent also when no selected description has files: a server keeps the others in memory and builds them again. *)
Theorem C88_no_files_signalled : exists ds k k' pid, on_disc ds = [] /\ ds <> [] /\ run88 "/pid" "" ds k = (k', [Signalled pid], Ret tt) /\ k' = k.
Proof. exists [mkDesc (mkPlace (bs "x") (bs "a.txt") (bs "out") (bs "/d")) false demo71_conf], (disk88 []), (disk88 []), 4711. split; [reflexivity|]. split; [discriminate|]. split; reflexivity. Qed.
Print Assumptions C88_no_files_signalled.

(** The hypotheses are met: two descriptions, a PID file, a server; and a failing run. *)
Definition disk88_two : disk := put (disk88 demo74_file) (bs "/d/b.txt") (CText demo74_file).
Definition ds88 : list description := [d88 "x" "a.txt"; mkDesc (mkPlace (bs "r") (bs "none") (bs "out") (bs "/d")) false demo71_conf; d88 "y" "b.txt"].
Example C88_nonvacuous : apart (on_disc (selected [] ds88)) /\
  (forall d, In d (on_disc (selected [] ds88)) -> writable out88 d /\ good_source rb4 gob1 (fun _ m => rev m) demo71_low 100 (text_at disk88_two (source_of d)) d demo71_words) /\
  (disk88_two (bs "/pid") = Some (pid_file 4711) /\ forall d, In d (on_disc (selected [] ds88)) -> ~ In (bs "/pid") (files_of d)) /\
  (let '(k, notes, r) := run88 "/pid" "http://h" ds88 disk88_two in status88 r = true /\ notes = [Signalled 4711; Posted (bs "http://h")] /\
     asked88 k (d88 "y" "b.txt") = Some (Ret [(of_int 0, bs "Abc"); (of_int 0, bs "ab")])) /\
  (let '(k, notes, r) := run88 "/pid" "http://h" [d88 "x" "missing"; d88 "y" "b.txt"] disk88_two in status88 r = false /\ notes = [] /\ k (bs "/d/out/y.cdb") = None) /\
  map (fun d => p_name (d_place d)) (selected (bs "y") ds88) = [bs "y"].
Proof.
  split; [split|].
  - cbn. repeat constructor; intros p Hp Hq; vm_compute in Hp, Hq; intuition (subst; discriminate).
  - intros d d' [<-|[<-|[]]] [<-|[<-|[]]] H; vm_compute in H; intuition discriminate.
  - split; [|split; [split; [reflexivity|]|split; [|split]]].
    + intros d [<-|[<-|[]]]; (split; [split; [intros; reflexivity|reflexivity]|]); [exact (good88 "x" "a.txt")|exact (good88 "y" "b.txt")].
    + intros d [<-|[<-|[]]] H; vm_compute in H; intuition discriminate.
    + assert (let '(k, notes, r) := run88 "/pid" "http://h" ds88 disk88_two in (status88 r, notes, asked88 k (d88 "y" "b.txt")) = (true, [Signalled 4711; Posted (bs "http://h")], Some (Ret [(of_int 0, bs "Abc"); (of_int 0, bs "ab")]))) as H by (vm_compute; reflexivity).
      destruct (run88 "/pid" "http://h" ds88 disk88_two) as [[k notes] r]. injection H as H1 H2 H3. split; [exact H1|]. split; [exact H2|exact H3].
    + assert (let '(k, notes, r) := run88 "/pid" "http://h" [d88 "x" "missing"; d88 "y" "b.txt"] disk88_two in (status88 r, notes, k (bs "/d/out/y.cdb")) = (false, [], None)) as H by (vm_compute; reflexivity).
      destruct (run88 "/pid" "http://h" [d88 "x" "missing"; d88 "y" "b.txt"] disk88_two) as [[k notes] r]. injection H as H1 H2 H3. split; [exact H1|]. split; [exact H2|exact H3].
    + vm_compute. reflexivity.
Qed.
