(** C104, continued: cut files in a deployment, and files left by writes that failed. *)
From Coq Require Import String ZifyBool.
From Verif Require Import Base BaseLemmas GoMap Store Postings Index Text Analysis Scanner LMText NGram Mph P_Mph NGramStore GoogleNGram P_NGramStore P_CutModel NGramIndex CdbDict SpellBuild Paths Config Indexer Deploy Eval LMDeploy WriteFaults WriteFaultsProofs2 WriteFaultsProofs4 P_WriteFaults.
From Verif Require P_LMDeploy LMDeploySpec P_Pipeline EvalSpec.
Local Open Scope Z_scope.
Local Notation length := List.length.

(* [b] begins like the file of the model [m] with the table [t], and is shorter *)
Definition cut_short (ixs : list packed) (t : mph) (b : bytes) : Prop :=
  exists out rest, StoreBinary (NewNGramModel ixs) t [] = Ret out /\ zlen out < 2 ^ 62 /\ b ++ rest = out /\ rest <> [].

(** A deployed model whose binary file is cut short: neither the language model nor the
    spell checker is built from it, and the evaluating command answers nothing and fails. *)
Theorem C104_deployed : forall lowr asort L rb g ord chunk fuel flog O k configPath stdin c ixs t b,
  Forall vector_ok ixs -> zlen ixs <= 255 -> table_ok t -> k (binary_path (model_place c)) = Some (CText b) -> cut_short ixs t b ->
  (forall l, load_model O k c <> Ret l) /\ (forall sp, load_spellchecker lowr asort L rb g ord O k c <> Ret sp) /\
  (read_config k configPath = Ret c -> exists r, lm_eval_command lowr asort chunk fuel O flog configPath k stdin = ([], Some r) /\ r <> Ret tt).
Proof.
  intros lowr asort L rb g ord chunk fuel flog O k configPath stdin c ixs t b Hv Hb Ht Hk (out & rest & Hst & Hz & E & Hr).
  pose proof (C104_cut_never_loaded ixs t out b rest Hv Hb Ht Hst Hz E Hr) as Hcut.
  assert (forall recs b', open_model O k c = Ret (recs, b') -> b' = b) as Hopen.
  { intros recs b'. unfold open_model. destruct (negb _); [discriminate|]. destruct (k (GetDictionaryFile (model_place c))) as [[|recs'|]|]; try discriminate. unfold open_input, text_at. rewrite Hk. destruct b as [|x b0]; [discriminate|]. intros H. injection H as _ <-. reflexivity. }
  assert (forall l, load_model O k c <> Ret l) as Hlm.
  { intros l. unfold load_model. destruct (open_model O k c) as [[recs b']| | |] eqn:Eo; cbn [bind]; try discriminate. rewrite (Hopen recs b' eq_refl). unfold RetrieveLMFromBinary. destruct (fst (LoadBinary (NewBytesInput b))) as [x| | |] eqn:El; cbn [bind]; try discriminate. exfalso. exact (Hcut x eq_refl). }
  split; [exact Hlm|]. split.
  - intros sp. unfold load_spellchecker. destruct (open_model O k c) as [[recs b']| | |] eqn:Eo; cbn [bind]; try discriminate. rewrite (Hopen recs b' eq_refl). unfold BuildSpellChecker, RetrieveLMFromBinary.
    destruct (fst (LoadBinary (NewBytesInput b))) as [x| | |] eqn:El; cbn [bind]; try discriminate. exfalso. exact (Hcut x eq_refl).
  - intros Hc. unfold lm_eval_command. rewrite Hc. cbn [wrapped bind]. destruct (load_model O k c) as [l|e| |] eqn:E2; cbn [bind]; [exfalso; exact (Hlm l eq_refl)|eexists; (split; [reflexivity|discriminate])..].
Qed.
Print Assumptions C104_deployed.

(** In terms of the n-gram files a model is built from: counts of 32 bits, fewer than 2^28 lines per
    file, at most 255 orders. *)
Theorem C104_built : forall files ixs t out c rest, Forall (fun f => Forall (fun l : list Z * Z => is_u32 (snd l)) f /\ zlen f < 2 ^ 28) files -> zlen files <= 255 ->
  read_vectors [] files = Ret ixs -> table_ok t -> StoreBinary (NewNGramModel ixs) t [] = Ret out -> zlen out < 2 ^ 62 -> c ++ rest = out ->
  (rest <> [] -> forall v, fst (LoadBinary (NewBytesInput c)) <> Ret v) /\ (rest = [] -> fst (LoadBinary (NewBytesInput c)) = Ret (NewNGramModel ixs, t)).
Proof.
  intros files ixs t out c rest Hf Hz E Ht Hst Hl Ec. pose proof (read_fits files [] ixs Hf (Forall_nil _) E) as Hv. assert (zlen ixs <= 255) as Hb.
  { assert (forall fs vs r, read_vectors vs fs = Ret r -> zlen r = zlen vs + zlen fs) as G; [|rewrite (G _ _ _ E); exact Hz].
    clear. induction fs as [|f fs IH]; intros vs r E'; cbn [read_vectors] in E'; [injection E' as <-; rewrite zlen_nil; lia|].
    destruct (put_lines vs [] f) as [t0| | |]; cbn [bind] in E'; try discriminate. rewrite (IH _ _ E'), zlen_app, !zlen_cons, zlen_nil. lia. }
  split; [intros Hr; exact (C104_cut_never_loaded ixs t out c rest Hv Hb Ht Hst Hl Ec Hr)|]. intros ->. rewrite app_nil_r in Ec. subst c.
  destruct (C52_binary_partial ixs t Hv Hb Ht) as (stored & E1 & E2). rewrite E1 in Hst. injection Hst as <-. apply E2. lia.
Qed.
Print Assumptions C104_built.

(** Whatever a faulty disk does while the model is written into a file that did not exist or
    was empty: if the writer reports an error, then what is in the file afterwards is the
    complete model or cannot be loaded. *)
Theorem C104_failed_write : forall M name ixs t out w0 w1 e, Forall vector_ok ixs -> zlen ixs <= 255 -> table_ok t ->
  StoreBinary (NewNGramModel ixs) t [] = Ret out -> zlen out < 2 ^ 62 -> (forall b, w_files w0 name = Some b -> b = []) ->
  binary_to M name (NewNGramModel ixs) t w0 = (Fail e, w1) ->
  w_files w1 name = Some out \/ (forall b v, w_files w1 name = Some b -> fst (LoadBinary (NewBytesInput b)) <> Ret v).
Proof.
  intros M name ixs t out w0 w1 e Hv Hb Ht Hst Hz Hw E.
  assert (forall b rest v, b ++ rest = out -> rest <> [] -> fst (LoadBinary (NewBytesInput b)) <> Ret v) as Hcut by (intros b rest v E1 E2; exact (C104_cut_never_loaded ixs t out b rest Hv Hb Ht Hst Hz E1 E2 v)).
  destruct (C103_model_file M name _ t out w0 Hst) as (r & w1' & new & E' & _ & _ & [(-> & _)|(_ & _ & Hf)]); rewrite E in E'; [discriminate E'|]. injection E' as _ <-.
  destruct Hf as [Hf|(c & rest & Hf & Ec)].
  - right. intros b v Hb'. rewrite Hf in Hb'. apply Hw in Hb'. subst b. intros H. discriminate H.
  - destruct rest as [|x rest]; [left; rewrite app_nil_r in Ec; rewrite Hf, Ec; reflexivity|]. right. intros b v Hb'. rewrite Hf in Hb'. injection Hb' as <-. exact (Hcut c (x :: rest) v Ec ltac:(discriminate)).
Qed.
Print Assumptions C104_failed_write.

(** ** Witnesses *)
(* a deployment of C98 after building, its model file replaced by the first [n] bytes of the model [ixs1] *)
Definition cut104 (n : nat) : bytes := firstn n stored1.
Definition disk104 (n : nat) : disk := put P_LMDeploy.after98 (binary_path (model_place (P_LMDeploy.c98 "a" "a.txt" 2))) (CText (cut104 n)).
Lemma ok104 : Forall vector_ok ixs1.
Proof. destruct C52_nonvacuous as (Hf & _ & E & _). exact (read_fits _ [] ixs1 Hf (Forall_nil _) E). Qed.
(* the disk takes 40 bytes of a write, then is full; the file did not exist *)
Definition run104 : res unit * world := binary_to (mkMachine (fun _ => true) (fun _ => 40)) "m"%string (NewNGramModel ixs1) table0 (mkWorld (fun _ => None) [] []).
Example C104_nonvacuous :
  Forall vector_ok ixs1 /\ zlen ixs1 <= 255 /\ table_ok table0 /\ zlen stored1 = 126 /\ StoreBinary (NewNGramModel ixs1) table0 [] = Ret stored1 /\
  cut104 120 ++ skipn 120 stored1 = stored1 /\ skipn 120 stored1 <> [] /\ zlen (cut104 120) = 120 /\ cut_short ixs1 table0 (cut104 120) /\
  read_config (disk104 120) (bs "/d/a.json") = Ret (P_LMDeploy.c98 "a" "a.txt" 2) /\
  (exists l, load_model P_LMDeploy.out98 P_LMDeploy.after98 (P_LMDeploy.c98 "a" "a.txt" 2) = Ret l) /\
  (exists l, load_model P_LMDeploy.out98 (disk104 126) (P_LMDeploy.c98 "a" "a.txt" 2) = Ret l).
Proof.
  assert (zlen stored1 < 2 ^ 62) as Hz by (vm_compute; reflexivity). assert (skipn 120 stored1 <> []) as Hs by (intros H; vm_compute in H; discriminate H). assert (StoreBinary (NewNGramModel ixs1) table0 [] = Ret stored1) as Hst by (vm_compute; reflexivity).
  split; [exact ok104|]. split; [vm_compute; discriminate|]. split; [exact (proj1 C56_nonvacuous)|]. split; [vm_compute; reflexivity|]. split; [exact Hst|].
  split; [apply firstn_skipn|]. split; [exact Hs|]. split; [vm_compute; reflexivity|]. split; [exists stored1, (skipn 120 stored1); split; [exact Hst|split; [exact Hz|split; [apply firstn_skipn|exact Hs]]]|].
  split; [vm_compute; reflexivity|]. split; eexists; vm_compute; reflexivity.
Qed.

Example C104_nonvacuous_write : told103 (fst run104) = 1 /\ w_files (snd run104) "m"%string = Some (cut104 40) /\ map (fun n => told103 (fst (LoadBinary (NewBytesInput (cut104 n))))) (seq 0 127) = repeat 1 12 ++ repeat 2 25 ++ repeat 1 6 ++ repeat 2 25 ++ repeat 1 5 ++ repeat 2 17 ++ repeat 1 36 ++ [0].
Proof. split; [vm_compute; reflexivity|]. split; vm_compute; reflexivity. Qed.

(** ** What does not hold *)
(** That a file cut short is an error: behind a cut inside a vector's packed numbers the loader slices
    beyond the mapped file, and the process that loads the model dies. *)
Theorem C104_error_refuted : exists ixs t b, Forall vector_ok ixs /\ zlen ixs <= 255 /\ table_ok t /\ cut_short ixs t b /\ (forall e, fst (LoadBinary (NewBytesInput b)) <> Fail e) /\ fst (LoadBinary (NewBytesInput b)) = Panic /\
  load_model P_LMDeploy.out98 (put P_LMDeploy.after98 (binary_path (model_place (P_LMDeploy.c98 "a" "a.txt" 2))) (CText b)) (P_LMDeploy.c98 "a" "a.txt" 2) = Panic.
Proof.
  exists ixs1, table0, (cut104 30). assert (fst (LoadBinary (NewBytesInput (cut104 30))) = Panic) as Hp by (vm_compute; reflexivity). split; [exact ok104|]. split; [vm_compute; discriminate|]. split; [exact (proj1 C56_nonvacuous)|].
  split. { exists stored1, (skipn 30 stored1). split; [vm_compute; reflexivity|]. split; [vm_compute; reflexivity|]. split; [apply firstn_skipn|]. intros H. vm_compute in H. discriminate H. }
  split; [intros e H; rewrite Hp in H; discriminate H|]. split; [exact Hp|vm_compute; reflexivity].
Qed.
Print Assumptions C104_error_refuted.

(** That a deployment whose last build failed is one model or none: the new dictionary is written before the
    model file, so a rebuild that fails in between (here the model file cannot be created) leaves the
    new dictionary beside the old model; both load, and sentences are scored without an error by
    neither text. *)
Definition deny104 (p : bytes) : outside := mkOut (fun x => negb (beqb x p)) (fun _ => true) (fun _ => None) (fun _ => Ret []).
Theorem C104_mixed_refuted : let c := P_LMDeploy.c98 "a" "a.txt" 2 in
  let k := put P_LMDeploy.after98 (GetSourcePath (model_place c)) (CText (bs "Am i? Am, am!")) in
  let score sents := map (fun s => (s, LMDeploySpec.sentence_score (fun x => x) (m_start c) (m_end c) (m_order c) sents s)) [[bs "i"; bs "am"]; [bs "am"]] in
  exists k1 k2 e, P_LMDeploy.count98 (bs "/d/a.json") k = (k1, Ret tt) /\
    build_lm_command sort_big P_Cdb.lib74 (fun _ => 3%nat) 300 50 (deny104 (binary_path (model_place c))) (bs "/d/a.json") k1 = (k2, Fail e) /\
    snd (P_LMDeploy.eval98 (bs "/d/a.json") k2) = Some (Ret tt) /\
    EvalSpec.answers (fst (P_LMDeploy.eval98 (bs "/d/a.json") k2)) <> score P_Pipeline.sents70 /\
    EvalSpec.answers (fst (P_LMDeploy.eval98 (bs "/d/a.json") k2)) <> score P_LMDeploy.sents98.
Proof.
  cbv zeta. match goal with |- context [P_LMDeploy.count98 ?a ?b] => set (k := b) end.
  assert (snd (P_LMDeploy.count98 (bs "/d/a.json") k) = Ret tt) as E1 by (vm_compute; reflexivity). destruct (P_LMDeploy.count98 (bs "/d/a.json") k) as [k1 r1] eqn:C1. cbn [snd] in E1. subst r1.
  assert (k1 = fst (P_LMDeploy.count98 (bs "/d/a.json") k)) as K1 by (rewrite C1; reflexivity). set (B := build_lm_command sort_big P_Cdb.lib74 (fun _ => 3%nat) 300 50 (deny104 (binary_path (model_place (P_LMDeploy.c98 "a" "a.txt" 2)))) (bs "/d/a.json")).
  assert (snd (B k1) = Fail (ErrWrapped (ErrOther 96))) as E2 by (rewrite K1; vm_compute; reflexivity). destruct (B k1) as [k2 r2] eqn:C2. cbn [snd] in E2. subst r2.
  assert (k2 = fst (B (fst (P_LMDeploy.count98 (bs "/d/a.json") k)))) as K2 by (rewrite <- K1, C2; reflexivity).
  exists k1, k2, (ErrWrapped (ErrOther 96)). split; [reflexivity|]. split; [exact C2|]. rewrite K2. clear. split; [vm_compute; reflexivity|]. split; intros H; vm_compute in H; discriminate H.
Qed.
Print Assumptions C104_mixed_refuted.
