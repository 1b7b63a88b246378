(** Proofs about writing to a disk that fails: the encoders write what they write to a disk
    that does not fail, up to the first failure. *)
From Coq Require Import String ZifyBool.
From Verif Require Import Base BaseLemmas GoMap Store StoreSpec Compression Postings Merger CountTrie Float64 Decimal NGram Mph NGramStore GoogleNGram Index WriteFaults WriteFaultsProofs.
Local Open Scope Z_scope.
Local Notation length := List.length.

Definition pieces_ok (pieces : bytes -> list bytes) : Prop := forall b, concat (pieces b) = b.

Section Machine.
Context (M : machine) (pieces : bytes -> list bytes) (Hpieces : pieces_ok pieces).

Ltac dret := match goal with |- does _ (lift (Ret _)) _ ?s => apply does_ret end.
Lemma does_nil {A B} h (p : io A) (q : A -> io B) a b s : does h p a s -> does h (q a) b [] -> does h (ibind p q) b s.
Proof. intros H1 H2. rewrite <- (app_nil_r s). eapply does_bind; eassumption. Qed.

Lemma vuint32_does h v o n o' : WriteVUInt32 o v = Ret (n, o') -> exists s, o' = o ++ s /\ does h (out_vuint32 M h v) n s.
Proof.
  unfold WriteVUInt32, out_vuint32. destruct (vuint_chunk 5 v) as [c| | |] eqn:E; try discriminate. cbn [bind Write]. intros H. injection H as <- <-.
  exists c. split; [reflexivity|]. apply (does_lift h _ c); [reflexivity|apply out_write_does].
Qed.
Lemma varint_does h l : forall prev o n o', varIntEncode l o prev = Ret (n, o') -> exists s, o' = o ++ s /\ does h (varint_to M h l prev) n s.
Proof.
  induction l as [|v l IH]; intros prev o n o' H.
  - injection H as <- <-. exists []. rewrite app_nil_r. split; [reflexivity|apply does_ret].
  - cbn [varIntEncode] in H. destruct (WriteVUInt32 o (wrap32 (v - prev))) as [[n1 o1]| | |] eqn:E1; try discriminate. cbn [bind] in H.
    destruct (varIntEncode l o1 v) as [[n2 o2]| | |] eqn:E2; try discriminate. cbn [bind] in H. injection H as <- <-.
    destruct (vuint32_does h _ _ _ _ E1) as (s1 & -> & D1). destruct (IH _ _ _ _ E2) as (s2 & -> & D2). exists (s1 ++ s2). split; [apply eq_sym, app_assoc|].
    cbn [varint_to]. eapply does_bind; [exact D1|]. apply (does_nil h _ _ n2); [exact D2|apply does_ret].
Qed.
Lemma skip_does h gap : forall fuel l i prev total o n o', skipEncode_loop fuel gap l i prev total o = Ret (n, o') ->
  exists s, o' = o ++ s /\ does h (skip_to M fuel h gap l i prev total) n s.
Proof.
  induction fuel as [|fuel IH]; intros l i prev total o n o' H; [discriminate|]. cbn [skipEncode_loop skip_to] in *. destruct (i <? zlen l).
  2: { injection H as <- <-. exists []. rewrite app_nil_r. split; [reflexivity|apply does_ret]. }
  cbv zeta in *. set (j := if i + gap >? zlen l then zlen l else i + gap) in *. destruct (slice l i j) as [blk| | |]; try discriminate. cbn [bind] in *.
  destruct (varIntEncode blk [] prev) as [[nb body]| | |]; try discriminate. cbn [bind] in *. destruct (index l i) as [pv| | |]; try discriminate. cbn [bind Write WriteUInt16] in *.
  unfold WriteUInt16, Write in H. cbn [bind] in H. destruct (IH _ _ _ _ _ _ _ H) as (s & -> & D).
  eexists. split; [rewrite <- !app_assoc; reflexivity|].
  apply (does_lift h _ (nb, body)); [reflexivity|]. apply (does_lift h _ pv); [reflexivity|]. cbn [fst snd]. eapply does_bind; [apply out_write_does|].
  destruct (Z.eqb_spec (zlen body) 0) as [Hz|Hz].
  - apply zlen_zero in Hz. subst body. cbn [app]. apply (does_lift h _ 0); [reflexivity|exact D].
  - eapply does_bind; [apply out_write_does|exact D].
Qed.
Lemma pieces_does h ps : forall n, does h (pieces_to M h ps n) (n + zlen (concat ps)) (concat ps).
Proof.
  induction ps as [|p ps IH]; intros n; cbn [pieces_to concat]; [rewrite Z.add_0_r; apply does_ret|]. rewrite zlen_app, Z.add_assoc. eapply does_bind; [apply out_write_does|apply IH].
Qed.
Lemma posting_does rb h l o n o' : encodePosting rb l o = Ret (n, o') -> exists s, o' = o ++ s /\ does h (posting_to M pieces rb h l) n s.
Proof.
  unfold encodePosting, posting_to. destruct (zlen l <=? skippingGapSize + 1); [apply varint_does|]. destruct (zlen l <=? maxSkippingLen).
  - unfold skipEncode, skipping_to. destruct (zlen l <? skippingGapSize); [discriminate|]. destruct (skippingGapSize * 5 <? 0); [discriminate|]. apply skip_does.
  - unfold bitmapEncode, bitmap_to. intros H. injection H as <- <-. eexists. split; [reflexivity|]. pose proof (pieces_does h (pieces (rb_enc rb (to_set l))) 0) as D. rewrite (Hpieces _) in D. exact D.
Qed.
Lemma commit_index_does rb h c m : forall pos ws ds pos', commit_index rb c m pos = Ret (ws, ds, pos') -> does h (commit_index_to M pieces rb h c m pos) (ds, pos') (concat ws).
Proof.
  induction m as [|[t l] m IH]; intros pos ws ds pos' H; cbn [commit_index commit_index_to] in *; [injection H as <- <- <-; apply does_ret|].
  destruct (encodePosting rb l []) as [[n w]| | |] eqn:E; try discriminate. cbn [bind] in H. destruct (commit_index rb c m (pos + n)) as [[[ws1 ds1] pos1]| | |] eqn:E1; try discriminate. cbn [bind] in H. injection H as <- <- <-.
  destruct (posting_does rb h l [] n w E) as (s & -> & D). cbn [concat app] in *. eapply does_bind; [exact D|]. apply (does_nil h _ _ (ds1, pos1)); [apply IH, E1|apply does_ret].
Qed.
Lemma commit_indices_does rb ord h w : forall c pos ws ds pos', commit_indices rb ord c w pos = Ret (ws, ds, pos') -> does h (commit_indices_to M pieces rb ord h c w pos) (ds, pos') (concat ws).
Proof.
  induction w as [|[m|] w IH]; intros c pos ws ds pos' H; cbn [commit_indices commit_indices_to] in *; [injection H as <- <- <-; apply does_ret| |apply IH, H].
  destruct (commit_index rb c (ord c m) pos) as [[[ws1 ds1] pos1]| | |] eqn:E1; try discriminate. cbn [bind] in H. destruct (commit_indices rb ord (c + 1) w pos1) as [[[ws2 ds2] pos2]| | |] eqn:E2; try discriminate. cbn [bind] in H. injection H as <- <- <-.
  rewrite concat_app. eapply does_bind; [apply commit_index_does, E1|]. cbn [fst snd]. apply (does_nil h _ _ (ds2, pos2)); [apply IH, E2|apply does_ret].
Qed.

(** ** models *)
Lemma vector_does h v o n o' : StoreVector v o = Ret (n, o') -> exists s, o' = o ++ s /\ does h (vector_to M h v) n s.
Proof.
  unfold StoreVector, vector_to. cbv zeta. unfold Write. cbn [bind]. intros H. injection H as <- <-. eexists. split; [rewrite <- !app_assoc; reflexivity|].
  eapply does_bind; [apply out_write_does|]. eapply does_bind; [apply out_write_does|]. eapply does_nil; [apply out_write_does|apply does_ret].
Qed.
Lemma vectors_does h vs : forall o p n o', store_vectors vs o p = Ret (n, o') -> exists s, o' = o ++ s /\ does h (vectors_to M h vs p) n s.
Proof.
  induction vs as [|v vs IH]; intros o p n o' H; cbn [store_vectors vectors_to] in *; [injection H as <- <-; exists []; rewrite app_nil_r; split; [reflexivity|apply does_ret]|].
  destruct (StoreVector v o) as [[n1 o1]| | |] eqn:E; try discriminate. cbn [bind] in H. destruct (vector_does h _ _ _ _ E) as (s1 & -> & D1). destruct (IH _ _ _ _ H) as (s2 & -> & D2).
  exists (s1 ++ s2). split; [rewrite app_assoc; reflexivity|]. eapply does_bind; eassumption.
Qed.
Lemma model_does h m o n o' : StoreModel m o = Ret (n, o') -> exists s, o' = o ++ s /\ does h (model_to M h m) n s.
Proof.
  unfold StoreModel, model_to, WriteByte, Write. cbn [bind]. intros H. destruct (vectors_does h _ _ _ _ _ H) as (s & -> & D). eexists. split; [rewrite <- !app_assoc; reflexivity|].
  eapply does_bind; [apply out_write_does|]. eapply does_bind; [|exact D]. eapply does_nil; [apply out_write_does|apply does_ret].
Qed.
Lemma uint32s_does h l : forall o n r o', write_all o l n = Ret (r, o') -> exists s, o' = o ++ s /\ does h (uint32s_to M h l n) r s.
Proof.
  induction l as [|v l IH]; intros o n r o' H; cbn [write_all uint32s_to] in *; [injection H as <- <-; exists []; rewrite app_nil_r; split; [reflexivity|apply does_ret]|].
  unfold WriteUInt32, Write in H. cbn [bind] in H. destruct (IH _ _ _ _ H) as (s & -> & D). exists (le32 v ++ s). split; [rewrite <- app_assoc; reflexivity|].
  eapply does_bind; [apply does_wrap, out_write_does|exact D].
Qed.
Lemma table_does h t o n o' : StoreMph t o = Ret (n, o') -> exists s, o' = o ++ s /\ does h (table_to M h t) n s.
Proof.
  unfold StoreMph, table_to, WriteUInt32, Write. cbn [bind]. intros H. match type of H with bind ?x _ = _ => destruct x as [[n1 o1]| | |] eqn:E end; try discriminate. cbn [bind] in H.
  destruct (uint32s_does h _ _ _ _ _ E) as (s1 & -> & D1). destruct (uint32s_does h _ _ _ _ _ H) as (s2 & -> & D2). eexists. split; [rewrite <- !app_assoc; reflexivity|].
  eapply does_bind; [apply does_wrap, out_write_does|]. eapply does_bind; [exact D1|]. eapply does_bind; [apply does_wrap, out_write_does|exact D2].
Qed.

(** ** a whole file: created, written, closed *)
(* one file is changed, and nothing else *)
Lemma create_spec n w : (exists w', create_output M n w = (Ret (length (w_outs w)), w') /\ ready (length (w_outs w)) w' /\ w_files w' = fset (w_files w) n [] /\ w_outs w' = w_outs w ++ [mkBuf n [] false] /\ calls_good w w') \/
  (exists e w', create_output M n w = (Fail e, w') /\ w_files w' = w_files w /\ w_outs w' = w_outs w /\ calls_bad w w').
Proof.
  unfold create_output. destruct (can_open M n); [left|right].
  - eexists. split; [reflexivity|]. split.
    + exists (mkBuf n [] false), []. cbn. rewrite nth_error_app2, Nat.sub_diag by lia. split; [reflexivity|]. split; [reflexivity|]. split; [unfold bufSize; cbn; lia|]. unfold fset. rewrite String.eqb_refl. reflexivity.
    + cbn. split; [reflexivity|]. split; [reflexivity|]. eexists. split; [reflexivity|]. constructor; [reflexivity|constructor].
  - eexists _, _. split; [reflexivity|]. cbn. split; [reflexivity|]. split; [reflexivity|]. eexists. split; [reflexivity|]. constructor. cbn. discriminate.
Qed.
End Machine.
