(** Invariants of the service machine. *)
From Verif Require Import Base BaseLemmas GoMap Service ServiceSpec.
Local Open Scope Z_scope.

Lemma nth_set_at {A} (l : list A) i x j : nth_error (set_at i x l) j = if Nat.eqb i j then match nth_error l i with Some _ => Some x | None => None end else nth_error l j.
Proof.
  revert i j. induction l as [|y l IH]; intros [|i] [|j]; cbn [set_at nth_error Nat.eqb]; try reflexivity.
  - destruct (Nat.eqb i j); reflexivity.
  - apply IH.
Qed.
Lemma set_at_length {A} (l : list A) i x : length (set_at i x l) = length l.
Proof. revert i. induction l as [|y l IH]; intros [|i]; cbn [set_at length]; auto. Qed.
Lemma latest_app h n p m : latest (h ++ [(n, p)]) m = if beqb n m then Some p else latest h m.
Proof.
  induction h as [|[a q] h IH]; cbn [latest app]; [destruct (beqb n m); reflexivity|]. rewrite IH. destruct (beqb n m); reflexivity.
Qed.
Lemma latest_In h n p : latest h n = Some p -> In (n, p) h.
Proof.
  induction h as [|[a q] h IH]; cbn [latest]; [discriminate|]. destruct (latest h n) eqn:E; [intros [= ->]; right; auto|]. destruct (beqb a n) eqn:Eb; [|discriminate]. apply beqb_ok in Eb. subst. intros [= ->]. left. reflexivity.
Qed.

Definition announced (p : pc) : bool := match p with AWait _ _ | AWriteIndex _ _ | AWritingIndex _ _ | AWriteDict _ _ | AWritingDict _ _ | AUnlock => true | _ => false end.
Definition writing (p : pc) : bool := match p with AWriteIndex _ _ | AWritingIndex _ _ | AWriteDict _ _ | AWritingDict _ _ | AUnlock => true | _ => false end.
Definition reading (p : pc) : bool := match p with QReadIndex | QReadDict _ | QUnlock _ => true | _ => false end.
Definition halfway (p : pc) : option handle := match p with AWriteDict _ iv | AWritingDict _ iv => Some iv | _ => None end.
Definition handles (p : pc) : option (handle * handle) :=
  match p with ALock dv iv | AWait dv iv | AWriteIndex dv iv | AWritingIndex dv iv | AWriteDict dv iv | AWritingDict dv iv => Some (dv, iv) | _ => None end.
Definition pair_ok (d : driver) (dv iv : handle) : Prop :=
  match d with RAM => dv = iv /\ exists g, dv = Snapshot g | Disc => dv = Mapped /\ iv = Mapped end.
Definition handles_ok (t : thread) (p : pc) : Prop :=
  match t with
  | TAdd n d => (forall dv iv, handles p = Some (dv, iv) -> pair_ok d dv iv) /\
                (forall dv, p = AOpenIndex dv -> match d with RAM => exists g, dv = Snapshot g | Disc => dv = Mapped end)
  | _ => True
  end.
Definition typed (t : thread) (p : pc) : bool :=
  match t, p with
  | TAdd _ _, (AOpenDict | AOpenIndex _ | ALock _ _ | AWait _ _ | AWriteIndex _ _ | AWritingIndex _ _ | AWriteDict _ _ | AWritingDict _ _ | AUnlock | ADone | AFail) => true
  | TQuery _, (QLock | QReadIndex | QReadDict _ | QUnlock _ | QUseIndex _ _ | QUseDict _ _ _ | QDone _ _) => true
  | TList, (LLen | LIter | LDone) => true
  | TBuild _ _, (BDict | BIndex | BDone) => true
  | _, _ => false
  end.
Definition install_ok (ts : list thread) (x : name * (entry * entry)) : Prop :=
  let '(n, (ei, ed)) := x in e_by ei = e_by ed /\ exists d, nth_error ts (e_by ei) = Some (TAdd n d) /\ pair_ok d (e_val ed) (e_val ei).
Definition query_view (h : list (name * (entry * entry))) (n : name) (p : pc) : Prop :=
  match p with
  | QReadDict e => e = fst (seen h n)
  | QUnlock r => r = seen h n
  | _ => True
  end.

Record Inv (ts : list thread) (s : svc) : Prop := {
  i_len : length (s_pcs s) = length ts;
  i_ty : forall i t p, nth_error ts i = Some t -> nth_error (s_pcs s) i = Some p -> typed t p = true;
  i_wr1 : forall i, s_writer s = Some i -> exists p, nth_error (s_pcs s) i = Some p /\ announced p = true;
  i_wr2 : forall i p, nth_error (s_pcs s) i = Some p -> announced p = true -> s_writer s = Some i;
  i_rd1 : forall i, In i (s_readers s) -> exists p, nth_error (s_pcs s) i = Some p /\ reading p = true;
  i_rd2 : forall i p, nth_error (s_pcs s) i = Some p -> reading p = true -> In i (s_readers s);
  i_ex : forall i p, nth_error (s_pcs s) i = Some p -> writing p = true -> s_readers s = [];
  i_wi : s_windex s = true -> exists i dv iv, nth_error (s_pcs s) i = Some (AWritingIndex dv iv);
  i_wd : s_wdict s = true -> exists i dv iv, nth_error (s_pcs s) i = Some (AWritingDict dv iv);
  i_dict : forall n, mget beqb (s_dict s) n = snd (seen (s_hist s) n);
  i_ix1 : forall i p iv n d, nth_error (s_pcs s) i = Some p -> halfway p = Some iv -> nth_error ts i = Some (TAdd n d) -> mget beqb (s_index s) n = Some (mkEntry i iv);
  i_ix2 : forall n, (forall i p d, nth_error (s_pcs s) i = Some p -> halfway p <> None -> nth_error ts i <> Some (TAdd n d)) -> mget beqb (s_index s) n = fst (seen (s_hist s) n);
  i_hist : Forall (install_ok ts) (s_hist s);
  i_hdl : forall i t p, nth_error ts i = Some t -> nth_error (s_pcs s) i = Some p -> handles_ok t p;
  i_q : forall i n p, nth_error ts i = Some (TQuery n) -> nth_error (s_pcs s) i = Some p -> query_view (s_hist s) n p
}.

Lemma init_inv ts fd fi sr : match init ts fd fi sr with Live s => Inv ts s | Thrown => False end.
Proof.
  assert (forall i p, nth_error (map start_pc ts) i = Some p -> exists t, nth_error ts i = Some t /\ p = start_pc t) as Hn.
  { intros i p H. rewrite nth_error_map in H. destruct (nth_error ts i) as [t|]; [|discriminate]. injection H as <-. exists t. auto. }
  assert (forall i p, nth_error (map start_pc ts) i = Some p -> announced p = false /\ writing p = false /\ reading p = false /\ halfway p = None /\ handles p = None) as Hp.
  { intros i p H. apply Hn in H. destruct H as (t & _ & ->). destruct t; cbn; auto. }
  unfold init. constructor; cbn [s_pcs s_writer s_readers s_windex s_wdict s_dict s_index s_hist].
  - apply map_length.
  - intros i t p Ht H. apply Hn in H. destruct H as (t' & Ht' & ->). replace t' with t by congruence. destruct t; reflexivity.
  - discriminate.
  - intros i p H. apply Hp in H. destruct H as (-> & _). discriminate.
  - intros i [].
  - intros i p H. apply Hp in H. destruct H as (_ & _ & -> & _). discriminate.
  - reflexivity.
  - discriminate.
  - discriminate.
  - reflexivity.
  - intros i p iv n d H. apply Hp in H. destruct H as (_ & _ & _ & -> & _). discriminate.
  - reflexivity.
  - constructor.
  - intros i t p Ht H. pose proof (Hn _ _ H) as (t' & Ht' & ->). apply Hp in H. destruct H as (_ & _ & _ & _ & H). unfold handles_ok. destruct t; try exact I. replace t' with (TAdd n d) by congruence. split; [intros dv iv; cbn; discriminate|intros dv; cbn; discriminate].
  - intros i n p Ht H. apply Hn in H. destruct H as (t & Ht' & ->). replace t with (TQuery n) by congruence. exact I.
Qed.

Lemma snd_seen_app h n ei ed m : snd (seen (h ++ [(n, (ei, ed))]) m) = if beqb n m then Some ed else snd (seen h m).
Proof. unfold seen. rewrite latest_app. destruct (beqb n m); reflexivity. Qed.
Lemma fst_seen_app h n ei ed m : fst (seen (h ++ [(n, (ei, ed))]) m) = if beqb n m then Some ei else fst (seen h m).
Proof. unfold seen. rewrite latest_app. destruct (beqb n m); reflexivity. Qed.

Ltac look Hp := repeat match goal with
  | H : nth_error (set_at ?i _ _) ?j = Some _ |- _ =>
      rewrite nth_set_at in H; rewrite Hp in H;
      let Eij := fresh "Eij" in destruct (Nat.eqb i j) eqn:Eij; [apply Nat.eqb_eq in Eij; subst j; injection H as H; subst|apply Nat.eqb_neq in Eij]
  end.
Section Step.
Context (ts : list thread) (s : svc) (i : nat) (t : thread) (p : pc).
Hypothesis (HI : Inv ts s) (Ht : nth_error ts i = Some t) (Hp : nth_error (s_pcs s) i = Some p).

(* another thread is not announced when this one is *)
Lemma other_quiet : announced p = true -> forall j q, nth_error (s_pcs s) j = Some q -> j <> i -> announced q = false.
Proof.
  intros Ha j q Hq Hji. destruct (announced q) eqn:E; [|reflexivity]. pose proof (i_wr2 _ _ HI i p Hp Ha). pose proof (i_wr2 _ _ HI j q Hq E). congruence.
Qed.
Lemma writing_announced q : writing q = true -> announced q = true. Proof. destruct q; cbn; auto. Qed.
Lemma halfway_announced q iv : halfway q = Some iv -> announced q = true. Proof. destruct q; cbn; congruence. Qed.

(* moves that change nothing but this goroutine's position *)
Lemma quiet_jump p' s' : s' = set_pcs s (set_at i p' (s_pcs s)) ->
  typed t p' = true -> announced p' = announced p -> reading p' = reading p -> (writing p' = true -> s_readers s = []) -> halfway p' = halfway p ->
  (forall dv iv, p = AWritingIndex dv iv -> s_windex s = true -> False) -> (forall dv iv, p = AWritingDict dv iv -> s_wdict s = true -> False) ->
  handles_ok t p' -> (forall n, t = TQuery n -> query_view (s_hist s) n p') -> Inv ts s'.
Proof.
  intros -> H1 H2 H3 H4 H5 H6 H7 H8 H9. destruct HI. constructor; cbn [set_pcs s_pcs s_writer s_readers s_windex s_wdict s_dict s_index s_hist].
  - rewrite set_at_length. assumption.
  - intros j t0 q Ht0 Hq. look Hp; [replace t0 with t by congruence; assumption|eauto].
  - intros j Hj. destruct (i_wr3 j Hj) as (q & Hq & Ha). destruct (Nat.eq_dec i j) as [<-|Hne].
    + exists p'. rewrite nth_set_at, Nat.eqb_refl, Hp. split; [reflexivity|congruence].
    + exists q. rewrite nth_set_at. destruct (Nat.eqb_spec i j); [contradiction|]. auto.
  - intros j q Hq Ha. look Hp; [apply (i_wr4 i p Hp); congruence|eauto].
  - intros j Hj. destruct (i_rd3 j Hj) as (q & Hq & Ha). destruct (Nat.eq_dec i j) as [<-|Hne].
    + exists p'. rewrite nth_set_at, Nat.eqb_refl, Hp. split; [reflexivity|congruence].
    + exists q. rewrite nth_set_at. destruct (Nat.eqb_spec i j); [contradiction|]. auto.
  - intros j q Hq Ha. look Hp; [apply (i_rd4 i p Hp); congruence|eauto].
  - intros j q Hq Ha. look Hp; eauto.
  - intros Hw. destruct (i_wi0 Hw) as (j & dv & iv & Hj). destruct (Nat.eq_dec i j) as [<-|Hne].
    + exfalso. apply (H6 dv iv); congruence.
    + exists j, dv, iv. rewrite nth_set_at. destruct (Nat.eqb_spec i j); [contradiction|assumption].
  - intros Hw. destruct (i_wd0 Hw) as (j & dv & iv & Hj). destruct (Nat.eq_dec i j) as [<-|Hne].
    + exfalso. apply (H7 dv iv); congruence.
    + exists j, dv, iv. rewrite nth_set_at. destruct (Nat.eqb_spec i j); [contradiction|assumption].
  - assumption.
  - intros j q iv n d Hq Hh Htj. look Hp; [apply (i_ix3 i p iv n d); congruence|eauto].
  - intros n Hn. apply i_ix4. intros j q d Hq Hh. destruct (Nat.eq_dec i j) as [<-|Hne].
    + apply (Hn i p'); [rewrite nth_set_at, Nat.eqb_refl, Hp; reflexivity|congruence].
    + apply (Hn j q); [|assumption]. rewrite nth_set_at. destruct (Nat.eqb_spec i j); [contradiction|assumption].
  - assumption.
  - intros j t0 q Ht0 Hq. look Hp; [replace t0 with t by congruence; assumption|eauto].
  - intros j n q Ht0 Hq. look Hp; [apply H9; congruence|eauto].
Qed.
End Step.
Lemma inv_files ts s d f : Inv ts s -> Inv ts (set_files s d f).
Proof. intros []. constructor; assumption. Qed.

Ltac other Hp i j := destruct (Nat.eq_dec i j) as [<-|?Hne]; [|].
Ltac at_j i j := rewrite nth_set_at; destruct (Nat.eqb_spec i j); [contradiction|].

Lemma lock_inv ts s i n d dv iv : Inv ts s -> nth_error ts i = Some (TAdd n d) -> nth_error (s_pcs s) i = Some (ALock dv iv) -> s_writer s = None ->
  Inv ts (set_pcs (set_lock s (Some i) (s_readers s)) (set_at i (AWait dv iv) (s_pcs s))).
Proof.
  intros HI Ht Hp Hw. destruct HI. constructor; cbn [set_pcs set_lock s_pcs s_writer s_readers s_windex s_wdict s_dict s_index s_hist].
  - rewrite set_at_length. assumption.
  - intros j t0 q Ht0 Hq. look Hp; [replace t0 with (TAdd n d) by congruence; reflexivity|eauto].
  - intros j [= <-]. exists (AWait dv iv). rewrite nth_set_at, Nat.eqb_refl, Hp. auto.
  - intros j q Hq Ha. look Hp; [reflexivity|]. pose proof (i_wr4 _ _ Hq Ha). congruence.
  - intros j Hj. destruct (i_rd3 j Hj) as (q & Hq & Ha). destruct (Nat.eq_dec i j) as [<-|Hne].
    + rewrite Hp in Hq. injection Hq as <-. discriminate.
    + exists q. at_j i j. auto.
  - intros j q Hq Ha. look Hp; [discriminate|eauto].
  - intros j q Hq Ha. look Hp; [discriminate|eauto].
  - intros H. destruct (i_wi0 H) as (j & dv' & iv' & Hj). exists j, dv', iv'. destruct (Nat.eq_dec i j) as [<-|Hne]; [congruence|]. at_j i j. auto.
  - intros H. destruct (i_wd0 H) as (j & dv' & iv' & Hj). exists j, dv', iv'. destruct (Nat.eq_dec i j) as [<-|Hne]; [congruence|]. at_j i j. auto.
  - assumption.
  - intros j q iv' n' d' Hq Hh Htj. look Hp; [discriminate|eauto].
  - intros m Hn. apply i_ix4. intros j q d' Hq Hh. destruct (Nat.eq_dec i j) as [<-|Hne].
    + rewrite Hp in Hq. injection Hq as <-. cbn in Hh. congruence.
    + apply (Hn j q); [|assumption]. at_j i j. assumption.
  - assumption.
  - intros j t0 q Ht0 Hq. look Hp; [|eauto]. pose proof (i_hdl0 _ _ _ Ht Hp) as [A B]. replace t0 with (TAdd n d) by congruence. split; [exact A|discriminate].
  - intros j m q Ht0 Hq. look Hp; [exact I|eauto].
Qed.

Lemma write_index_inv ts s i n d dv iv : Inv ts s -> nth_error ts i = Some (TAdd n d) -> nth_error (s_pcs s) i = Some (AWriteIndex dv iv) ->
  Inv ts (set_pcs (set_index s (s_index s) true) (set_at i (AWritingIndex dv iv) (s_pcs s))).
Proof.
  intros HI Ht Hp. destruct HI. constructor; cbn [set_pcs set_index s_pcs s_writer s_readers s_windex s_wdict s_dict s_index s_hist].
  - rewrite set_at_length. assumption.
  - intros j t0 q Ht0 Hq. look Hp; [replace t0 with (TAdd n d) by congruence; reflexivity|eauto].
  - intros j Hj. destruct (i_wr3 _ Hj) as (q & Hq & Ha). destruct (Nat.eq_dec i j) as [<-|Hne]; [exists (AWritingIndex dv iv); rewrite nth_set_at, Nat.eqb_refl, Hp; auto|exists q; at_j i j; auto].
  - intros j q Hq Ha. look Hp; [eapply i_wr4; [exact Hp|reflexivity]|eauto].
  - intros j Hj. destruct (i_rd3 j Hj) as (q & Hq & Ha). destruct (Nat.eq_dec i j) as [<-|Hne]; [rewrite Hp in Hq; injection Hq as <-; discriminate|exists q; at_j i j; auto].
  - intros j q Hq Ha. look Hp; [discriminate|eauto].
  - intros j q Hq Ha. look Hp; [eapply i_ex0; [exact Hp|reflexivity]|eauto].
  - intros _. exists i, dv, iv. rewrite nth_set_at, Nat.eqb_refl, Hp. auto.
  - intros H. destruct (i_wd0 H) as (j & dv' & iv' & Hj). exists j, dv', iv'. destruct (Nat.eq_dec i j) as [<-|Hne]; [congruence|]. at_j i j. auto.
  - assumption.
  - intros j q iv' n' d' Hq Hh Htj. look Hp; [discriminate|eauto].
  - intros m Hn. apply i_ix4. intros j q d' Hq Hh. destruct (Nat.eq_dec i j) as [<-|Hne].
    + rewrite Hp in Hq. injection Hq as <-. cbn in Hh. congruence.
    + apply (Hn j q); [|assumption]. at_j i j. assumption.
  - assumption.
  - intros j t0 q Ht0 Hq. look Hp; [|eauto]. pose proof (i_hdl0 _ _ _ Ht Hp) as [A B]. replace t0 with (TAdd n d) by congruence. split; [exact A|discriminate].
  - intros j m q Ht0 Hq. look Hp; [exact I|eauto].
Qed.

Lemma written_index_inv ts s i n d dv iv : Inv ts s -> nth_error ts i = Some (TAdd n d) -> nth_error (s_pcs s) i = Some (AWritingIndex dv iv) ->
  Inv ts (set_pcs (set_index s (mset beqb (s_index s) n (mkEntry i iv)) false) (set_at i (AWriteDict dv iv) (s_pcs s))).
Proof.
  intros HI Ht Hp. pose proof (other_quiet ts s i _ HI Hp eq_refl) as Hquiet. destruct HI. constructor; cbn [set_pcs set_index s_pcs s_writer s_readers s_windex s_wdict s_dict s_index s_hist].
  - rewrite set_at_length. assumption.
  - intros j t0 q Ht0 Hq. look Hp; [replace t0 with (TAdd n d) by congruence; reflexivity|eauto].
  - intros j Hj. destruct (i_wr3 _ Hj) as (q & Hq & Ha). destruct (Nat.eq_dec i j) as [<-|Hne]; [exists (AWriteDict dv iv); rewrite nth_set_at, Nat.eqb_refl, Hp; auto|exists q; at_j i j; auto].
  - intros j q Hq Ha. look Hp; [eapply i_wr4; [exact Hp|reflexivity]|eauto].
  - intros j Hj. destruct (i_rd3 j Hj) as (q & Hq & Ha). destruct (Nat.eq_dec i j) as [<-|Hne]; [rewrite Hp in Hq; injection Hq as <-; discriminate|exists q; at_j i j; auto].
  - intros j q Hq Ha. look Hp; [discriminate|eauto].
  - intros j q Hq Ha. look Hp; [eapply i_ex0; [exact Hp|reflexivity]|eauto].
  - discriminate.
  - intros H. destruct (i_wd0 H) as (j & dv' & iv' & Hj). exists j, dv', iv'. destruct (Nat.eq_dec i j) as [<-|Hne]; [congruence|]. at_j i j. auto.
  - assumption.
  - intros j q iv' n' d' Hq Hh Htj. look Hp.
    + cbn in Hh. injection Hh as <-. replace n' with n by congruence. rewrite (mget_mset _ beqb_ok), (eqb_refl _ beqb_ok). reflexivity.
    + apply halfway_announced in Hh. rewrite (Hquiet _ _ Hq) in Hh by congruence. discriminate.
  - intros m Hn. rewrite (mget_mset _ beqb_ok). destruct (beqb n m) eqn:En.
    + apply beqb_ok in En. subst m. exfalso. eapply (Hn i (AWriteDict dv iv) d); [rewrite nth_set_at, Nat.eqb_refl, Hp; reflexivity|discriminate|exact Ht].
    + apply i_ix4. intros j q d' Hq Hh. destruct (Nat.eq_dec i j) as [<-|Hne].
      * rewrite Hp in Hq. injection Hq as <-. cbn in Hh. congruence.
      * apply (Hn j q); [|assumption]. at_j i j. assumption.
  - assumption.
  - intros j t0 q Ht0 Hq. look Hp; [|eauto]. pose proof (i_hdl0 _ _ _ Ht Hp) as [A B]. replace t0 with (TAdd n d) by congruence. split; [exact A|discriminate].
  - intros j m q Ht0 Hq. look Hp; [exact I|eauto].
Qed.

Lemma write_dict_inv ts s i n d dv iv : Inv ts s -> nth_error ts i = Some (TAdd n d) -> nth_error (s_pcs s) i = Some (AWriteDict dv iv) ->
  Inv ts (set_pcs (set_dict s (s_dict s) true) (set_at i (AWritingDict dv iv) (s_pcs s))).
Proof.
  intros HI Ht Hp. destruct HI. constructor; cbn [set_pcs set_dict s_pcs s_writer s_readers s_windex s_wdict s_dict s_index s_hist].
  - rewrite set_at_length. assumption.
  - intros j t0 q Ht0 Hq. look Hp; [replace t0 with (TAdd n d) by congruence; reflexivity|eauto].
  - intros j Hj. destruct (i_wr3 _ Hj) as (q & Hq & Ha). destruct (Nat.eq_dec i j) as [<-|Hne]; [exists (AWritingDict dv iv); rewrite nth_set_at, Nat.eqb_refl, Hp; auto|exists q; at_j i j; auto].
  - intros j q Hq Ha. look Hp; [eapply i_wr4; [exact Hp|reflexivity]|eauto].
  - intros j Hj. destruct (i_rd3 j Hj) as (q & Hq & Ha). destruct (Nat.eq_dec i j) as [<-|Hne]; [rewrite Hp in Hq; injection Hq as <-; discriminate|exists q; at_j i j; auto].
  - intros j q Hq Ha. look Hp; [discriminate|eauto].
  - intros j q Hq Ha. look Hp; [eapply i_ex0; [exact Hp|reflexivity]|eauto].
  - intros H. destruct (i_wi0 H) as (j & dv' & iv' & Hj). exists j, dv', iv'. destruct (Nat.eq_dec i j) as [<-|Hne]; [congruence|]. at_j i j. auto.
  - intros _. exists i, dv, iv. rewrite nth_set_at, Nat.eqb_refl, Hp. auto.
  - assumption.
  - intros j q iv' n' d' Hq Hh Htj. look Hp; [apply (i_ix3 i (AWriteDict dv iv) iv' n' d'); assumption|eauto].
  - intros m Hn. apply i_ix4. intros j q d' Hq Hh. destruct (Nat.eq_dec i j) as [<-|Hne].
    + apply (Hn i (AWritingDict dv iv)); [rewrite nth_set_at, Nat.eqb_refl, Hp; reflexivity|discriminate].
    + apply (Hn j q); [|assumption]. at_j i j. assumption.
  - assumption.
  - intros j t0 q Ht0 Hq. look Hp; [|eauto]. pose proof (i_hdl0 _ _ _ Ht Hp) as [A B]. replace t0 with (TAdd n d) by congruence. split; [exact A|discriminate].
  - intros j m q Ht0 Hq. look Hp; [exact I|eauto].
Qed.

Lemma written_dict_inv ts s i n d dv iv : Inv ts s -> nth_error ts i = Some (TAdd n d) -> nth_error (s_pcs s) i = Some (AWritingDict dv iv) ->
  Inv ts (set_pcs (log_install (set_dict s (mset beqb (s_dict s) n (mkEntry i dv)) false) n (mkEntry i iv) (mkEntry i dv)) (set_at i AUnlock (s_pcs s))).
Proof.
  intros HI Ht Hp. pose proof (other_quiet ts s i _ HI Hp eq_refl) as Hquiet. destruct HI. constructor; cbn [set_pcs set_dict log_install s_pcs s_writer s_readers s_windex s_wdict s_dict s_index s_hist].
  - rewrite set_at_length. assumption.
  - intros j t0 q Ht0 Hq. look Hp; [replace t0 with (TAdd n d) by congruence; reflexivity|eauto].
  - intros j Hj. destruct (i_wr3 _ Hj) as (q & Hq & Ha). destruct (Nat.eq_dec i j) as [<-|Hne]; [exists AUnlock; rewrite nth_set_at, Nat.eqb_refl, Hp; auto|exists q; at_j i j; auto].
  - intros j q Hq Ha. look Hp; [eapply i_wr4; [exact Hp|reflexivity]|eauto].
  - intros j Hj. destruct (i_rd3 j Hj) as (q & Hq & Ha). destruct (Nat.eq_dec i j) as [<-|Hne]; [rewrite Hp in Hq; injection Hq as <-; discriminate|exists q; at_j i j; auto].
  - intros j q Hq Ha. look Hp; [discriminate|eauto].
  - intros j q Hq Ha. look Hp; [eapply i_ex0; [exact Hp|reflexivity]|eauto].
  - intros H. destruct (i_wi0 H) as (j & dv' & iv' & Hj). exists j, dv', iv'. destruct (Nat.eq_dec i j) as [<-|Hne]; [congruence|]. at_j i j. auto.
  - discriminate.
  - intros m. rewrite (mget_mset _ beqb_ok), snd_seen_app, i_dict0. reflexivity.
  - intros j q iv' n' d' Hq Hh Htj. look Hp; [discriminate|]. apply halfway_announced in Hh. rewrite (Hquiet _ _ Hq) in Hh by congruence. discriminate.
  - intros m Hn. rewrite fst_seen_app. destruct (beqb n m) eqn:En.
    + apply beqb_ok in En. subst m. apply (i_ix3 i (AWritingDict dv iv) iv n d Hp eq_refl Ht).
    + apply i_ix4. intros j q d' Hq Hh. destruct (Nat.eq_dec i j) as [<-|Hne].
      * intros E. rewrite Ht in E. injection E as <- <-. rewrite (eqb_refl _ beqb_ok) in En. discriminate.
      * apply (Hn j q); [|assumption]. at_j i j. assumption.
  - apply Forall_app. split; [assumption|]. constructor; [|constructor]. split; [reflexivity|]. exists d. split; [exact Ht|]. pose proof (i_hdl0 _ _ _ Ht Hp) as [A B]. cbn [e_val]. apply A. reflexivity.
  - intros j t0 q Ht0 Hq. look Hp; [|eauto]. replace t0 with (TAdd n d) by congruence. split; discriminate.
  - intros j m q Ht0 Hq. look Hp; [exact I|]. pose proof (i_q0 _ _ _ Ht0 Hq) as Hv. pose proof (i_ex0 _ _ Hp eq_refl) as Hr. 
    destruct q; try exact I; exfalso; (assert (In j (s_readers s)) as Hin by (eapply i_rd4; [exact Hq|reflexivity]); rewrite Hr in Hin; destruct Hin).
Qed.

Lemma unlock_inv ts s i n d : Inv ts s -> nth_error ts i = Some (TAdd n d) -> nth_error (s_pcs s) i = Some AUnlock ->
  Inv ts (set_pcs (set_lock s None (s_readers s)) (set_at i ADone (s_pcs s))).
Proof.
  intros HI Ht Hp. pose proof (other_quiet ts s i _ HI Hp eq_refl) as Hquiet. destruct HI. constructor; cbn [set_pcs set_lock s_pcs s_writer s_readers s_windex s_wdict s_dict s_index s_hist].
  - rewrite set_at_length. assumption.
  - intros j t0 q Ht0 Hq. look Hp; [replace t0 with (TAdd n d) by congruence; reflexivity|eauto].
  - discriminate.
  - intros j q Hq Ha. look Hp; [discriminate|]. rewrite (Hquiet _ _ Hq) in Ha by congruence. discriminate.
  - intros j Hj. destruct (i_rd3 j Hj) as (q & Hq & Ha). destruct (Nat.eq_dec i j) as [<-|Hne]; [rewrite Hp in Hq; injection Hq as <-; discriminate|exists q; at_j i j; auto].
  - intros j q Hq Ha. look Hp; [discriminate|eauto].
  - intros j q Hq Ha. look Hp; [discriminate|eauto].
  - intros H. destruct (i_wi0 H) as (j & dv' & iv' & Hj). exists j, dv', iv'. destruct (Nat.eq_dec i j) as [<-|Hne]; [congruence|]. at_j i j. auto.
  - intros H. destruct (i_wd0 H) as (j & dv' & iv' & Hj). exists j, dv', iv'. destruct (Nat.eq_dec i j) as [<-|Hne]; [congruence|]. at_j i j. auto.
  - assumption.
  - intros j q iv' n' d' Hq Hh Htj. look Hp; [discriminate|eauto].
  - intros m Hn. apply i_ix4. intros j q d' Hq Hh. destruct (Nat.eq_dec i j) as [<-|Hne].
    + rewrite Hp in Hq. injection Hq as <-. cbn in Hh. congruence.
    + apply (Hn j q); [|assumption]. at_j i j. assumption.
  - assumption.
  - intros j t0 q Ht0 Hq. look Hp; [|eauto]. replace t0 with (TAdd n d) by congruence. split; discriminate.
  - intros j m q Ht0 Hq. look Hp; [exact I|eauto].
Qed.

Lemma rlock_inv ts s i n : Inv ts s -> nth_error ts i = Some (TQuery n) -> nth_error (s_pcs s) i = Some QLock -> s_writer s = None ->
  Inv ts (set_pcs (set_lock s (s_writer s) (i :: s_readers s)) (set_at i QReadIndex (s_pcs s))).
Proof.
  intros HI Ht Hp Hw. destruct HI. constructor; cbn [set_pcs set_lock s_pcs s_writer s_readers s_windex s_wdict s_dict s_index s_hist].
  - rewrite set_at_length. assumption.
  - intros j t0 q Ht0 Hq. look Hp; [replace t0 with (TQuery n) by congruence; reflexivity|eauto].
  - congruence.
  - intros j q Hq Ha. look Hp; [discriminate|eauto].
  - intros j [<-|Hj]; [exists QReadIndex; rewrite nth_set_at, Nat.eqb_refl, Hp; auto|]. destruct (i_rd3 j Hj) as (q & Hq & Ha). destruct (Nat.eq_dec i j) as [<-|Hne]; [rewrite Hp in Hq; injection Hq as <-; discriminate|exists q; at_j i j; auto].
  - intros j q Hq Ha. look Hp; [left; reflexivity|right; eauto].
  - intros j q Hq Ha. look Hp; [discriminate|]. apply writing_announced in Ha. pose proof (i_wr4 _ _ Hq Ha). congruence.
  - intros H. destruct (i_wi0 H) as (j & dv' & iv' & Hj). exists j, dv', iv'. destruct (Nat.eq_dec i j) as [<-|Hne]; [congruence|]. at_j i j. auto.
  - intros H. destruct (i_wd0 H) as (j & dv' & iv' & Hj). exists j, dv', iv'. destruct (Nat.eq_dec i j) as [<-|Hne]; [congruence|]. at_j i j. auto.
  - assumption.
  - intros j q iv' n' d' Hq Hh Htj. look Hp; [discriminate|eauto].
  - intros m Hn. apply i_ix4. intros j q d' Hq Hh. destruct (Nat.eq_dec i j) as [<-|Hne].
    + rewrite Hp in Hq. injection Hq as <-. cbn in Hh. congruence.
    + apply (Hn j q); [|assumption]. at_j i j. assumption.
  - assumption.
  - intros j t0 q Ht0 Hq. look Hp; [|eauto]. replace t0 with (TQuery n) by congruence. exact I.
  - intros j m q Ht0 Hq. look Hp; [exact I|eauto].
Qed.

Lemma runlock_inv ts s i n r p' : Inv ts s -> nth_error ts i = Some (TQuery n) -> nth_error (s_pcs s) i = Some (QUnlock r) ->
  (exists e d, p' = QUseIndex e d) \/ (exists c, p' = QDone r c) ->
  Inv ts (set_pcs (set_lock s (s_writer s) (remove Nat.eq_dec i (s_readers s))) (set_at i p' (s_pcs s))).
Proof.
  intros HI Ht Hp Hp'. assert (announced p' = false /\ writing p' = false /\ reading p' = false /\ halfway p' = None /\ typed (TQuery n) p' = true /\ forall h, query_view h n p') as (P1 & P2 & P3 & P4 & P5 & P6) by (destruct Hp' as [(e & d & ->)|(c & ->)]; cbn; auto 10).
  destruct HI. constructor; cbn [set_pcs set_lock s_pcs s_writer s_readers s_windex s_wdict s_dict s_index s_hist].
  - rewrite set_at_length. assumption.
  - intros j t0 q Ht0 Hq. look Hp; [replace t0 with (TQuery n) by congruence; assumption|eauto].
  - intros j Hj. destruct (i_wr3 _ Hj) as (q & Hq & Ha). destruct (Nat.eq_dec i j) as [<-|Hne]; [rewrite Hp in Hq; injection Hq as <-; discriminate|exists q; at_j i j; auto].
  - intros j q Hq Ha. look Hp; [congruence|eauto].
  - intros j Hj. apply in_remove in Hj. destruct Hj as [Hj Hne]. destruct (i_rd3 j Hj) as (q & Hq & Ha). exists q. rewrite nth_set_at. destruct (Nat.eqb_spec i j); [congruence|auto].
  - intros j q Hq Ha. look Hp; [congruence|]. apply in_in_remove; [congruence|eauto].
  - intros j q Hq Ha. look Hp; [congruence|]. rewrite (i_ex0 _ _ Hq Ha). reflexivity.
  - intros H. destruct (i_wi0 H) as (j & dv' & iv' & Hj). exists j, dv', iv'. destruct (Nat.eq_dec i j) as [<-|Hne]; [congruence|]. at_j i j. auto.
  - intros H. destruct (i_wd0 H) as (j & dv' & iv' & Hj). exists j, dv', iv'. destruct (Nat.eq_dec i j) as [<-|Hne]; [congruence|]. at_j i j. auto.
  - assumption.
  - intros j q iv' n' d' Hq Hh Htj. look Hp; [congruence|eauto].
  - intros m Hn. apply i_ix4. intros j q d' Hq Hh. destruct (Nat.eq_dec i j) as [<-|Hne].
    + rewrite Hp in Hq. injection Hq as <-. cbn in Hh. congruence.
    + apply (Hn j q); [|assumption]. at_j i j. assumption.
  - assumption.
  - intros j t0 q Ht0 Hq. look Hp; [|eauto]. replace t0 with (TQuery n) by congruence. exact I.
  - intros j m q Ht0 Hq. look Hp; [replace m with n by congruence; apply P6|eauto].
Qed.

(* while a query reads, the maps show the latest install *)
Lemma reader_index ts s i n p : Inv ts s -> nth_error ts i = Some (TQuery n) -> nth_error (s_pcs s) i = Some p -> reading p = true -> mget beqb (s_index s) n = fst (seen (s_hist s) n).
Proof.
  intros HI Ht Hp Hr. pose proof (i_rd2 _ _ HI _ _ Hp Hr) as Hin. apply (i_ix2 _ _ HI). intros j q d Hq Hh _.
  assert (writing q = true) as Hw by (destruct q; cbn in Hh; try congruence; reflexivity). rewrite (i_ex _ _ HI _ _ Hq Hw) in Hin. destruct Hin.
Qed.
(* ... and no map is being written *)
Lemma reader_flags ts s i p : Inv ts s -> nth_error (s_pcs s) i = Some p -> reading p = true -> s_windex s = false /\ s_wdict s = false.
Proof.
  intros HI Hp Hr. pose proof (i_rd2 _ _ HI _ _ Hp Hr) as Hin. split.
  - destruct (s_windex s) eqn:E; [|reflexivity]. destruct (i_wi _ _ HI E) as (j & dv & iv & Hj). rewrite (i_ex _ _ HI _ _ Hj eq_refl) in Hin. destruct Hin.
  - destruct (s_wdict s) eqn:E; [|reflexivity]. destruct (i_wd _ _ HI E) as (j & dv & iv & Hj). rewrite (i_ex _ _ HI _ _ Hj eq_refl) in Hin. destruct Hin.
Qed.
Lemma writer_flags ts s i p : Inv ts s -> nth_error (s_pcs s) i = Some p -> announced p = true ->
  (forall dv iv, p <> AWritingIndex dv iv) -> (forall dv iv, p <> AWritingDict dv iv) -> s_windex s = false /\ s_wdict s = false.
Proof.
  intros HI Hp Ha H1 H2. pose proof (i_wr2 _ _ HI _ _ Hp Ha) as Hw. split.
  - destruct (s_windex s) eqn:E; [|reflexivity]. destruct (i_wi _ _ HI E) as (j & dv & iv & Hj). pose proof (i_wr2 _ _ HI _ _ Hj eq_refl). replace j with i in * by congruence. exfalso. apply (H1 dv iv). congruence.
  - destruct (s_wdict s) eqn:E; [|reflexivity]. destruct (i_wd _ _ HI E) as (j & dv & iv & Hj). pose proof (i_wr2 _ _ HI _ _ Hj eq_refl). replace j with i in * by congruence. exfalso. apply (H2 dv iv). congruence.
Qed.

Lemma step_inv ts s i t p s' : Inv ts s -> nth_error ts i = Some t -> nth_error (s_pcs s) i = Some p -> step t i p s = Some (Live s') -> Inv ts s'.
Proof.
  intros HI Ht Hp Hs. pose proof (i_hdl _ _ HI _ _ _ Ht Hp) as Hh. pose proof (i_q _ _ HI) as Hq.
  destruct t as [n d|n| |n g], p; try (destruct d; discriminate Hs); try discriminate Hs; unfold jump in Hs; cbn [step] in Hs.
  - (* AOpenDict *) destruct d.
    + destruct (mget beqb (s_src s) n) as [g|]; injection Hs as Hs; eapply (quiet_jump ts s i _ _ HI Ht Hp); try (symmetry; exact Hs); try reflexivity; try discriminate; split; try discriminate. intros dv [= <-]. eauto.
    + destruct (mget beqb (s_fdict s) n) as [g|]; injection Hs as Hs; eapply (quiet_jump ts s i _ _ HI Ht Hp); try (symmetry; exact Hs); try reflexivity; try discriminate; split; try discriminate. intros dv [= <-]. reflexivity.
  - (* AOpenIndex *) destruct Hh as [_ Hh]. specialize (Hh _ eq_refl). destruct d.
    + injection Hs as Hs; eapply (quiet_jump ts s i _ _ HI Ht Hp); try (symmetry; exact Hs); try reflexivity; try discriminate; split; try discriminate. intros a b [= <- <-]. split; [reflexivity|exact Hh].
    + destruct (mget beqb (s_findex s) n) as [g|]; injection Hs as Hs; eapply (quiet_jump ts s i _ _ HI Ht Hp); try (symmetry; exact Hs); try reflexivity; try discriminate; split; try discriminate. intros a b [= <- <-]. split; [exact Hh|reflexivity].
  - destruct (s_writer s) eqn:Ew; [destruct d; discriminate Hs|]. assert (Some (Live (set_pcs (set_lock s (Some i) (s_readers s)) (set_at i (AWait dv iv) (s_pcs s)))) = Some (Live s')) as Hs' by (destruct d; exact Hs). injection Hs' as <-. eapply lock_inv; eauto.
  - destruct (s_readers s) eqn:Er; [|destruct d; discriminate Hs]. assert (Some (Live (set_pcs s (set_at i (AWriteIndex dv iv) (s_pcs s)))) = Some (Live s')) as Hs' by (destruct d; exact Hs). injection Hs' as Hs'.
    eapply (quiet_jump ts s i _ _ HI Ht Hp); try (symmetry; exact Hs'); try reflexivity; try discriminate; try assumption. { intros _. exact Er. } { split; [apply Hh|discriminate]. }
  - destruct (s_windex s) eqn:Er; [destruct d; discriminate Hs|]. assert (Some (Live (set_pcs (set_index s (s_index s) true) (set_at i (AWritingIndex dv iv) (s_pcs s)))) = Some (Live s')) as Hs' by (destruct d; exact Hs). injection Hs' as <-. eapply write_index_inv; eauto.
  - assert (Some (Live (set_pcs (set_index s (mset beqb (s_index s) n (mkEntry i iv)) false) (set_at i (AWriteDict dv iv) (s_pcs s)))) = Some (Live s')) as Hs' by (destruct d; exact Hs). injection Hs' as <-. eapply written_index_inv; eauto.
  - destruct (s_wdict s) eqn:Er; [destruct d; discriminate Hs|]. assert (Some (Live (set_pcs (set_dict s (s_dict s) true) (set_at i (AWritingDict dv iv) (s_pcs s)))) = Some (Live s')) as Hs' by (destruct d; exact Hs). injection Hs' as <-. eapply write_dict_inv; eauto.
  - assert (Some (Live (set_pcs (log_install (set_dict s (mset beqb (s_dict s) n (mkEntry i dv)) false) n (mkEntry i iv) (mkEntry i dv)) (set_at i AUnlock (s_pcs s)))) = Some (Live s')) as Hs' by (destruct d; exact Hs). injection Hs' as <-. eapply written_dict_inv; eauto.
  - assert (Some (Live (set_pcs (set_lock s None (s_readers s)) (set_at i ADone (s_pcs s)))) = Some (Live s')) as Hs' by (destruct d; exact Hs). injection Hs' as <-. eapply unlock_inv; eauto.
  - destruct (s_writer s) eqn:Ew; [discriminate|]. injection Hs as <-. rewrite <- Ew. eapply rlock_inv; eauto.
  - pose proof (reader_index _ _ _ _ _ HI Ht Hp eq_refl) as Hx. destruct (s_windex s); [discriminate|]. injection Hs as Hs. eapply (quiet_jump ts s i _ _ HI Ht Hp); try (symmetry; exact Hs); try reflexivity; try discriminate. intros m [= <-]. exact Hx.
  - destruct (s_wdict s); [discriminate|]. injection Hs as Hs. eapply (quiet_jump ts s i _ _ HI Ht Hp); try (symmetry; exact Hs); try reflexivity; try discriminate. intros m [= <-]. cbn [query_view]. rewrite (i_dict _ _ HI). specialize (Hq _ _ _ Ht Hp). cbn [query_view] in Hq. rewrite Hq. destruct (seen (s_hist s) n); reflexivity.
  - destruct r as [[e|] [d|]]; injection Hs as <-; (eapply runlock_inv; [exact HI|exact Ht|exact Hp|]; eauto).
  - injection Hs as Hs. eapply (quiet_jump ts s i _ _ HI Ht Hp); try (symmetry; exact Hs); try reflexivity; try discriminate.
  - injection Hs as Hs. eapply (quiet_jump ts s i _ _ HI Ht Hp); try (symmetry; exact Hs); try reflexivity; try discriminate.
  - injection Hs as Hs. eapply (quiet_jump ts s i _ _ HI Ht Hp); try (symmetry; exact Hs); try reflexivity; try discriminate.
  - destruct (s_wdict s); [discriminate|]. injection Hs as Hs. eapply (quiet_jump ts s i _ _ HI Ht Hp); try (symmetry; exact Hs); try reflexivity; try discriminate.
  - injection Hs as Hs. eapply (quiet_jump ts (set_files s (mset beqb (s_fdict s) n g) (s_findex s)) i _ _ (inv_files _ _ _ _ HI) Ht Hp); try (symmetry; exact Hs); try reflexivity; try discriminate.
  - injection Hs as Hs. eapply (quiet_jump ts (set_files s (s_fdict s) (mset beqb (s_findex s) n g)) i _ _ (inv_files _ _ _ _ HI) Ht Hp); try (symmetry; exact Hs); try reflexivity; try discriminate.
Qed.

Lemma move_inv ts i s s' : Inv ts s -> move ts i (Live s) = Some (Live s') -> Inv ts s'.
Proof.
  intros HI H. cbn [move] in H. destruct (nth_error ts i) as [t|] eqn:Ht; [|discriminate]. destruct (nth_error (s_pcs s) i) as [p|] eqn:Hp; [|discriminate]. eapply step_inv; eauto.
Qed.
Lemma moves_thrown ts sched y : moves ts sched Thrown = Some y -> y = Thrown.
Proof. destruct sched; cbn [moves move]; [congruence|discriminate]. Qed.
Lemma moves_inv ts sched s s' : Inv ts s -> moves ts sched (Live s) = Some (Live s') -> Inv ts s'.
Proof.
  revert s. induction sched as [|i sched IH]; intros s HI H; cbn [moves] in H; [injection H as <-; exact HI|].
  destruct (move ts i (Live s)) as [[s1|]|] eqn:Em; [| |discriminate].
  - apply (IH s1); [eapply move_inv; eauto|exact H].
  - apply moves_thrown in H. discriminate.
Qed.
Lemma moves_app ts a b y : moves ts (a ++ b) y = match moves ts a y with Some y' => moves ts b y' | None => None end.
Proof. revert y. induction a as [|i a IH]; intros y; cbn [moves app]; [reflexivity|]. destruct (move ts i y); [apply IH|reflexivity]. Qed.

(* only a listing can run into a map being written *)
Lemma move_safe ts i s : Inv ts s -> move ts i (Live s) = Some Thrown -> nth_error ts i = Some TList.
Proof.
  intros HI H. cbn [move] in H. destruct (nth_error ts i) as [t|] eqn:Ht; [|discriminate]. destruct (nth_error (s_pcs s) i) as [p|] eqn:Hp; [|discriminate].
  destruct t as [n d|n| |n g]; [| |reflexivity|]; exfalso.
  - destruct p; unfold step, jump in H; try (destruct d; discriminate H).
    + destruct d; [destruct (mget beqb (s_src s) n)|destruct (mget beqb (s_fdict s) n)]; discriminate H.
    + destruct d; [|destruct (mget beqb (s_findex s) n)]; discriminate H.
    + destruct d, (s_writer s); discriminate H.
    + destruct d, (s_readers s); discriminate H.
    + destruct (writer_flags _ _ _ _ HI Hp eq_refl ltac:(discriminate) ltac:(discriminate)) as [E _]. rewrite E in H. destruct d; discriminate H.
    + destruct (writer_flags _ _ _ _ HI Hp eq_refl ltac:(discriminate) ltac:(discriminate)) as [_ E]. rewrite E in H. destruct d; discriminate H.
  - destruct p; unfold step, jump in H; try discriminate H.
    + destruct (s_writer s); discriminate H.
    + destruct (reader_flags _ _ _ _ HI Hp eq_refl) as [E _]. rewrite E in H. discriminate H.
    + destruct (reader_flags _ _ _ _ HI Hp eq_refl) as [_ E]. rewrite E in H. discriminate H.
    + destruct r as [[?|] [?|]]; discriminate H.
  - destruct p; discriminate H.
Qed.
Lemma moves_safe ts sched s : no_list ts -> Inv ts s -> moves ts sched (Live s) <> Some Thrown.
Proof.
  intros Hn. revert s. induction sched as [|i sched IH]; intros s HI H; cbn [moves] in H; [discriminate|].
  destruct (move ts i (Live s)) as [[s1|]|] eqn:Em; [| |discriminate].
  - apply (IH s1); [eapply move_inv; eauto|exact H].
  - apply move_safe in Em; [|exact HI]. apply nth_error_In in Em. exact (Hn Em).
Qed.

(* progress *)
Lemma free_step ts s i t p : Inv ts s -> nth_error ts i = Some t -> nth_error (s_pcs s) i = Some p -> ended p = false ->
  (forall dv iv, p = ALock dv iv -> s_writer s = None) -> (forall dv iv, p = AWait dv iv -> s_readers s = []) -> (p = QLock -> s_writer s = None) -> exists y, step t i p s = Some y.
Proof.
  intros HI Ht Hp He H1 H2 H3. pose proof (i_ty _ _ HI _ _ _ Ht Hp) as Hty. destruct t as [n d|n| |n g], p; try discriminate Hty; try discriminate He; unfold step, jump.
  - destruct d; [destruct (mget beqb (s_src s) n)|destruct (mget beqb (s_fdict s) n)]; eauto.
  - destruct d; [|destruct (mget beqb (s_findex s) n)]; eauto.
  - rewrite (H1 _ _ eq_refl). destruct d; eauto.
  - rewrite (H2 _ _ eq_refl). destruct d; eauto.
  - destruct d, (s_windex s); eauto.
  - destruct d; eauto.
  - destruct d, (s_wdict s); eauto.
  - destruct d; eauto.
  - destruct d; eauto.
  - rewrite (H3 eq_refl). eauto.
  - destruct (s_windex s); eauto.
  - destruct (s_wdict s); eauto.
  - destruct r as [[?|] [?|]]; eauto.
  - eauto.
  - eauto.
  - eauto.
  - destruct (s_wdict s); eauto.
  - eauto.
  - eauto.
Qed.
Lemma same_length_nth {A B} (a : list A) (b : list B) i p : length b = length a -> nth_error b i = Some p -> exists t, nth_error a i = Some t.
Proof.
  intros E H. destruct (nth_error a i) as [t|] eqn:Ea; [eauto|]. apply nth_error_None in Ea. assert (nth_error b i <> None) as Hb by congruence. apply nth_error_Some in Hb. lia.
Qed.
Lemma progress ts s : Inv ts s -> forallb ended (s_pcs s) = false -> exists i y, move ts i (Live s) = Some y.
Proof.
  intros HI He. destruct (s_writer s) as [w|] eqn:Ew.
  - destruct (i_wr1 _ _ HI w Ew) as (p & Hp & Ha). destruct (same_length_nth ts _ _ _ (i_len _ _ HI) Hp) as (t & Ht).
    destruct (s_readers s) as [|r rs] eqn:Er.
    + destruct (free_step ts s w t p HI Ht Hp) as (y & Hy).
      * destruct p; try discriminate Ha; reflexivity.
      * intros dv iv ->. discriminate Ha.
      * intros _ _ _. exact Er.
      * intros ->. discriminate Ha.
      * exists w, y. cbn [move]. rewrite Ht, Hp. exact Hy.
    + destruct (i_rd1 _ _ HI r) as (q & Hq & Hr); [rewrite Er; left; reflexivity|]. destruct (same_length_nth ts _ _ _ (i_len _ _ HI) Hq) as (t' & Ht').
      destruct (free_step ts s r t' q HI Ht' Hq) as (y & Hy).
      * destruct q; try discriminate Hr; reflexivity.
      * intros dv iv ->. discriminate Hr.
      * intros dv iv ->. discriminate Hr.
      * intros ->. discriminate Hr.
      * exists r, y. cbn [move]. rewrite Ht', Hq. exact Hy.
  - assert (exists i p, nth_error (s_pcs s) i = Some p /\ ended p = false) as (i & p & Hp & He').
    { clear - He. induction (s_pcs s) as [|p l IH]; [discriminate|]. cbn [forallb] in He. destruct (ended p) eqn:E.
      - destruct (IH He) as (i & q & Hq). exists (S i), q. exact Hq.
      - exists O, p. auto. }
    destruct (same_length_nth ts _ _ _ (i_len _ _ HI) Hp) as (t & Ht). destruct (free_step ts s i t p HI Ht Hp He') as (y & Hy).
    + intros _ _ _. exact Ew.
    + intros dv iv ->. pose proof (i_wr2 _ _ HI _ _ Hp eq_refl). congruence.
    + intros _. exact Ew.
    + exists i, y. cbn [move]. rewrite Ht, Hp. exact Hy.
Qed.

(* every goroutine makes at most ten moves *)
Definition left (p : pc) : Z :=
  match p with
  | AOpenDict => 9 | AOpenIndex _ => 8 | ALock _ _ => 7 | AWait _ _ => 6 | AWriteIndex _ _ => 5 | AWritingIndex _ _ => 4 | AWriteDict _ _ => 3 | AWritingDict _ _ => 2 | AUnlock => 1
  | QLock => 6 | QReadIndex => 5 | QReadDict _ => 4 | QUnlock _ => 3 | QUseIndex _ _ => 2 | QUseDict _ _ _ => 1
  | LLen => 2 | LIter => 1 | BDict => 2 | BIndex => 1
  | _ => 0
  end.
Definition total (l : list pc) : Z := fold_right (fun p a => left p + a) 0 l.
Lemma left_nonneg p : 0 <= left p. Proof. destruct p; cbn [left]; lia. Qed.
Lemma total_nonneg l : 0 <= total l. Proof. induction l as [|p l IH]; cbn [total fold_right]; [lia|]. pose proof (left_nonneg p). unfold total in IH. lia. Qed.
Lemma total_set l i p q : nth_error l i = Some p -> total (set_at i q l) = total l - left p + left q.
Proof. revert i. induction l as [|x l IH]; intros [|i] H; try discriminate; cbn [set_at total fold_right]. - injection H as ->. lia. - unfold total in IH. rewrite (IH i H). lia. Qed.
Ltac shrinks := match goal with H : Some (Live _) = Some (Live _) |- _ => injection H as <-; cbn [set_pcs set_lock set_index set_dict set_files log_install s_pcs]; erewrite total_set by eassumption; cbn [left]; try lia end.
Lemma step_shrinks t i p s s' : nth_error (s_pcs s) i = Some p -> step t i p s = Some (Live s') -> total (s_pcs s') < total (s_pcs s).
Proof.
  intros Hp H. destruct t as [n d|n| |n g], p; try (destruct d; discriminate H); try discriminate H; unfold step, jump in H.
  - destruct d; [destruct (mget beqb (s_src s) n)|destruct (mget beqb (s_fdict s) n)]; shrinks.
  - destruct d; [|destruct (mget beqb (s_findex s) n)]; shrinks.
  - destruct d, (s_writer s); try discriminate H; shrinks.
  - destruct d, (s_readers s); try discriminate H; shrinks.
  - destruct d, (s_windex s); try discriminate H; shrinks.
  - destruct d; shrinks.
  - destruct d, (s_wdict s); try discriminate H; shrinks.
  - destruct d; shrinks.
  - destruct d; shrinks.
  - destruct (s_writer s); try discriminate H; shrinks.
  - destruct (s_windex s); try discriminate H; shrinks.
  - destruct (s_wdict s); try discriminate H; shrinks.
  - destruct r as [[?|] [?|]]; shrinks.
  - shrinks.
  - shrinks.
  - shrinks.
  - destruct (s_wdict s); try discriminate H; shrinks.
  - shrinks.
  - shrinks.
Qed.
Lemma moves_bounded ts sched s y : moves ts sched (Live s) = Some y -> zlen sched <= total (s_pcs s) + 1.
Proof.
  revert s. induction sched as [|i sched IH]; intros s H; [pose proof (total_nonneg (s_pcs s)); unfold zlen; cbn; lia|].
  cbn [moves] in H. destruct (move ts i (Live s)) as [[s1|]|] eqn:Em; [| |discriminate].
  - specialize (IH s1 H). cbn [move] in Em. destruct (nth_error ts i); [|discriminate]. destruct (nth_error (s_pcs s) i) eqn:Hp; [|discriminate]. apply step_shrinks in Em; [|exact Hp]. unfold zlen in *. cbn [length]. lia.
  - destruct sched; [|cbn in H; discriminate]. pose proof (total_nonneg (s_pcs s)). unfold zlen. cbn. lia.
Qed.
Lemma total_start ts : total (map start_pc ts) <= 9 * zlen ts.
Proof. induction ts as [|t ts IH]; [reflexivity|]. cbn [map total fold_right]. unfold total in IH. unfold zlen in *. cbn [length]. assert (left (start_pc t) <= 9) by (destruct t; cbn [start_pc left]; lia). lia. Qed.

(* the history only grows *)
Lemma step_hist t i p s s' : step t i p s = Some (Live s') -> prefix (s_hist s) (s_hist s').
Proof.
  intros H. assert (s_hist s' = s_hist s \/ exists x, s_hist s' = s_hist s ++ [x]) as [->|(x & ->)]; [|exists []; rewrite app_nil_r; reflexivity|eexists; reflexivity].
  destruct t as [n d|n| |n g], p; try (destruct d; discriminate H); try discriminate H; unfold step, jump in H;
  repeat match type of H with
  | context [match ?x with _ => _ end] => is_var x; destruct x; try discriminate H
  | context [mget beqb ?a ?b] => destruct (mget beqb a b) in H; try discriminate H
  | context [s_writer s] => destruct (s_writer s) in H; try discriminate H
  | context [match s_readers s with _ => _ end] => destruct (s_readers s) in H; try discriminate H
  | context [if ?x then _ else _] => destruct x in H; try discriminate H
  end; injection H as <-; cbn [set_pcs set_lock set_index set_dict set_files log_install s_hist]; eauto.
Qed.

Lemma prefix_trans {A} (a b c : list A) : prefix a b -> prefix b c -> prefix a c.
Proof. intros (x & ->) (y & ->). exists (x ++ y). rewrite app_assoc. reflexivity. Qed.
Lemma prefix_refl {A} (a : list A) : prefix a a.
Proof. exists []. rewrite app_nil_r. reflexivity. Qed.
Definition from_history (h0 h1 : list (name * (entry * entry))) (n : name) (r : got) : Prop := exists h, prefix h0 h /\ prefix h h1 /\ r = seen h n.
Definition QInv (h0 : list (name * (entry * entry))) (n : name) (i : nat) (s : svc) : Prop :=
  prefix h0 (s_hist s) /\
  forall p, nth_error (s_pcs s) i = Some p ->
  match p with
  | QUseIndex e d | QUseDict e d _ => from_history h0 (s_hist s) n (Some e, Some d)
  | QDone r _ => from_history h0 (s_hist s) n r
  | _ => True
  end.
Lemma from_grow h0 h1 h2 n r : from_history h0 h1 n r -> prefix h1 h2 -> from_history h0 h2 n r.
Proof. intros (h & A & B & C) H. exists h. repeat split; auto. eapply prefix_trans; eauto. Qed.
Lemma step_other t i p s s' : step t i p s = Some (Live s') -> exists p', s_pcs s' = set_at i p' (s_pcs s).
Proof.
  intros H.
  destruct t as [n d|n| |n g], p; try (destruct d; discriminate H); try discriminate H; unfold step, jump in H;
  repeat match type of H with
  | context [match ?x with _ => _ end] => is_var x; destruct x; try discriminate H
  | context [mget beqb ?a ?b] => destruct (mget beqb a b) in H; try discriminate H
  | context [s_writer s] => destruct (s_writer s) in H; try discriminate H
  | context [match s_readers s with _ => _ end] => destruct (s_readers s) in H; try discriminate H
  | context [if ?x then _ else _] => destruct x in H; try discriminate H
  end; injection H as <-; cbn [set_pcs set_lock set_index set_dict set_files log_install s_pcs]; eauto.
Qed.
Ltac here Hp Hq := rewrite nth_set_at, Nat.eqb_refl, Hp in Hq; injection Hq as <-.
Lemma step_qinv ts h0 n i s j t p s' : Inv ts s -> nth_error ts i = Some (TQuery n) -> QInv h0 n i s -> nth_error ts j = Some t -> nth_error (s_pcs s) j = Some p -> step t j p s = Some (Live s') -> QInv h0 n i s'.
Proof.
  intros HI Hi [Hpre HQ] Ht Hp Hs. pose proof (step_hist _ _ _ _ _ Hs) as Hg. pose proof (prefix_trans _ _ _ Hpre Hg) as Hpre'. split; [exact Hpre'|].
  destruct (Nat.eq_dec j i) as [->|Hne].
  - replace t with (TQuery n) in * by congruence. intros q Hq. specialize (HQ _ Hp). pose proof (i_q _ _ HI _ _ _ Hi Hp) as Hv.
    destruct p; try discriminate Hs; unfold step, jump in Hs.
    + destruct (s_writer s); [discriminate|]. injection Hs as <-. cbn [set_pcs set_lock s_pcs s_hist] in *. here Hp Hq. exact I.
    + destruct (s_windex s); [discriminate|]. injection Hs as <-. cbn [set_pcs set_lock s_pcs s_hist] in *. here Hp Hq. exact I.
    + destruct (s_wdict s); [discriminate|]. injection Hs as <-. cbn [set_pcs set_lock s_pcs s_hist] in *. here Hp Hq. exact I.
    + cbn [query_view] in Hv. assert (from_history h0 (s_hist s) n r) as Hf by (exists (s_hist s); repeat split; [exact Hpre|apply prefix_refl|exact Hv]).
      destruct r as [[e|] [d|]]; injection Hs as <-; cbn [set_pcs set_lock s_pcs s_hist] in *; here Hp Hq; exact Hf.
    + injection Hs as <-. cbn [set_pcs set_lock s_pcs s_hist] in *. here Hp Hq. exact HQ.
    + injection Hs as <-. cbn [set_pcs set_lock s_pcs s_hist] in *. here Hp Hq. exact HQ.
  - intros q Hq. destruct (step_other _ _ _ _ _ Hs) as (p' & Ep). rewrite Ep in Hq. rewrite nth_set_at in Hq. destruct (Nat.eqb_spec j i); [contradiction|]. specialize (HQ _ Hq). destruct q; try exact I; eapply from_grow; eauto.
Qed.
Lemma moves_qinv ts h0 n i sched s s' : Inv ts s -> nth_error ts i = Some (TQuery n) -> QInv h0 n i s -> moves ts sched (Live s) = Some (Live s') -> QInv h0 n i s'.
Proof.
  intros HI Hi. revert s HI. induction sched as [|j sched IH]; intros s HI HQ H; cbn [moves] in H; [injection H as <-; exact HQ|].
  destruct (move ts j (Live s)) as [[s1|]|] eqn:Em; [| |discriminate].
  - apply (IH s1); [eapply move_inv; eauto| |exact H]. cbn [move] in Em. destruct (nth_error ts j) as [t|] eqn:Ht; [|discriminate]. destruct (nth_error (s_pcs s) j) as [p|] eqn:Hp; [|discriminate]. eapply step_qinv; eauto.
  - apply moves_thrown in H. discriminate.
Qed.

(* what a query reads through its handles *)
Definition reads_ok (h : handle) (g : Z) : Prop := forall x, h = Snapshot x -> g = x.
Definition content_ok (p : pc) : Prop :=
  match p with
  | QUseDict e d gi => reads_ok (e_val e) gi
  | QDone (Some e, Some d) (Some (gi, gd)) => reads_ok (e_val e) gi /\ reads_ok (e_val d) gd
  | _ => True
  end.
Definition CInv (s : svc) : Prop := forall i p, nth_error (s_pcs s) i = Some p -> content_ok p.
Lemma read_handle_ok f n h : reads_ok h (read_handle f n h).
Proof. intros x ->. reflexivity. Qed.
Lemma step_cinv t i p s s' : CInv s -> nth_error (s_pcs s) i = Some p -> step t i p s = Some (Live s') -> CInv s'.
Proof.
  intros HC Hp H j q Hq. pose proof (HC _ _ Hp) as Hc. destruct (step_other _ _ _ _ _ H) as (p' & Ep). rewrite Ep in Hq. look Hp; [|eauto].
  destruct t as [n d|n| |n g], p; try (destruct d; discriminate H); try discriminate H; unfold step, jump in H;
  repeat match type of H with
  | context [match ?x with _ => _ end] => is_var x; destruct x; try discriminate H
  | context [mget beqb ?a ?b] => destruct (mget beqb a b) in H; try discriminate H
  | context [s_writer s] => destruct (s_writer s) in H; try discriminate H
  | context [match s_readers s with _ => _ end] => destruct (s_readers s) in H; try discriminate H
  | context [if ?x then _ else _] => destruct x in H; try discriminate H
  end; injection H as <-; cbn [set_pcs set_lock set_index set_dict set_files log_install s_pcs] in Ep;
  (assert (nth_error (s_pcs s) i = Some q -> content_ok q) as Hsame by (intros X; eapply HC; eauto));
  (assert (forall (a b : pc), set_at i a (s_pcs s) = set_at i b (s_pcs s) -> a = b) as Hinj
    by (intros a b E; assert (nth_error (set_at i a (s_pcs s)) i = nth_error (set_at i b (s_pcs s)) i) as E2 by (rewrite E; reflexivity); rewrite !nth_set_at, Nat.eqb_refl, Hp in E2; congruence));
  apply Hinj in Ep; subst q; try exact I; cbn [content_ok].
  - apply read_handle_ok.
  - split; [exact Hc|apply read_handle_ok].
Qed.
Lemma moves_cinv ts sched s s' : CInv s -> moves ts sched (Live s) = Some (Live s') -> CInv s'.
Proof.
  revert s. induction sched as [|j sched IH]; intros s HC H; cbn [moves] in H; [injection H as <-; exact HC|].
  destruct (move ts j (Live s)) as [[s1|]|] eqn:Em; [| |discriminate].
  - apply (IH s1); [|exact H]. cbn [move] in Em. destruct (nth_error ts j) as [t|] eqn:Ht; [|discriminate]. destruct (nth_error (s_pcs s) j) as [p|] eqn:Hp; [|discriminate]. eapply step_cinv; eauto.
  - apply moves_thrown in H. discriminate.
Qed.

(* nobody rewrites the files *)
Definition files_ok (fd fi : list (name * Z)) (n : name) (p : pc) : Prop :=
  match p with
  | QUseDict e d gi => gi = read_handle fi n (e_val e)
  | QDone (Some e, Some d) (Some (gi, gd)) => gi = read_handle fi n (e_val e) /\ gd = read_handle fd n (e_val d)
  | _ => True
  end.
Definition FInv (ts : list thread) (fd fi : list (name * Z)) (s : svc) : Prop :=
  s_fdict s = fd /\ s_findex s = fi /\ forall i n p, nth_error ts i = Some (TQuery n) -> nth_error (s_pcs s) i = Some p -> files_ok fd fi n p.
Lemma step_finv ts fd fi t i p s s' : no_build ts -> FInv ts fd fi s -> nth_error ts i = Some t -> nth_error (s_pcs s) i = Some p -> step t i p s = Some (Live s') -> FInv ts fd fi s'.
Proof.
  intros Hn (F1 & F2 & HC) Ht Hp H. assert (s_fdict s' = fd /\ s_findex s' = fi) as [F1' F2'].
  { destruct t as [n d|n| |n g]; [| | |exfalso; eapply Hn; eapply nth_error_In; eauto];
    destruct p; try (destruct d; discriminate H); try discriminate H; unfold step, jump in H;
    repeat match type of H with
    | context [match ?x with _ => _ end] => is_var x; destruct x; try discriminate H
    | context [mget beqb ?a ?b] => destruct (mget beqb a b) in H; try discriminate H
    | context [s_writer s] => destruct (s_writer s) in H; try discriminate H
    | context [match s_readers s with _ => _ end] => destruct (s_readers s) in H; try discriminate H
    | context [if ?x then _ else _] => destruct x in H; try discriminate H
    end; injection H as <-; auto. }
  split; [exact F1'|]. split; [exact F2'|].
  intros j m q Hm Hq. destruct (step_other _ _ _ _ _ H) as (p' & Ep). rewrite Ep in Hq. destruct (Nat.eq_dec i j) as [<-|Hne].
  2:{ rewrite nth_set_at in Hq. destruct (Nat.eqb_spec i j); [contradiction|]. eauto. }
  replace t with (TQuery m) in * by congruence. clear Ht. pose proof (HC _ _ _ Hm Hp) as Hc. rewrite nth_set_at, Nat.eqb_refl, Hp in Hq. injection Hq as ->.
  assert (forall (a b : pc), set_at i a (s_pcs s) = set_at i b (s_pcs s) -> a = b) as Hinj
    by (intros a b E; assert (nth_error (set_at i a (s_pcs s)) i = nth_error (set_at i b (s_pcs s)) i) as E2 by (rewrite E; reflexivity); rewrite !nth_set_at, Nat.eqb_refl, Hp in E2; congruence).
  destruct p; try discriminate H; unfold step, jump in H;
    repeat match type of H with
    | context [match ?x with _ => _ end] => is_var x; destruct x; try discriminate H
    | context [s_writer s] => destruct (s_writer s) in H; try discriminate H
    | context [if ?x then _ else _] => destruct x in H; try discriminate H
    end; injection H as <-; cbn [set_pcs set_lock set_index set_dict set_files log_install s_pcs] in Ep; apply Hinj in Ep; subst q; try exact I; cbn [files_ok] in *.
  - rewrite F2. reflexivity.
  - split; [exact Hc|]. rewrite F1. reflexivity.
Qed.
Lemma moves_finv ts fd fi sched s s' : no_build ts -> FInv ts fd fi s -> moves ts sched (Live s) = Some (Live s') -> FInv ts fd fi s'.
Proof.
  intros Hn. revert s. induction sched as [|j sched IH]; intros s HC H; cbn [moves] in H; [injection H as <-; exact HC|].
  destruct (move ts j (Live s)) as [[s1|]|] eqn:Em; [| |discriminate].
  - apply (IH s1); [|exact H]. cbn [move] in Em. destruct (nth_error ts j) as [t|] eqn:Ht; [|discriminate]. destruct (nth_error (s_pcs s) j) as [p|] eqn:Hp; [|discriminate]. eapply step_finv; eauto.
  - apply moves_thrown in H. discriminate.
Qed.
