(** Proofs about Scanner: the tokens do not depend on how the reader chunks the text. *)
From Coq Require Import ZifyBool.
From Verif Require Import Base BaseLemmas Text Scanner.
Local Open Scope Z_scope.

Section Generic.
Context (split : splitter) (chunk : nat -> nat).
Definition M : nat := Z.to_nat maxTokenSize.
Lemma M_val : Z.of_nat M = 65536. Proof. unfold M. rewrite Z2Nat.id; [reflexivity|discriminate]. Qed.
Opaque M.
(** Conditions on the split function: a token found without EOF is found in every longer
    text; skipped bytes can be forgotten. *)
Context (H1 : forall d b a t, split d b = (a, t) -> (a <= length d)%nat).
Context (H2 : forall d a t, split d false = (a, Some t) -> forall e b, split (d ++ e) b = (a, Some t)).
Context (H3 : forall d a, split d false = (a, None) -> forall e b, split (d ++ e) b = let '(a', t) := split (skipn a d ++ e) b in ((a + a')%nat, t)).
Context (H4 : forall d b a t, split d b = (a, Some t) -> (0 < a)%nat).

(** What the scanner sees of a text, as a function of the text alone. *)
Definition cons_tok (t : bytes) (x : list bytes * res unit) : list bytes * res unit := (t :: fst x, snd x).
Fixpoint ideal_f (n : nat) (R : bytes) : list bytes * res unit :=
  match n with
  | O => ([], NoFuel)
  | S n' =>
      if (length R <? M)%nat then
        match split R true with
        | (a, Some t) => cons_tok t (ideal_f n' (skipn a R))
        | (_, None) => ([], Ret tt)
        end
      else
        match split (firstn M R) false with
        | (a, Some t) => cons_tok t (ideal_f n' (skipn a R))
        | (a, None) => if (a =? 0)%nat then ([], Fail ErrTooLong) else ideal_f n' (skipn a R)
        end
  end.
Definition ideal (R : bytes) : list bytes * res unit := ideal_f (S (length R)) R.
Lemma ideal_stable : forall n R, (length R < n)%nat -> ideal_f n R = ideal R.
Proof.
  assert (forall n m R, (length R < n)%nat -> (length R < m)%nat -> ideal_f n R = ideal_f m R) as G; [|intros; apply G; lia].
  induction n as [|n IH]; intros [|m] R Hn Hm; try lia. cbn [ideal_f].
  assert (forall a, (0 < a)%nat -> (a <= length R)%nat -> ideal_f n (skipn a R) = ideal_f m (skipn a R)) as Hs by (intros a Ha Hb; apply IH; rewrite skipn_length; lia).
  destruct (length R <? M)%nat eqn:El.
  - destruct (split R true) as [a [t|]] eqn:E; [|reflexivity]. rewrite Hs; [reflexivity|exact (H4 _ _ _ _ E)|exact (H1 _ _ _ _ E)].
  - destruct (split (firstn M R) false) as [a t] eqn:E. pose proof (H1 _ _ _ _ E) as Ha. rewrite firstn_length in Ha. destruct t as [t|].
    + rewrite Hs; [reflexivity|exact (H4 _ _ _ _ E)|lia].
    + destruct (Nat.eqb_spec a 0); [reflexivity|]. apply Hs; lia.
Qed.
Lemma ideal_eq R : ideal R =
  if (length R <? M)%nat then
    match split R true with
    | (a, Some t) => cons_tok t (ideal (skipn a R))
    | (_, None) => ([], Ret tt)
    end
  else
    match split (firstn M R) false with
    | (a, Some t) => cons_tok t (ideal (skipn a R))
    | (a, None) => if (a =? 0)%nat then ([], Fail ErrTooLong) else ideal (skipn a R)
    end.
Proof.
  unfold ideal at 1. cbn [ideal_f]. destruct (length R <? M)%nat eqn:El.
  - destruct (split R true) as [a [t|]] eqn:E; [|reflexivity]. rewrite ideal_stable; [reflexivity|]. pose proof (H4 _ _ _ _ E). pose proof (H1 _ _ _ _ E). rewrite skipn_length. lia.
  - destruct (split (firstn M R) false) as [a t] eqn:E. pose proof (H1 _ _ _ _ E) as Ha. rewrite firstn_length in Ha. destruct t as [t|].
    + rewrite ideal_stable; [reflexivity|]. pose proof (H4 _ _ _ _ E). rewrite skipn_length. lia.
    + destruct (Nat.eqb_spec a 0); [reflexivity|]. apply ideal_stable. rewrite skipn_length. lia.
Qed.
Lemma skipn_add {A} (l : list A) : forall a b, skipn (a + b) l = skipn b (skipn a l).
Proof. induction l as [|x l IH]; intros [|a] b; cbn [skipn Nat.add]; try reflexivity; [rewrite skipn_nil; reflexivity|apply IH]. Qed.
(* a token found in a prefix *)
Lemma ideal_token d e a t : (length d <= M)%nat -> split d false = (a, Some t) -> ideal (d ++ e) = cons_tok t (ideal (skipn a (d ++ e))).
Proof.
  intros Hd E. rewrite ideal_eq. destruct (length (d ++ e) <? M)%nat eqn:El.
  - rewrite (H2 _ _ _ E e true). reflexivity.
  - replace (firstn M (d ++ e)) with (d ++ firstn (M - length d) e) by (rewrite firstn_app; f_equal; symmetry; apply firstn_all2; exact Hd).
    rewrite (H2 _ _ _ E). reflexivity.
Qed.
(* bytes skipped in a prefix *)
Lemma ideal_skip : forall n R d a, (length R < n)%nat -> (exists e, R = d ++ e) -> (length d <= M)%nat -> split d false = (a, None) -> ideal R = ideal (skipn a R).
Proof.
  induction n as [|n IH]; intros R d a Hn [e ->] Hd E; [lia|]. pose proof (H1 _ _ _ _ E) as Ha.
  destruct (Nat.eq_dec a 0) as [->|Hne]; [reflexivity|].
  assert (skipn a (d ++ e) = skipn a d ++ e) as Es by (rewrite skipn_app; replace (a - length d)%nat with O by lia; reflexivity).
  rewrite Es. rewrite ideal_eq. destruct (length (d ++ e) <? M)%nat eqn:El.
  - rewrite (H3 _ _ E e true). rewrite (ideal_eq (skipn a d ++ e)). assert (length (skipn a d ++ e) <? M = true)%nat as -> by (rewrite app_length in *; rewrite skipn_length; lia).
    destruct (split (skipn a d ++ e) true) as [a' [t|]]; [|reflexivity]. rewrite skipn_add, Es. reflexivity.
  - replace (firstn M (d ++ e)) with (d ++ firstn (M - length d) e) by (rewrite firstn_app; f_equal; symmetry; apply firstn_all2; exact Hd).
    rewrite (H3 _ _ E). set (e1 := firstn (M - length d) e). destruct (split (skipn a d ++ e1) false) as [a1 [t|]] eqn:E1.
    + rewrite skipn_add, Es. replace (skipn a d ++ e) with ((skipn a d ++ e1) ++ skipn (M - length d) e) by (unfold e1; rewrite <- app_assoc, firstn_skipn; reflexivity).
      symmetry. apply ideal_token; [|exact E1]. unfold e1. rewrite app_length, skipn_length, firstn_length. lia.
    + destruct (Nat.eqb_spec (a + a1) 0); [lia|]. rewrite skipn_add, Es. symmetry.
      apply (IH (skipn a d ++ e) (skipn a d ++ e1) a1).
      * rewrite app_length in *. rewrite skipn_length. lia.
      * exists (skipn (M - length d) e). unfold e1. rewrite <- app_assoc, firstn_skipn. reflexivity.
      * unfold e1. rewrite app_length, skipn_length, firstn_length. lia.
      * exact E1.
Qed.

(** The scanner's state between rounds. *)
Definition sc_ok (s : scanner) : Prop :=
  0 <= sc_start s /\ sc_start s + zlen (sc_data s) <= sc_size s <= maxTokenSize
  /\ (sc_eof s = true -> sc_rest s = [] /\ (length (sc_data s) < M)%nat).
Definition measure (s : scanner) : nat := (2 * length (sc_rest s) + length (sc_data s) + (if sc_eof s then 0 else 1))%nat.
Lemma fill_ok s : sc_ok s -> sc_eof s = false ->
  (fill chunk s = Stop ErrTooLong /\ length (sc_data s) = M)
  \/ exists s', fill chunk s = More s' /\ sc_ok s' /\ sc_data s' ++ sc_rest s' = sc_data s ++ sc_rest s /\ (measure s' < measure s)%nat
                /\ (sc_eof s' = true -> sc_rest s = [] /\ sc_data s' = sc_data s).
Proof.
  intros (A1 & A2 & A3) Ee. unfold fill. rewrite Ee. pose proof M_val as HM. unfold maxTokenSize in *.
  pose proof (zlen_nonneg (sc_data s)) as Hz0.
  set (shift := (0 <? sc_start s) && _). set (start := if shift then 0 else sc_start s).
  assert (0 <= start <= sc_start s) as Hstart by (unfold start; destruct shift; lia).
  assert (start + zlen (sc_data s) = sc_size s -> start = 0) as Hfull.
  { unfold start, shift. destruct ((0 <? sc_start s) && _) eqn:Eb; [lia|]. intros E. rewrite E in Eb. rewrite Z.eqb_refl in Eb. lia. }
  destruct (start + zlen (sc_data s) =? sc_size s) eqn:E1.
  - apply Z.eqb_eq in E1. specialize (Hfull E1). destruct (65536 <=? sc_size s) eqn:E2; cbn [andb].
    + left. split; [reflexivity|]. unfold zlen in *. lia.
    + right. set (size := Z.min _ _). assert (sc_size s < size <= 65536) as Hsz by (unfold size, startBufSize; destruct (sc_size s =? 0) eqn:E3; lia).
      destruct (sc_rest s) as [|c r] eqn:Er.
      * eexists. split; [reflexivity|]. unfold sc_ok, measure, maxTokenSize. cbn [sc_start sc_data sc_size sc_eof sc_rest]. rewrite Er, Ee. cbn [length].
        split; [split; [lia|]; split; [lia|]; intros _; split; [reflexivity|]; unfold zlen in *; lia|]. split; [rewrite app_nil_r; reflexivity|]. split; [lia|auto].
      * set (n := Nat.min _ _). assert (1 <= n)%nat as Hn by (unfold n; lia). assert (Z.of_nat n <= size - (0 + zlen (sc_data s))) as Hn' by (unfold n; lia). rewrite <- Er in *. clearbody n.
        assert (length (firstn n (sc_rest s)) = Nat.min n (length (sc_rest s))) as Hfl by apply firstn_length.
        assert (1 <= length (sc_rest s))%nat as Hlen by (rewrite Er; cbn; lia).
        eexists. split; [reflexivity|]. unfold sc_ok, measure, maxTokenSize. cbn [sc_start sc_data sc_size sc_eof sc_rest]. rewrite Ee, zlen_app, app_length, skipn_length, Hfl.
        split; [split; [lia|]; split; [unfold zlen at 2; rewrite Hfl; lia|discriminate]|]. split; [rewrite <- app_assoc, firstn_skipn; reflexivity|]. split; [lia|discriminate].
  - cbn [andb]. right. destruct (sc_rest s) as [|c r] eqn:Er.
    + eexists. split; [reflexivity|]. unfold sc_ok, measure, maxTokenSize. cbn [sc_start sc_data sc_size sc_eof sc_rest]. rewrite Er, Ee. cbn [length].
      split; [split; [lia|]; split; [lia|]; intros _; split; [reflexivity|]; unfold zlen in *; lia|]. split; [rewrite app_nil_r; reflexivity|]. split; [lia|auto].
    + set (n := Nat.min _ _). assert (1 <= n)%nat as Hn by (unfold n; lia). assert (Z.of_nat n <= sc_size s - (start + zlen (sc_data s))) as Hn' by (unfold n; lia). rewrite <- Er in *. clearbody n.
      assert (length (firstn n (sc_rest s)) = Nat.min n (length (sc_rest s))) as Hfl by apply firstn_length.
      assert (1 <= length (sc_rest s))%nat as Hlen by (rewrite Er; cbn; lia).
      eexists. split; [reflexivity|]. unfold sc_ok, measure, maxTokenSize. cbn [sc_start sc_data sc_size sc_eof sc_rest]. rewrite Ee, zlen_app, app_length, skipn_length, Hfl.
      split; [split; [lia|]; split; [unfold zlen at 2; rewrite Hfl; lia|discriminate]|]. split; [rewrite <- app_assoc, firstn_skipn; reflexivity|]. split; [lia|discriminate].
Qed.
Lemma scan_ok : forall fuel s, sc_ok s -> (measure s < fuel)%nat -> scan_all split chunk fuel s = ideal (sc_data s ++ sc_rest s).
Proof.
  induction fuel as [|f IH]; intros s Hok Hm; [lia|]. cbn [scan_all]. unfold step. pose proof Hok as (A1 & A2 & A3). pose proof M_val as HM. unfold maxTokenSize in A2.
  assert (length (sc_data s) <= M)%nat as Hd by (unfold zlen in A2; lia).
  destruct (negb (zlen (sc_data s) =? 0) || sc_eof s) eqn:Ec.
  - destruct (split (sc_data s) (sc_eof s)) as [a t] eqn:E. pose proof (H1 _ _ _ _ E) as Ha. destruct (length (sc_data s) <? a)%nat eqn:El; [lia|].
    assert (zlen (skipn a (sc_data s)) = zlen (sc_data s) - Z.of_nat a) as Hzs by (unfold zlen; rewrite skipn_length; lia).
    assert (skipn a (sc_data s ++ sc_rest s) = skipn a (sc_data s) ++ sc_rest s) as Es by (rewrite skipn_app; replace (a - length (sc_data s))%nat with O by lia; reflexivity).
    destruct t as [t|].
    + pose proof (H4 _ _ _ _ E) as Hpos. assert (negb (sc_eof s) || (0 <? a)%nat = true) as -> by lia. cbn [sc_start sc_data sc_size sc_eof sc_empties sc_rest sc_reads].
      set (s' := mkSc _ _ _ _ _ _ _). assert (sc_ok s') as Hok'.
      { unfold sc_ok, s', maxTokenSize. cbn [sc_start sc_data sc_size sc_eof sc_rest]. split; [lia|]. split; [lia|]. intros Ee. destruct (A3 Ee) as [? ?]. split; [assumption|]. rewrite skipn_length. lia. }
      rewrite (IH s' Hok') by (unfold measure, s' in *; cbn [sc_data sc_eof sc_rest]; rewrite skipn_length; lia).
      unfold s'. cbn [sc_data sc_rest]. rewrite <- Es.
      transitivity (cons_tok t (ideal (skipn a (sc_data s ++ sc_rest s)))); [unfold cons_tok; destruct (ideal _); reflexivity|]. symmetry.
      destruct (sc_eof s) eqn:Ee.
      * destruct (A3 eq_refl) as [Hr Hl]. rewrite Hr, app_nil_r. rewrite ideal_eq. destruct (length (sc_data s) <? M)%nat eqn:Elm; [|lia]. rewrite E. reflexivity.
      * apply ideal_token; assumption.
    + set (s' := mkSc _ _ _ _ _ _ _). assert (sc_ok s') as Hok'.
      { unfold sc_ok, s', maxTokenSize. cbn [sc_start sc_data sc_size sc_eof sc_rest]. split; [lia|]. split; [lia|]. intros Ee. destruct (A3 Ee) as [? ?]. split; [assumption|]. rewrite skipn_length. lia. }
      destruct (sc_eof s) eqn:Ee.
      * unfold fill, s'. cbn [sc_eof]. destruct (A3 eq_refl) as [Hr Hl]. rewrite Hr, app_nil_r. rewrite ideal_eq. destruct (length (sc_data s) <? M)%nat eqn:Elm; [|lia]. rewrite E. reflexivity.
      * rewrite (ideal_skip (S (length (sc_data s ++ sc_rest s))) _ (sc_data s) a) by (eauto || lia). rewrite Es.
        destruct (fill_ok s' Hok' eq_refl) as [[Ef Hl]|(s'' & Ef & Ok & Ed & Hms & _)]; rewrite Ef.
        -- unfold s' in Hl. cbn [sc_data] in Hl. rewrite skipn_length in Hl. assert (a = O) by lia. subst a. cbn [skipn].
           rewrite ideal_eq. destruct (length (sc_data s ++ sc_rest s) <? M)%nat eqn:Elm; [rewrite app_length in Elm; lia|].
           assert (firstn M (sc_data s ++ sc_rest s) = sc_data s) as -> by (rewrite firstn_app; replace (M - length (sc_data s))%nat with O by lia; cbn [firstn]; rewrite app_nil_r; apply firstn_all2; exact Hd). rewrite E. reflexivity.
        -- rewrite (IH s'' Ok). { rewrite Ed. reflexivity. } unfold s', measure in Hms, Hm. cbn [sc_data sc_rest sc_eof] in Hms. rewrite skipn_length in Hms. unfold measure. rewrite Ee in *. lia.
  - assert (sc_eof s = false /\ sc_data s = []) as [Ee Hnil]. { split; [lia|]. destruct (sc_data s); [reflexivity|]. cbn in Ec. discriminate. }
    destruct (fill_ok s Hok Ee) as [[Ef Hl]|(s'' & Ef & Ok & Ed & Hms & _)]; rewrite Ef.
    + rewrite Hnil in Hl. cbn in Hl. lia.
    + rewrite (IH s'' Ok) by lia. rewrite Ed. reflexivity.
Qed.
(** All fuels beyond some length give the same: the scanner ends, with the tokens of the
    text and nothing else. *)
Theorem scanner_ideal text fuel : (2 * length text + 1 < fuel)%nat -> scan_all split chunk fuel (NewScanner text) = ideal text.
Proof.
  intros Hf. rewrite scan_ok; [reflexivity| |].
  - unfold sc_ok, NewScanner. cbn. split; [lia|]. split; [unfold maxTokenSize; cbn; lia|discriminate].
  - unfold measure, NewScanner. cbn [sc_rest sc_data sc_eof length]. lia.
Qed.
End Generic.
