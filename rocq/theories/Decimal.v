(** Decimal numbers as strconv.FormatUint / fmt print them.  Definitions, and the facts
    that they read back. *)
From Coq Require Import ZifyBool.
From Verif Require Import Base BaseLemmas.
Local Open Scope Z_scope.

(* strconv/itoa.go FormatUint (base 10): the digits from the last one on, in front of [acc] *)
Fixpoint dec_loop (fuel : nat) (n : Z) (acc : bytes) : bytes :=
  match fuel with
  | O => acc
  | S f => let acc := (48 + n mod 10) :: acc in if n / 10 =? 0 then acc else dec_loop f (n / 10) acc
  end.
(** at most 20 digits for a uint64 *)
Definition dec (n : Z) : bytes := dec_loop 20 n [].
Definition is_digit (c : Z) : bool := (48 <=? c) && (c <=? 57).
(** the number a string of digits stands for *)
Definition digits_val (s : bytes) : Z := fold_left (fun a c => a * 10 + (c - 48)) s 0.
(** the longest prefix of digits *)
Fixpoint take_digits (s : bytes) : bytes * bytes :=
  match s with
  | c :: t => if is_digit c then let '(d, r) := take_digits t in (c :: d, r) else ([], s)
  | [] => ([], [])
  end.

Lemma dec_loop_spec fuel : forall n acc, 0 <= n < 10 ^ Z.of_nat fuel ->
  exists d, dec_loop fuel n acc = d ++ acc /\ Forall (fun c => is_digit c = true) d
  /\ (forall a, fold_left (fun a c => a * 10 + (c - 48)) d a = a * 10 ^ Z.of_nat (length d) + n)
  /\ (fuel <> O -> d <> []) /\ (0 < n -> exists c t, d = c :: t /\ c <> 48) /\ (n = 0 -> fuel <> O -> d = [48]) /\ (length d <= fuel)%nat.
Proof.
  induction fuel as [|f IH]; intros n acc Hn; cbn [dec_loop].
  - exists []. split; [reflexivity|]. split; [constructor|]. split; [intros a; cbn [fold_left length]; change (Z.of_nat 0) with 0 in *; rewrite Z.pow_0_r in *; lia|].
    split; [congruence|]. split; [change (Z.of_nat 0) with 0 in Hn; rewrite Z.pow_0_r in Hn; lia|]. split; [congruence|auto].
  - pose proof (Z.mod_pos_bound n 10 ltac:(lia)) as Hm. pose proof (Z.div_mod n 10 ltac:(lia)) as Hd.
    assert (is_digit (48 + n mod 10) = true) as Hdig by (unfold is_digit; lia).
    destruct (n / 10 =? 0) eqn:E.
    + exists [48 + n mod 10]. split; [reflexivity|]. split; [constructor; [exact Hdig|constructor]|].
      split; [intros a; cbn [fold_left length]; change (10 ^ Z.of_nat 1) with 10; lia|]. split; [congruence|].
      split; [intros; exists (48 + n mod 10), []; split; [reflexivity|lia]|]. split; [intros -> _; reflexivity|cbn [length]; lia].
    + assert (0 <= n / 10 < 10 ^ Z.of_nat f) as Hn'.
      { split; [apply Z.div_pos; lia|]. apply Z.div_lt_upper_bound; [lia|]. rewrite <- Z.pow_succ_r by lia. replace (Z.succ (Z.of_nat f)) with (Z.of_nat (S f)) by lia. lia. }
      destruct (IH (n / 10) ((48 + n mod 10) :: acc) Hn') as (d & -> & H1 & H2 & H3 & H4 & H5 & H6).
      exists (d ++ [48 + n mod 10]). split; [rewrite <- app_assoc; reflexivity|]. split; [apply Forall_app; split; [exact H1|constructor; [exact Hdig|constructor]]|].
      split. { intros a. rewrite fold_left_app, H2, app_length. cbn [fold_left length]. rewrite Nat2Z.inj_add, Z.pow_add_r by lia. change (10 ^ Z.of_nat 1) with 10. lia. }
      split; [intros _; destruct d; discriminate|]. split.
      { intros Hp. destruct (H4 ltac:(lia)) as (c & t & -> & Hc). exists c, (t ++ [48 + n mod 10]). auto. }
      split; [intros ->; cbn in E; discriminate|]. rewrite app_length. cbn [length]. lia.
Qed.
Lemma dec_spec n : is_u64 n -> Forall (fun c => is_digit c = true) (dec n) /\ digits_val (dec n) = n /\ dec n <> []
  /\ (0 < n -> exists c t, dec n = c :: t /\ c <> 48) /\ (n = 0 -> dec n = [48]) /\ (length (dec n) <= 20)%nat.
Proof.
  intros Hn. destruct (dec_loop_spec 20 n []) as (d & E & H1 & H2 & H3 & H4 & H5 & H6); [unfold is_u64 in Hn; split; [lia|]; eapply Z.lt_trans; [apply Hn|reflexivity]|].
  unfold dec, digits_val. rewrite E, app_nil_r. split; [exact H1|]. split; [rewrite H2; lia|]. split; [apply H3; discriminate|]. split; [exact H4|]. split; [intros; apply H5; [assumption|discriminate]|exact H6].
Qed.
Lemma take_digits_app d : Forall (fun c => is_digit c = true) d -> forall r, (match r with [] => True | c :: _ => is_digit c = false end) ->
  take_digits (d ++ r) = (d, r).
Proof.
  induction 1 as [|c d Hc Hd IH]; intros r Hr; cbn [app take_digits].
  - destruct r as [|c r]; [reflexivity|]. cbn [take_digits]. rewrite Hr. reflexivity.
  - rewrite Hc, IH by exact Hr. reflexivity.
Qed.
