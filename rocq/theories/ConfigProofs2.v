(** Decoding into the structs of the configurations. *)
From Coq Require Import String ZifyBool.
From Verif Require Import Base BaseLemmas GoMap Text AnalysisSpec TextProofs TextProofs2 Http HttpSpec P_Http JsonSpec JsonProofs Paths Config ConfigSpec ConfigProofs.
Local Open Scope Z_scope.
Local Notation length := List.length.

(** ** The value of a field that was not set before *)
Inductive view := VText (s : bytes) | VInt (n : Z) | VTexts (l : list bytes) | VPair (a b : bytes).
Definition seen (v : fvalue) : view :=
  match v with FString s => VText s | FInt n => VInt n | FStrings len cells => VTexts (firstn len cells) | FPair a b => VPair a b end.
Definition wanted (t : ftype) (o : option json) : option view :=
  match t with
  | TString => option_map VText (text_of o)
  | TInt low high => option_map VInt (integer_of low high o)
  | TStrings => option_map VTexts (texts_of o)
  | TPair => option_map (fun p => VPair (fst p) (snd p)) (pair_of o)
  end.
Definition non_null (j : json) : option json := match j with JNull => None | _ => Some j end.
Definition agrees (ve : fvalue * bool) (w : option view) : Prop :=
  match w with Some x => snd ve = false /\ seen (fst ve) = x | None => snd ve = true end.

Lemma store_string_ok j : match text_of (Some j) with Some s => store_string [] (as_go j) = (s, false) | None => snd (store_string [] (as_go j)) = true end.
Proof. destruct j; reflexivity. Qed.

Lemma digits_decimal s : forall acc, digits_value acc s = if forallb is_dig s then Some (decimal s acc) else None.
Proof. induction s as [|c s IH]; intros acc; [reflexivity|]. cbn [digits_value forallb decimal]. destruct (is_dig c); [|reflexivity]. rewrite IH. cbn [andb]. replace (10 * acc + (c - 48)) with (acc * 10 + (c - 48)) by lia. reflexivity. Qed.
Lemma is_dig_digit s : forallb is_dig s = true <-> Forall HttpSpec.is_digit s.
Proof. rewrite forallb_forall, Forall_forall. unfold is_dig, HttpSpec.is_digit. split; intros H x Hx; specialize (H x Hx); lia. Qed.
Lemma parse_int_ok low high t : low = 0 /\ high < 2 ^ 64 \/ - 2 ^ 63 <= low < 0 /\ high < 2 ^ 63 -> begins 43 t = false ->
  match integer_value (low <? 0) t with
  | Some n => low <= n <= high -> parse_int low t = Ret n
  | None => forall n, parse_int low t <> Ret n
  end /\ forall n, parse_int low t = Ret n -> integer_value (low <? 0) t = Some n.
Proof.
  intros Hr Hp.
  assert (forall n, parse_int low t = Ret n <-> integer_value (low <? 0) t = Some n /\ (if low <? 0 then - 2 ^ 63 <= n < 2 ^ 63 else n < 2 ^ 64)) as H.
  { intros n. unfold parse_int. destruct (low <? 0) eqn:El.
    - replace (0 <=? low) with false by lia. rewrite C66_parse_int. apply and_iff_compat_r. unfold numeral, integer_value. split.
      + intros (d & Hne & Hd & Hc). apply is_dig_digit in Hd. destruct Hc as [[[-> | ->] ->]|[-> ->]].
        * destruct d as [|c d]; [congruence|]. assert (c =? 45 = false) as -> by (cbn [forallb] in Hd; unfold is_dig in Hd; lia). rewrite digits_decimal, Hd. reflexivity.
        * discriminate Hp.
        * cbn [Z.eqb Pos.eqb]. destruct d as [|c d]; [congruence|]. rewrite digits_decimal, Hd. reflexivity.
      + destruct t as [|c t]; [discriminate|]. destruct (Z.eqb_spec c 45) as [->|Hc].
        * destruct t as [|c t]; [discriminate|]. rewrite digits_decimal. destruct (forallb is_dig (c :: t)) eqn:Ed; [|discriminate]. cbn [option_map]. intros E. injection E as <-. exists (c :: t). split; [discriminate|]. split; [apply is_dig_digit; exact Ed|]. right. split; reflexivity.
        * rewrite digits_decimal. destruct (forallb is_dig (c :: t)) eqn:Ed; [|discriminate]. intros E. injection E as <-. exists (c :: t). split; [discriminate|]. split; [apply is_dig_digit; exact Ed|]. left. split; [left; reflexivity|reflexivity].
    - replace (0 <=? low) with true by lia. rewrite ParseUint_spec. unfold integer_value. destruct t as [|c t]; [split; [intros (H & _); congruence|intros [H _]; discriminate H]|].
      rewrite <- is_dig_digit. destruct (Z.eqb_spec c 45) as [->|Hc].
      + split; [intros (_ & H & _); discriminate H|intros [H _]; discriminate H].
      + rewrite digits_decimal. destruct (forallb is_dig (c :: t)) eqn:Ed; [|split; [intros (_ & H & _); discriminate H|intros [H _]; discriminate H]].
        split; [intros (_ & _ & -> & H); auto|intros [H ?]; injection H as <-]. split; [discriminate|auto]. }
  split; [|intros n Hn; apply H in Hn; tauto]. destruct (integer_value (low <? 0) t) as [n|] eqn:E.
  - intros Hn. apply H. split; [reflexivity|]. destruct (low <? 0) eqn:El; lia.
  - intros n Hn. apply H in Hn. destruct Hn as [Hn _]. congruence.
Qed.
Definition int_type (t : ftype) : Prop := match t with TInt low high => low = 0 /\ high < 2 ^ 64 \/ - 2 ^ 63 <= low < 0 /\ high < 2 ^ 63 | _ => True end.
Fixpoint numbers_ok (j : json) : Prop :=
  match j with
  | JNumber t => begins 43 t = false
  | JArray l => fold_right (fun x P => numbers_ok x /\ P) True l
  | JObject l => fold_right (fun m P => numbers_ok (snd m) /\ P) True l
  | _ => True
  end.
Lemma set_cell_end done s k : set_cell (done ++ repeat [] (S k)) (length done) s = (done ++ [s]) ++ repeat [] k.
Proof.
  unfold set_cell. rewrite firstn_app, firstn_all, Nat.sub_diag. cbn [firstn repeat]. rewrite app_nil_r, <- app_assoc. f_equal. cbn [app]. f_equal.
  rewrite skipn_app. replace (S (length done) - length done)%nat with 1%nat by lia. rewrite skipn_all2 by lia. reflexivity.
Qed.
Lemma store_cells_fresh l : forall done k,
  match all_of (fun j => text_of (Some j)) l with
  | Some ts => exists k', store_cells (length done) (length done) (done ++ repeat [] k) (map as_go l) = ((length done + length l)%nat, (length done + length l)%nat, (done ++ ts) ++ repeat [] k', false)
  | None => snd (store_cells (length done) (length done) (done ++ repeat [] k) (map as_go l)) = true
  end.
Proof.
  induction l as [|j l IH]; intros done k.
  - cbn [all_of map store_cells]. exists k. rewrite Nat.add_0_r, app_nil_r. reflexivity.
  - cbn [all_of map store_cells].
    assert (exists k', grown (length done) (length done) (done ++ repeat [] k) = done ++ repeat [] (S k')) as (k' & Hg).
    { unfold grown, bytes. cbv zeta. destruct k as [|k].
      - cbn [repeat]. rewrite app_nil_r, Nat.ltb_irrefl. rewrite firstn_all.
        destruct (Nat.ltb_spec (length done + length done / 2) 4) as [H4|H4].
        + destruct (Nat.ltb_spec (length done) 4); [|lia]. exists (3 - length done)%nat. replace (4 - length done)%nat with (S (3 - length done)) by lia. reflexivity.
        + pose proof (Nat.div_le_mono 2 (length done) 2). assert (2 <= length done)%nat as H2 by (destruct (Nat.le_gt_cases 2 (length done)) as [|Hlt]; [assumption|]; pose proof (Nat.div_small (length done) 2 Hlt); lia). specialize (H ltac:(discriminate) H2). change (2 / 2)%nat with 1%nat in H.
          exists (length done / 2 - 1)%nat. replace (length done + length done / 2 - length done)%nat with (S (length done / 2 - 1)) by lia. reflexivity.
      - replace (length done <? length (done ++ repeat [] (S k)))%nat with true by (symmetry; apply Nat.ltb_lt; rewrite app_length; cbn [repeat length]; lia). exists k. reflexivity. }
    rewrite Hg. cbv zeta. rewrite app_nth2, Nat.sub_diag by lia. cbn [repeat nth]. rewrite Nat.max_r by lia.
    pose proof (store_string_ok j) as Hs. destruct (text_of (Some j)) as [s|].
    + rewrite Hs. change ([] :: repeat [] k') with (repeat (@nil Z) (S k')). rewrite set_cell_end. specialize (IH (done ++ [s]) k'). rewrite app_length in IH. cbn [length] in IH. rewrite Nat.add_1_r in IH.
      destruct (all_of (fun j => text_of (Some j)) l) as [ts|].
      * destruct IH as (k'' & ->). exists k''. cbn [orb]. rewrite <- (app_assoc done [s] ts). cbn [app length]. replace (S (length done) + length l)%nat with (length done + S (length l))%nat by lia. reflexivity.
      * destruct (store_cells _ _ _ _) as [[[n len] cells] e]. cbn [snd] in *. rewrite IH. reflexivity.
    + destruct (store_string [] (as_go j)) as [s e]. cbn [snd] in Hs. subst e. destruct (store_cells _ _ _ _) as [[[n len] cells] e]. reflexivity.
Qed.
Lemma all_of_length {A B} (f : A -> option B) l r : all_of f l = Some r -> length r = length l.
Proof. revert r. induction l as [|x l IH]; intros r E; cbn [all_of] in E; [injection E as <-; reflexivity|]. destruct (f x); [|discriminate]. destruct (all_of f l); [|discriminate]. injection E as <-. cbn [length]. f_equal. apply IH. reflexivity. Qed.
Lemma store_ok t j : int_type t -> numbers_ok j -> agrees (store t (zero t) (as_go j)) (wanted t (non_null j)).
Proof.
  intros Ht Hn. destruct t as [|low high| |].
  - destruct j; cbn; auto.
  - destruct j as [| | |t| | |]; cbn [non_null]; try (cbn; auto; fail). cbn [as_go zero store store_int wanted integer_of option_map]. cbn [int_type] in Ht. cbn [numbers_ok] in Hn.
    destruct (parse_int_ok low high t Ht Hn) as [H1 H2]. destruct (integer_value (low <? 0) t) as [n|] eqn:E.
    + destruct ((low <=? n) && (n <=? high)) eqn:Er.
      * rewrite (H1 ltac:(lia)), Er. cbn. auto.
      * cbn [agrees]. destruct (parse_int low t) as [n'| | |]; try reflexivity. specialize (H2 n' eq_refl). injection H2 as ->. rewrite Er. reflexivity.
    + cbn [agrees]. destruct (parse_int low t) as [n'| | |]; try reflexivity. exfalso. exact (H1 n' eq_refl).
  - destruct j as [| | | | |l|]; cbn [non_null]; try (cbn; auto; fail). cbn [as_go zero store store_strings wanted texts_of option_map].
    pose proof (store_cells_fresh l [] 0) as H. cbn [app repeat length] in H. destruct (all_of (fun j => text_of (Some j)) l) as [ts|] eqn:E.
    + destruct H as (k' & H). change (@nil bytes) with (@nil (list Z)). rewrite H. cbn [agrees option_map]. cbn [app Nat.add]. pose proof (all_of_length _ _ _ E) as Hl. destruct (Nat.eqb_spec (length l) 0) as [H0|H0].
      * rewrite H0 in Hl. destruct ts; [|discriminate]. cbn. auto.
      * cbn [fst snd seen]. split; [reflexivity|]. rewrite <- Hl, firstn_app, firstn_all, Nat.sub_diag. cbn [firstn]. rewrite app_nil_r. reflexivity.
    + cbn [agrees option_map]. match type of H with snd ?x = _ => destruct x as [[[n len] cells] e] eqn:Es end. cbn [snd] in H.
      match goal with |- context [store_cells ?a ?b ?c ?d] => replace (store_cells a b c d) with (n, len, cells, e) by (symmetry; exact Es) end. exact H.
  - destruct j as [| | | | |l|]; cbn [non_null]; try (cbn; auto; fail). cbn [as_go zero store store_pair wanted pair_of option_map].
    destruct l as [|x [|y l]]; cbn [map nth_error].
    + cbn. auto.
    + pose proof (store_string_ok x) as Hx. destruct (text_of (Some x)) as [a|]; [rewrite Hx; cbn; auto|]. destruct (store_string [] (as_go x)) as [a e]. cbn [snd] in Hx. subst e. reflexivity.
    + pose proof (store_string_ok x) as Hx. pose proof (store_string_ok y) as Hy. destruct (text_of (Some x)) as [a|].
      * rewrite Hx. destruct (text_of (Some y)) as [b|]; [rewrite Hy; cbn; auto|]. destruct (store_string [] (as_go y)) as [b e]. cbn [snd] in Hy. subst e. reflexivity.
      * destruct (store_string [] (as_go x)) as [a e]. cbn [snd] in Hx. subst e. destruct (store_string [] (as_go y)) as [b e]. reflexivity.
Qed.

(** ** Names *)
Definition ascii (s : bytes) : Prop := Forall (fun c => 0 <= c < 128) s.
Lemma small_ascii c : 0 <= c < 128 -> small c = lower_ascii c.
Proof. intros H. unfold small, lower_ascii. destruct ((65 <=? c) && (c <=? 90)); [reflexivity|]. destruct (Z.eqb_spec c 8490); [lia|]. destruct (Z.eqb_spec c 383); [lia|]. reflexivity. Qed.
Lemma lower_small_range c : 0 <= c < 128 -> 0 <= lower_ascii c < 128. Proof. unfold lower_ascii. destruct ((65 <=? c) && (c <=? 90)) eqn:E; lia. Qed.
Lemma small_high c : ~ 0 <= c < 128 -> c <> 8490 -> c <> 383 -> small c = c.
Proof. intros. unfold small. destruct ((65 <=? c) && (c <=? 90)) eqn:E; [lia|]. destruct (Z.eqb_spec c 8490); [lia|]. destruct (Z.eqb_spec c 383); [lia|]. reflexivity. Qed.
Lemma fold_named k : forall name, ascii name -> equal_fold name (utf8 k) = true <-> map small k = map small name.
Proof.
  induction k as [|r k IH]; intros name Ha.
  - cbn. destruct name; cbn; split; congruence.
  - unfold utf8. cbn [map concat]. fold (utf8 k). destruct name as [|n ns].
    { split; [|discriminate]. pose proof (encode_nonempty r). destruct (encode_rune r); [congruence|]. discriminate. }
    assert (0 <= n < 128) as Hn by (inversion Ha; assumption). assert (ascii ns) as Ha' by (inversion Ha; assumption). specialize (IH ns Ha'). cbn [map]. rewrite (small_ascii n Hn). pose proof (lower_small_range n Hn) as Hln.
    destruct (Z_lt_dec r 128) as [Hr|Hr]; [destruct (Z_le_dec 0 r) as [H0|H0]|].
    + assert (encode_rune r = [r]) as -> by (unfold encode_rune, valid_rune; replace ((0 <=? r) && (r <? 55296) || (57343 <? r) && (r <=? 1114111)) with true by lia; destruct (r <? 128) eqn:E; [reflexivity|lia]).
      cbn [app equal_fold]. replace (r <? 128) with true by lia. rewrite andb_true_iff, IH, Z.eqb_eq, (small_ascii r) by lia. split; [intros [-> ->]; reflexivity|]. intros H. injection H as H1 H2. auto.
    + assert (encode_rune r = [239; 191; 189]) as -> by (unfold encode_rune, valid_rune; replace ((0 <=? r) && (r <? 55296) || (57343 <? r) && (r <=? 1114111)) with false by lia; reflexivity).
      cbn. rewrite (small_high r) by lia. split; [discriminate|]. intros H. injection H as H1 H2. lia.
    + destruct (Z.eq_dec r 383) as [->|H383].
      { change (encode_rune 383) with [197; 191]. cbn [app equal_fold]. change (197 <? 128) with false. change ((197 =? 197) && (191 =? 191)) with true. cbn iota. rewrite andb_true_iff, IH, Z.eqb_eq. change (small 383) with 115. split; [intros [-> ->]; reflexivity|]. intros H. injection H as H1 H2. auto. }
      destruct (Z.eq_dec r 8490) as [->|H8490].
      { change (encode_rune 8490) with [226; 132; 170]. cbn [app equal_fold]. change (226 <? 128) with false. change ((226 =? 197) && (132 =? 191)) with false. change ((226 =? 226) && (132 =? 132) && (170 =? 170)) with true. cbn iota. rewrite andb_true_iff, IH, Z.eqb_eq. change (small 8490) with 107. split; [intros [-> ->]; reflexivity|]. intros H. injection H as H1 H2. auto. }
      rewrite (small_high r) by lia. split; [|intros H; injection H as H1 H2; lia]. intros H. exfalso.
      pose proof (decode_encode r (utf8 k)) as Hd. pose proof (encode_nonempty r) as Hne.
      assert (vr r <> 383 /\ vr r <> 8490 /\ 128 <= vr r) as (Hv1 & Hv2 & Hv3) by (unfold vr; destruct (valid_rune r); unfold RuneError; lia).
      destruct (encode_rune r ++ utf8 k) as [|c ks] eqn:Ec; [destruct (encode_rune r); [congruence|discriminate]|]. cbn [equal_fold] in H.
      destruct (c <? 128) eqn:Ec1; [cbn [decode_rune] in Hd; rewrite Ec1 in Hd; injection Hd as Hd _; lia|].
      destruct ks as [|c2 ks]; [discriminate|]. destruct ((c =? 197) && (c2 =? 191)) eqn:Ec2.
      { assert (c = 197) as -> by lia. assert (c2 = 191) as -> by lia. cbn in Hd. injection Hd as Hd _. lia. }
      destruct ks as [|c3 ks]; [discriminate|]. destruct ((c =? 226) && (c2 =? 132) && (c3 =? 170)) eqn:Ec3; [|discriminate].
      apply andb_true_iff in Ec3. destruct Ec3 as [Ec3 E3]. apply andb_true_iff in Ec3. destruct Ec3 as [E1 E2]. apply Z.eqb_eq in E1, E2, E3. subst c c2 c3. cbn in Hd. injection Hd as Hd _. lia.
Qed.

Definition tags_ok (T : stype) : Prop := NoDup (map (fun ft => map small (fst ft)) T) /\ Forall (fun ft => ascii (fst ft) /\ int_type (snd ft)) T.
Lemma first_index_some {A} (p : A -> bool) l : forall i j, first_index p i l = Some j -> (i <= j)%nat /\ exists x, nth_error l (j - i) = Some x /\ p x = true.
Proof.
  induction l as [|x l IH]; intros i j E; cbn [first_index] in E; [discriminate|]. destruct (p x) eqn:Ep.
  - injection E as <-. split; [lia|]. exists x. rewrite Nat.sub_diag. split; [reflexivity|exact Ep].
  - destruct (IH _ _ E) as (Hle & y & Hy & Hp). split; [lia|]. exists y. replace (j - i)%nat with (S (j - S i)) by lia. split; [exact Hy|exact Hp].
Qed.
Lemma first_index_none {A} (p : A -> bool) l : forall i, first_index p i l = None -> forall x, In x l -> p x = false.
Proof. induction l as [|x l IH]; intros i E y Hy; cbn [first_index] in E; [destruct Hy|]. destruct (p x) eqn:Ep; [discriminate|]. destruct Hy as [<-|Hy]; [exact Ep|]. exact (IH _ E y Hy). Qed.
Lemma ascii_utf8 s : ascii s -> utf8 s = s.
Proof. induction 1 as [|c s Hc Hs IH]; [reflexivity|]. unfold utf8. cbn [map concat]. fold (utf8 s). rewrite IH. unfold encode_rune, valid_rune. replace ((0 <=? c) && (c <? 55296) || (57343 <? c) && (c <=? 1114111)) with true by lia. destruct (c <? 128) eqn:E; [reflexivity|lia]. Qed.
Lemma fold_refl name : ascii name -> equal_fold name name = true.
Proof. intros H. pose proof (fold_named name name H) as E. rewrite (ascii_utf8 name H) in E. apply E. reflexivity. Qed.
Lemma field_found T k i : tags_ok T -> field_of T (utf8 k) = Some i -> exists name t, nth_error T i = Some (name, t) /\ named name k.
Proof.
  intros [_ HT] E. rewrite Forall_forall in HT. unfold field_of in E. destruct (first_index (fun ft => beqb (fst ft) (utf8 k)) 0 T) as [j|] eqn:E1.
  - injection E as ->. destruct (first_index_some _ _ _ _ E1) as (_ & [name t] & Hn & Hp). rewrite Nat.sub_0_r in Hn. cbn [fst] in Hp. exists name, t. split; [exact Hn|]. destruct (HT _ (nth_error_In _ _ Hn)) as [Ha _]. cbn [fst] in Ha.
    apply beqb_ok in Hp. apply (fold_named k name Ha). rewrite <- Hp. apply fold_refl. exact Ha.
  - destruct (first_index_some _ _ _ _ E) as (_ & [name t] & Hn & Hp). rewrite Nat.sub_0_r in Hn. cbn [fst] in Hp. exists name, t. split; [exact Hn|]. destruct (HT _ (nth_error_In _ _ Hn)) as [Ha _]. apply (fold_named k name Ha). exact Hp.
Qed.
Lemma field_exists T k i name t : tags_ok T -> nth_error T i = Some (name, t) -> named name k -> field_of T (utf8 k) = Some i.
Proof.
  intros HT Hn Hk. destruct (field_of T (utf8 k)) as [j|] eqn:E.
  - destruct (field_found T k j HT E) as (name' & t' & Hn' & Hk'). f_equal. destruct HT as [Hnd _].
    assert (nth_error (map (fun ft => map small (fst ft)) T) j = nth_error (map (fun ft => map small (fst ft)) T) i) as He by (rewrite (map_nth_error (fun ft => map small (fst ft)) _ _ Hn), (map_nth_error (fun ft => map small (fst ft)) _ _ Hn'); cbn [fst]; unfold named in *; congruence).
    apply (proj1 (NoDup_nth_error _) Hnd) in He; [exact He|]. rewrite map_length. assert (nth_error T j <> None) as Hx by (rewrite Hn'; discriminate). apply nth_error_Some in Hx. exact Hx.
  - exfalso. unfold field_of in E. destruct (first_index (fun ft => beqb (fst ft) (utf8 k)) 0 T); [discriminate|]. pose proof (first_index_none _ _ _ E _ (nth_error_In _ _ Hn)) as H. cbn [fst] in H.
    destruct HT as [_ HT]. rewrite Forall_forall in HT. destruct (HT _ (nth_error_In _ _ Hn)) as [Ha _]. apply (fold_named k name Ha) in Hk. congruence.
Qed.

(** ** Objects *)
Definition member_named (o : list (list Z * json)) (name : bytes) : option (list Z * json) := find (fun m => if named_dec name (fst m) then true else false) o.
Lemma set_field_nth i v l j : (i < length l)%nat -> nth_error (set_field i v l) j = if (j =? i)%nat then Some v else nth_error l j.
Proof.
  intros Hi. unfold set_field. destruct (Nat.eqb_spec j i) as [->|Hj].
  - rewrite nth_error_app2 by (rewrite firstn_length; lia). rewrite firstn_length. replace (i - Nat.min i (length l))%nat with 0%nat by lia. reflexivity.
  - destruct (Nat.lt_ge_cases j i) as [Hlt|Hge].
    + rewrite nth_error_app1 by (rewrite firstn_length; lia). rewrite <- (firstn_skipn i l) at 2. rewrite nth_error_app1 by (rewrite firstn_length; lia). reflexivity.
    + rewrite nth_error_app2 by (rewrite firstn_length; lia). rewrite firstn_length. replace (j - Nat.min i (length l))%nat with (S (j - S i)) by lia. cbn [nth_error].
      rewrite <- (firstn_skipn (S i) l) at 2. rewrite nth_error_app2 by (rewrite firstn_length; lia). rewrite firstn_length. f_equal. lia.
Qed.
Lemma set_field_len i v l : (i < length l)%nat -> length (set_field i v l) = length l.
Proof. intros H. unfold set_field. rewrite app_length. cbn [length]. rewrite firstn_length, skipn_length. lia. Qed.
Definition go_members (o : list (list Z * json)) := map (fun m => (utf8 (fst m), as_go (snd m))) o.
Lemma objects T o : tags_ok T -> forall fs e, length fs = length T -> distinct_names o ->
  (forall i name t, nth_error T i = Some (name, t) -> member_named o name <> None -> nth_error fs i = Some (zero t)) ->
  let '(fs', e') := fold_left (store_member T) (go_members o) (fs, e) in
  length fs' = length T
  /\ (forall i name t, nth_error T i = Some (name, t) ->
        nth_error fs' i = match member_named o name with Some (_, j) => Some (fst (store t (zero t) (as_go j))) | None => nth_error fs i end)
  /\ (e' = true <-> e = true \/ exists i name t k j, nth_error T i = Some (name, t) /\ member_named o name = Some (k, j) /\ snd (store t (zero t) (as_go j)) = true).
Proof.
  intros HT. induction o as [|[k j] o IH]; intros fs e Hlen Hd Hz.
  - cbn [go_members map fold_left]. split; [exact Hlen|]. split; [reflexivity|]. split; [auto|]. intros [H|(i & name & t & k & j & _ & H & _)]; [exact H|discriminate H].
  - cbn [distinct_names] in Hd. destruct Hd as [Hk Hd]. cbn [go_members map fold_left fst snd].
    assert (forall name, named name k -> member_named o name = None) as Hno.
    { intros name Hn. unfold member_named. destruct (find _ o) as [[k' j']|] eqn:Ef; [|reflexivity]. apply find_some in Ef. destruct Ef as [Hin Hp]. cbn [fst] in Hp. destruct (named_dec name k') as [Hn'|]; [|discriminate]. exfalso. apply (Hk k' j' Hin). unfold named in *. congruence. }
    assert (forall name, member_named ((k, j) :: o) name = if named_dec name k then Some (k, j) else member_named o name) as Hm by (intros name; unfold member_named; cbn [find fst]; destruct (named_dec name k); reflexivity).
    unfold store_member at 2. cbn [fst snd]. destruct (field_of T (utf8 k)) as [i|] eqn:Ef.
    + destruct (field_found T k i HT Ef) as (name & t & Hn & Hnk). rewrite Hn.
      assert (nth_error fs i = Some (zero t)) as Hfi by (apply (Hz i name t Hn); rewrite Hm; destruct (named_dec name k); [discriminate|contradiction]). rewrite Hfi.
      destruct (store t (zero t) (as_go j)) as [v e1] eqn:Es.
      assert (i < length fs)%nat as Hil by (rewrite Hlen; assert (nth_error T i <> None) as Hx by (rewrite Hn; discriminate); apply nth_error_Some in Hx; exact Hx).
      assert (forall i2 name2 t2, nth_error T i2 = Some (name2, t2) -> named name2 k -> i2 = i /\ name2 = name /\ t2 = t) as Huniq.
      { intros i2 name2 t2 Hn2 Hk2. pose proof (field_exists T k i2 name2 t2 HT Hn2 Hk2) as E. rewrite Ef in E. injection E as <-. rewrite Hn in Hn2. injection Hn2 as <- <-. auto. }
      specialize (IH (set_field i v fs) (e || e1)). rewrite set_field_len in IH by exact Hil. specialize (IH Hlen Hd).
      assert (forall i0 name0 t0, nth_error T i0 = Some (name0, t0) -> member_named o name0 <> None -> nth_error (set_field i v fs) i0 = Some (zero t0)) as Hz'.
      { intros i2 name2 t2 Hn2 Hmem. rewrite set_field_nth by exact Hil. destruct (Nat.eqb_spec i2 i) as [->|Hne]; [exfalso; rewrite Hn in Hn2; injection Hn2 as <- <-; apply Hmem; apply Hno; exact Hnk|].
        apply (Hz i2 name2 t2 Hn2). rewrite Hm. destruct (named_dec name2 k) as [Hk2|]; [discriminate|exact Hmem]. }
      specialize (IH Hz'). unfold go_members in IH. destruct (fold_left (store_member T) _ (set_field i v fs, e || e1)) as [fs' e'] eqn:Efold. destruct IH as (I1 & I2 & I3).
      split; [exact I1|]. split.
      * intros i2 name2 t2 Hn2. rewrite (I2 i2 name2 t2 Hn2), Hm. destruct (named_dec name2 k) as [Hk2|Hk2].
        -- destruct (Huniq i2 name2 t2 Hn2 Hk2) as (-> & -> & ->). rewrite (Hno name Hnk), set_field_nth by exact Hil. rewrite Nat.eqb_refl, Es. reflexivity.
        -- destruct (member_named o name2) as [[k3 j3]|]; [reflexivity|]. rewrite set_field_nth by exact Hil. destruct (Nat.eqb_spec i2 i) as [->|]; [exfalso; rewrite Hn in Hn2; injection Hn2 as <- <-; contradiction|reflexivity].
      * rewrite I3. rewrite orb_true_iff. split.
        -- intros [[He|He]|(i2 & name2 & t2 & k2 & j2 & Hn2 & Hm2 & Hs2)]; [left; exact He| |].
           ++ right. exists i, name, t, k, j. split; [exact Hn|]. rewrite Hm. destruct (named_dec name k); [|contradiction]. split; [reflexivity|]. rewrite Es. exact He.
           ++ right. exists i2, name2, t2, k2, j2. split; [exact Hn2|]. rewrite Hm. destruct (named_dec name2 k) as [Hk2|]; [rewrite (Hno name2 Hk2) in Hm2; discriminate|]. auto.
        -- intros [He|(i2 & name2 & t2 & k2 & j2 & Hn2 & Hm2 & Hs2)]; [left; left; exact He|]. rewrite Hm in Hm2. destruct (named_dec name2 k) as [Hk2|Hk2].
           ++ injection Hm2 as <- <-. destruct (Huniq i2 name2 t2 Hn2 Hk2) as (-> & -> & ->). rewrite Es in Hs2. left. right. exact Hs2.
           ++ right. exists i2, name2, t2, k2, j2. auto.
    + assert (forall i2 name2 t2, nth_error T i2 = Some (name2, t2) -> ~ named name2 k) as Hnone by (intros i2 name2 t2 Hn2 Hk2; rewrite (field_exists T k i2 name2 t2 HT Hn2 Hk2) in Ef; discriminate).
      specialize (IH fs e Hlen Hd). assert (forall i name t, nth_error T i = Some (name, t) -> member_named o name <> None -> nth_error fs i = Some (zero t)) as Hz'.
      { intros i2 name2 t2 Hn2 Hmem. apply (Hz i2 name2 t2 Hn2). rewrite Hm. destruct (named_dec name2 k); [discriminate|exact Hmem]. }
      specialize (IH Hz'). unfold go_members in IH. destruct (fold_left (store_member T) _ (fs, e)) as [fs' e'] eqn:Efold. destruct IH as (I1 & I2 & I3). split; [exact I1|]. split.
      * intros i2 name2 t2 Hn2. rewrite (I2 i2 name2 t2 Hn2), Hm. destruct (named_dec name2 k) as [Hk2|]; [exfalso; exact (Hnone _ _ _ Hn2 Hk2)|reflexivity].
      * rewrite I3. split; (intros [He|(i2 & name2 & t2 & k2 & j2 & Hn2 & Hm2 & Hs2)]; [left; exact He|right; exists i2, name2, t2, k2, j2; split; [exact Hn2|]; split; [|exact Hs2]]).
        -- rewrite Hm. destruct (named_dec name2 k) as [Hk2|]; [exfalso; exact (Hnone _ _ _ Hn2 Hk2)|exact Hm2].
        -- rewrite Hm in Hm2. destruct (named_dec name2 k) as [Hk2|]; [exfalso; exact (Hnone _ _ _ Hn2 Hk2)|exact Hm2].
Qed.

Lemma says_member o name : says o name = match member_named o name with Some (_, j) => non_null j | None => None end.
Proof. unfold says, member_named. destruct (find _ o) as [[k j]|]; [|reflexivity]. destruct j; reflexivity. Qed.
Lemma members_numbers o name k j : numbers_ok (JObject o) -> member_named o name = Some (k, j) -> numbers_ok j.
Proof.
  intros H E. unfold member_named in E. apply find_some in E. destruct E as [E _]. cbn [numbers_ok] in H. induction o as [|m o IH]; [destruct E|]. cbn [fold_right] in H. destruct H as [H1 H2]. destruct E as [->|E]; [exact H1|apply IH; assumption].
Qed.
Lemma wanted_none t : wanted t None <> None /\ wanted t None = Some (seen (zero t)).
Proof. destruct t; cbn; split; try discriminate; reflexivity. Qed.
(** A struct is read as its members say, or refused. *)
Lemma struct_read T j o : tags_ok T -> ConfigSpec.members j = Some o -> numbers_ok j -> (match j with JObject o => distinct_names o | _ => True end) ->
  (snd (store_struct T (as_go j)) = false <-> forall i name t, nth_error T i = Some (name, t) -> wanted t (says o name) <> None)
  /\ (snd (store_struct T (as_go j)) = false -> forall i name t, nth_error T i = Some (name, t) -> option_map seen (nth_error (fst (store_struct T (as_go j))) i) = wanted t (says o name)).
Proof.
  intros HT Hm Hn Hd.
  assert (exists o', o' = o /\ numbers_ok (JObject o') /\ distinct_names o' /\ store_struct T (as_go j) = fold_left (store_member T) (go_members o') (zeros T, false)) as (o' & -> & Hn' & Hd' & ->).
  { destruct j as [| | | | | |l]; try discriminate; injection Hm as <-; [exists []|exists l]; (split; [reflexivity|]); (split; [try exact I; exact Hn|]); (split; [try exact I; exact Hd|reflexivity]). }
  pose proof (objects T o HT (zeros T) false) as H. unfold zeros in H. rewrite map_length in H. specialize (H eq_refl Hd').
  assert (forall i name t, nth_error T i = Some (name, t) -> nth_error (map (fun ft => zero (snd ft)) T) i = Some (zero t)) as Hzero by (intros i name t E; rewrite (map_nth_error (fun ft => zero (snd ft)) _ _ E); reflexivity).
  specialize (H (fun i name t E _ => Hzero i name t E)). unfold zeros. destruct (fold_left (store_member T) (go_members o) _) as [fs e] eqn:Ef. destruct H as (H1 & H2 & H3). cbn [fst snd].
  assert (forall i name t k j, nth_error T i = Some (name, t) -> member_named o name = Some (k, j) -> agrees (store t (zero t) (as_go j)) (wanted t (non_null j))) as Hag.
  { intros i name t k j0 E Em. apply store_ok; [|apply (members_numbers o name k j0 Hn' Em)]. destruct HT as [_ HT]. rewrite Forall_forall in HT. exact (proj2 (HT _ (nth_error_In _ _ E))). }
  split.
  - split.
    + intros -> i name t E Hw. rewrite says_member in Hw. destruct (member_named o name) as [[k j0]|] eqn:Em; [|exact (proj1 (wanted_none t) Hw)].
      pose proof (Hag i name t k j0 E Em) as Ha. rewrite Hw in Ha. cbn [agrees] in Ha. assert (false = true) as F; [|discriminate F]. apply H3. right. exists i, name, t, k, j0. auto.
    + intros Hall. destruct e; [|reflexivity]. exfalso. destruct (proj1 H3 eq_refl) as [F|(i & name & t & k & j0 & E & Em & Hs)]; [discriminate F|].
      apply (Hall i name t E). rewrite says_member, Em. pose proof (Hag i name t k j0 E Em) as Ha. destruct (wanted t (non_null j0)); [|reflexivity]. cbn [agrees] in Ha. destruct Ha as [Ha _]. congruence.
  - intros -> i name t E. rewrite (H2 i name t E), says_member. destruct (member_named o name) as [[k j0]|] eqn:Em.
    + pose proof (Hag i name t k j0 E Em) as Ha. destruct (wanted t (non_null j0)); cbn [agrees] in Ha; [destruct Ha as [_ Ha]; cbn [option_map]; rewrite Ha; reflexivity|].
      exfalso. assert (false = true) as F; [|discriminate F]. apply H3. right. exists i, name, t, k, j0. auto.
    + rewrite (Hzero i name t E). cbn [option_map]. symmetry. apply (proj2 (wanted_none t)).
Qed.
