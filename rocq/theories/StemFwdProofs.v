(** The forward operations of the stemmer run-time: on any bytes they end and stay inside the word;
    on valid UTF-8 they move character by character. *)
From Coq Require Import ZifyBool.
From Verif Require Import Base BaseLemmas Text TextProofs TextProofs2 GoMap Snowball StemSpec StemProofs.
Local Open Scope Z_scope.

(** ** any bytes *)
Definition wf (e : env) : Prop := Limit e = zlen (cur e) /\ 0 <= Cursor e <= Limit e.
Lemma up_bounds fuel : forall s p, 0 <= p <= zlen s -> p <= up_to_boundary fuel s p <= zlen s.
Proof.
  induction fuel as [|f IH]; intros s p H; cbn [up_to_boundary]; [lia|]. destruct (onCharBoundary s p) eqn:E; [lia|].
  assert (p < zlen s) by (unfold onCharBoundary in E; lia). specialize (IH s (p + 1)). lia.
Qed.
Lemma down_bounds fuel : forall s p, 0 <= p -> 0 <= down_to_boundary fuel s p <= p.
Proof.
  induction fuel as [|f IH]; intros s p H; cbn [down_to_boundary]; [lia|]. destruct (onCharBoundary s p) eqn:E; [lia|].
  assert (0 < p) by (unfold onCharBoundary in E; lia). specialize (IH s (p - 1)). lia.
Qed.
Lemma next_bounds s p : 0 <= p < zlen s -> p < next_char s p <= zlen s.
Proof. intros H. unfold next_char. pose proof (up_bounds (length s) s (p + 1)). lia. Qed.
Lemma prev_bounds s p : 0 < p -> 0 <= prev_char s p < p.
Proof. intros H. unfold prev_char. pose proof (down_bounds (length s) s (p - 1)). lia. Qed.

Lemma set_Cursor_same e : set_Cursor (Cursor e) e = e. Proof. destruct e; reflexivity. Qed.
Lemma slice_total {A} (l : list A) a b : 0 <= a <= b -> b <= zlen l -> exists s, slice l a b = Ret s.
Proof. intros H1 H2. unfold slice. replace ((0 <=? a) && (a <=? b) && (b <=? zlen l)) with true by lia. eexists. reflexivity. Qed.

(* a test that leaves the word alone and only moves on *)
Definition moves_on (test : env -> res (bool * env)) : Prop := forall e, wf e ->
  exists ok c, test e = Ret (ok, set_Cursor c e) /\ Cursor e <= c <= Limit e /\ (ok = true -> Cursor e < c).

Definition table_fits (g : list Z) (lo hi : Z) : Prop := forall r, lo <= r <= hi -> exists b, in_group g (r - lo) = Ret b.
Lemma in_moves_on g lo hi : table_fits g lo hi -> moves_on (InGrouping g lo hi).
Proof.
  intros Hg e (H1 & H2). unfold InGrouping. destruct (Limit e <=? Cursor e) eqn:E.
  { exists false, (Cursor e). rewrite set_Cursor_same. split; [reflexivity|]. split; [lia|discriminate]. }
  destruct (slice_total (cur e) (Cursor e) (zlen (cur e))) as (s & ->); [lia|lia|]. cbn [bind]. set (r := fst (decode_rune s)).
  assert (forall b : bool, exists ok c, (if b then Ret (true, NextChar e) else Ret (false, e)) = Ret (ok, set_Cursor c e) /\ Cursor e <= c <= Limit e /\ (ok = true -> Cursor e < c)) as Hend.
  { intros [|]; pose proof (next_bounds (cur e) (Cursor e)).
    - exists true, (next_char (cur e) (Cursor e)). split; [reflexivity|]. split; [lia|]. intros _. lia.
    - exists false, (Cursor e). rewrite set_Cursor_same. split; [reflexivity|]. split; [lia|discriminate]. }
  destruct (r =? RuneError); [exact (Hend false)|]. destruct ((hi <? r) || (r <? lo)) eqn:Er; [exact (Hend false)|].
  destruct (Hg r) as (b & ->); [lia|]. cbn [bind]. exact (Hend b).
Qed.
Lemma out_moves_on g lo hi : table_fits g lo hi -> moves_on (OutGrouping g lo hi).
Proof.
  intros Hg e (H1 & H2). unfold OutGrouping. destruct (Limit e <=? Cursor e) eqn:E.
  { exists false, (Cursor e). rewrite set_Cursor_same. split; [reflexivity|]. split; [lia|discriminate]. }
  destruct (slice_total (cur e) (Cursor e) (zlen (cur e))) as (s & ->); [lia|lia|]. cbn [bind]. set (r := fst (decode_rune s)).
  assert (forall b : bool, exists ok c, (if b then Ret (false, e) else Ret (true, NextChar e)) = Ret (ok, set_Cursor c e) /\ Cursor e <= c <= Limit e /\ (ok = true -> Cursor e < c)) as Hend.
  { intros [|]; pose proof (next_bounds (cur e) (Cursor e)).
    - exists false, (Cursor e). rewrite set_Cursor_same. split; [reflexivity|]. split; [lia|discriminate].
    - exists true, (next_char (cur e) (Cursor e)). split; [reflexivity|]. split; [lia|]. intros _. lia. }
  destruct (r =? RuneError); [exact (Hend true)|]. destruct ((hi <? r) || (r <? lo)) eqn:Er; [exact (Hend false)|].
  destruct (Hg r) as (b & ->); [lia|]. cbn [bind]. exact (Hend b).
Qed.
Lemma go_past_total test : moves_on test -> forall fuel e, wf e -> Limit e - Cursor e < Z.of_nat fuel ->
  exists ok c, go_past test fuel e = Ret (ok, set_Cursor c e) /\ Cursor e <= c <= Limit e /\ (ok = true -> Cursor e < c).
Proof.
  intros Ht. induction fuel as [|f IH]; intros e He Hf; [destruct He; lia|]. cbn [go_past]. destruct (Ht e He) as (ok & c & -> & Hc & Hok). cbn [bind].
  destruct ok; [exists true, c; split; [reflexivity|split; assumption]|]. cbn [Limit Cursor set_Cursor]. destruct He as (H1 & H2).
  destruct (Limit e <=? c) eqn:E; [exists false, c; split; [reflexivity|split; [exact Hc|discriminate]]|].
  assert (c < next_char (cur e) c <= Limit e) as Hn by (rewrite H1; apply next_bounds; rewrite <- H1; lia).
  destruct (IH (NextChar (set_Cursor c e))) as (ok & c' & -> & Hc' & Hok').
  - split; [exact H1|]. cbn [Limit Cursor set_Cursor NextChar cur]. lia.
  - cbn [Limit Cursor set_Cursor NextChar cur]. lia.
  - cbn [Limit Cursor set_Cursor NextChar cur] in *. exists ok, c'. split; [reflexivity|]. split; [lia|]. intros Hx. specialize (Hok' Hx). lia.
Qed.
Lemma fuel_enough e : wf e -> Limit e - Cursor e < Z.of_nat (fuel_of e).
Proof. intros (H1 & H2). unfold fuel_of. unfold zlen in H1. lia. Qed.

(** replacing all occurrences ends: each one removes a byte [b] the replacement does not have *)
Definition count (b : Z) (s : bytes) : nat := length (filter (Z.eqb b) s).
Lemma count_app b s t : count b (s ++ t) = (count b s + count b t)%nat.
Proof. unfold count. rewrite filter_app, app_length. reflexivity. Qed.
Lemma count_in b s : In b s -> (0 < count b s)%nat.
Proof. intros H. unfold count. assert (In b (filter (Z.eqb b) s)) as Hf by (apply filter_In; split; [exact H|apply Z.eqb_refl]). destruct (filter _ s); [destruct Hf|cbn; lia]. Qed.
Lemma count_not_in b s : ~ In b s -> count b s = 0%nat.
Proof. intros H. unfold count. destruct (filter (Z.eqb b) s) as [|x l] eqn:E; [reflexivity|]. exfalso. apply H. assert (In x (filter (Z.eqb b) s)) as Hx by (rewrite E; left; reflexivity). apply filter_In in Hx. destruct Hx as [Hx He]. apply Z.eqb_eq in He. subst. exact Hx. Qed.
Lemma count_le b s : (count b s <= length s)%nat.
Proof. unfold count. induction s as [|x s IH]; cbn [filter length]; [lia|]. destruct (b =? x); cbn [length]; lia. Qed.

Definition finds (find : env -> res (bool * env)) (b n : Z) : Prop := forall e, wf e -> exists ok e', find e = Ret (ok, e') /\
  cur e' = cur e /\ Limit e' = Limit e /\ LimitBackward e' = LimitBackward e /\
  (ok = true -> exists x m y, cur e = x ++ m ++ y /\ Bra e' = zlen x /\ Ket e' = zlen (x ++ m) /\ Cursor e <= zlen x /\ In b m /\ n <= zlen m).
(* the state after a find: only the cursor and the marks may differ *)
Lemma goto_total find b n : finds find b n -> forall fuel e, wf e -> Limit e - Cursor e < Z.of_nat fuel -> exists ok e', goto_find find fuel e = Ret (ok, e') /\
  cur e' = cur e /\ Limit e' = Limit e /\ LimitBackward e' = LimitBackward e /\ Cursor e <= Cursor e' <= Limit e /\
  (ok = true -> exists x m y, cur e = x ++ m ++ y /\ Bra e' = zlen x /\ Ket e' = zlen (x ++ m) /\ Cursor e' <= zlen x /\ In b m /\ n <= zlen m).
Proof.
  intros Hfi. induction fuel as [|f IH]; intros e He Hf; [destruct He; lia|]. cbn [goto_find]. destruct (Hfi e He) as (ok & e' & -> & H1 & H2 & H3 & H4). cbn [bind].
  destruct He as (W1 & W2). destruct ok.
  - exists true, (set_Cursor (Cursor e) e'). cbn [cur Limit LimitBackward Cursor set_Cursor Bra Ket]. split; [reflexivity|]. split; [exact H1|]. split; [exact H2|]. split; [exact H3|]. split; [lia|].
    exact H4.
  - cbn [Limit set_Cursor Cursor]. rewrite H2. destruct (Limit e <=? Cursor e) eqn:E.
    + eexists false, _. split; [reflexivity|]. cbn. split; [exact H1|]. split; [exact H2|]. split; [exact H3|]. split; [lia|discriminate].
    + pose proof (next_bounds (cur e) (Cursor e)). destruct (IH (NextChar (set_Cursor (Cursor e) e'))) as (ok & e2 & -> & G1 & G2 & G3 & G4 & G5).
      * split; cbn [Limit Cursor set_Cursor NextChar cur]; rewrite ?H1, ?H2; [exact W1|lia].
      * cbn [Limit Cursor set_Cursor NextChar cur]. rewrite H1, H2. lia.
      * cbn [Limit cur LimitBackward Cursor set_Cursor NextChar] in *. rewrite H1 in *. rewrite H2 in *. exists ok, e2. split; [reflexivity|]. split; [exact G1|]. split; [exact G2|]. split; [congruence|]. split; [lia|].
        intros Hok. destruct (G5 Hok) as (x & m & y & X). exists x, m, y. exact X.
Qed.
(* how the word changes *)
Inductive replaced (b : Z) (to : bytes) : bytes -> bytes -> Prop :=
| rep_refl s : replaced b to s s
| rep_step x m y t : In b m -> zlen to <= zlen m -> replaced b to (x ++ to ++ y) t -> replaced b to (x ++ m ++ y) t.
Lemma replaced_len b to s t : replaced b to s t -> zlen t <= zlen s.
Proof. induction 1; [lia|]. rewrite !zlen_app in *. lia. Qed.
Lemma replaced_nonempty b to s t : to <> [] -> replaced b to s t -> s <> [] -> t <> [].
Proof.
  intros Hto. induction 1 as [s|x m y t Hin Hlen Hr IH]; [exact (fun h => h)|]. intros _. apply IH. destruct x; [destruct to; [contradiction|]|]; discriminate.
Qed.
Lemma repeat_total find b to n : finds find b n -> zlen to <= n -> ~ In b to -> forall fuel found e, wf e -> (count b (cur e) < fuel)%nat -> exists r e', repeat_replace find to fuel found e = Ret (r, e') /\
  replaced b to (cur e) (cur e') /\ Limit e' = zlen (cur e') /\ LimitBackward e' = LimitBackward e /\ (found = true -> r = true) /\ (r = false -> cur e' = cur e).
Proof.
  intros Hfi Hto Hb. induction fuel as [|f IH]; intros found e He Hf; [lia|]. cbn [repeat_replace].
  destruct (goto_total find b n Hfi (fuel_of e) e He (fuel_enough e He)) as (ok & e1 & -> & H1 & H2 & H3 & H4 & H5). cbn [bind]. destruct He as (W1 & W2). destruct ok.
  - destruct (H5 eq_refl) as (x & m & y & Hc & Hbra & Hket & Hle & Hin & Hlen). unfold SliceFrom. rewrite (ReplaceS_split x m y to e1 (Bra e1) (Ket e1)) by congruence. cbn [bind].
    set (e2 := mkEnv _ _ _ _ _ _). assert (Cursor e2 = Cursor e1) as Hc2.
    { unfold e2. cbn [Cursor]. rewrite Hket, Hbra, zlen_app. destruct m as [|m0 m1]; [destruct Hin|]. pose proof (zlen_nonneg m1). rewrite zlen_cons.
      replace (zlen x + (1 + zlen m1) <=? Cursor e1) with false by lia. replace (zlen x <? Cursor e1) with false by lia. reflexivity. }
    assert (Limit e2 = zlen (cur e2)) as Hl2.
    { unfold e2. cbn [Limit cur]. rewrite H2, W1, Hc, !zlen_app. ring. }
    destruct (IH true e2) as (r & e' & -> & R1 & R2 & R3 & R4 & R5).
    + split; [exact Hl2|]. rewrite Hl2, Hc2. unfold e2. cbn [cur]. rewrite !zlen_app. pose proof (zlen_nonneg to). pose proof (zlen_nonneg y). lia.
    + unfold e2. cbn [cur]. rewrite Hc in Hf. rewrite !count_app in *. rewrite (count_not_in b to Hb). pose proof (count_in b m Hin). lia.
    + exists r, e'. split; [reflexivity|]. split; [rewrite Hc; apply rep_step; [exact Hin|lia|exact R1]|]. split; [exact R2|]. split; [rewrite R3; exact H3|]. split; [intros _; apply R4; reflexivity|].
      intros Hr. rewrite R4 in Hr by reflexivity. discriminate.
  - eexists _, _. split; [reflexivity|]. cbn [cur Limit LimitBackward set_Cursor]. rewrite H1. split; [apply rep_refl|]. split; [congruence|]. split; [exact H3|]. split; auto.
Qed.

(** ** valid UTF-8 *)
Lemma encode_shape c : exists h t, encode_rune c = h :: t /\ RuneStart h = true /\ Forall (fun b => RuneStart b = false) t.
Proof.
  assert (forall x, 0 <= x < 64 -> RuneStart (Z.lor 128 x) = false) as Hcont.
  { intros x Hx. rewrite lor128t by exact Hx. unfold RuneStart. replace (Z.land (128 + x) 192) with 128; [reflexivity|].
    assert (forallb (fun x => Z.land (128 + x) 192 =? 128) (map Z.of_nat (seq 0 64)) = true) as Hall by (vm_compute; reflexivity). rewrite forallb_forall in Hall. symmetry. apply Z.eqb_eq. apply Hall.
    apply in_map_iff. exists (Z.to_nat x). split; [lia|apply in_seq; lia]. }
  assert (forall x, 0 <= x < 128 \/ 192 <= x < 256 -> RuneStart x = true) as Hst.
  { intros x Hx. assert (forallb (fun x => RuneStart x) (map Z.of_nat (seq 0 128 ++ seq 192 64)) = true) as Hall by (vm_compute; reflexivity). rewrite forallb_forall in Hall. apply Hall.
    apply in_map_iff. exists (Z.to_nat x). split; [lia|]. apply in_app_iff. destruct Hx; [left|right]; apply in_seq; lia. }
  assert (forall x, 0 <= c6 x < 64) as Hc6 by (intros x; rewrite c6_mod; apply Z.mod_pos_bound; lia).
  pose proof (vr_valid c) as Hv. rewrite <- encode_vr. set (r := vr c) in *. clearbody r. unfold encode_rune. rewrite Hv. unfold valid_rune in Hv.
  destruct (r <? 128) eqn:E1; [exists r, []; split; [reflexivity|split; [apply Hst; lia|constructor]]|].
  destruct (r <? 2048) eqn:E2.
  { eexists _, _. split; [reflexivity|]. split; [|repeat constructor; apply Hcont; apply Hc6]. apply Hst. rewrite shr6. pose proof (Z.div_lt_upper_bound r 64 32). pose proof (Z.div_pos r 64). rewrite lor192 by lia. lia. }
  destruct (r <? 65536) eqn:E3.
  { eexists _, _. split; [reflexivity|]. split; [|repeat constructor; apply Hcont; apply Hc6]. apply Hst. rewrite shr12. pose proof (Z.div_lt_upper_bound r 4096 16). pose proof (Z.div_pos r 4096). rewrite lor224 by lia. lia. }
  eexists _, _. split; [reflexivity|]. split; [|repeat constructor; apply Hcont; apply Hc6]. apply Hst. rewrite shr18. pose proof (Z.div_lt_upper_bound r 262144 5). pose proof (Z.div_pos r 262144). rewrite lor240 by lia. lia.
Qed.
Lemma enc_starts l : l <> [] -> starts_char (enc l).
Proof. destruct l as [|c l]; [contradiction|]. intros _. unfold enc. cbn [map concat]. destruct (encode_shape c) as (h & t & -> & H & _). exact H. Qed.
Lemma boundary_enc a b : onCharBoundary (enc (a ++ b)) (zlen (enc a)) = true.
Proof.
  rewrite enc_app. destruct b as [|c b]; [|apply boundary_at; apply enc_starts; discriminate]. unfold onCharBoundary. cbn [enc map concat]. rewrite app_nil_r.
  replace (zlen (enc a) <=? zlen (enc a)) with true by lia. rewrite orb_true_r. reflexivity.
Qed.
Lemma up_skip : forall t fuel a b, Forall (fun b => RuneStart b = false) t -> a <> [] -> (length t < fuel)%nat -> (b = [] \/ starts_char b) ->
  up_to_boundary fuel (a ++ t ++ b) (zlen a) = zlen (a ++ t).
Proof.
  induction t as [|x t IH]; intros fuel a b Ht Ha Hf Hb; (destruct fuel as [|f]; [cbn in Hf; lia|]); cbn [up_to_boundary].
  - rewrite app_nil_r. cbn [app]. destruct Hb as [->|Hb].
    + unfold onCharBoundary. rewrite app_nil_r. replace (zlen a <=? zlen a) with true by lia. rewrite orb_true_r. reflexivity.
    + rewrite boundary_at by exact Hb. reflexivity.
  - assert (onCharBoundary (a ++ (x :: t) ++ b) (zlen a) = false) as ->.
    { unfold onCharBoundary. cbn [app]. rewrite zlen_app, zlen_cons. pose proof (zlen_nonneg (t ++ b)). assert (0 < zlen a) by (destruct a; [contradiction|]; rewrite zlen_cons; pose proof (zlen_nonneg a); lia).
      replace (nth (Z.to_nat (zlen a)) (a ++ x :: t ++ b) 0) with x by (unfold zlen; rewrite Nat2Z.id, app_nth2, Nat.sub_diag by lia; reflexivity). pose proof (Forall_inv Ht) as Hx. cbn beta in Hx. rewrite Hx. lia. }
    replace (zlen a + 1) with (zlen (a ++ [x])) by (rewrite zlen_app; reflexivity).
    replace (a ++ (x :: t) ++ b) with ((a ++ [x]) ++ t ++ b) by (rewrite <- app_assoc; reflexivity).
    rewrite IH; [rewrite <- app_assoc; reflexivity|exact (Forall_inv_tail Ht)|destruct a; discriminate|cbn in Hf; lia|exact Hb].
Qed.
Lemma enc_cons c b : enc (c :: b) = encode_rune c ++ enc b. Proof. reflexivity. Qed.
Lemma enc_nil : enc [] = []. Proof. reflexivity. Qed.
Lemma enc_b b : enc b = [] \/ starts_char (enc b).
Proof. destruct b; [left; reflexivity|right; apply enc_starts; discriminate]. Qed.
Lemma next_enc a c b : next_char (enc (a ++ c :: b)) (zlen (enc a)) = zlen (enc (a ++ [c])).
Proof.
  unfold next_char. rewrite !enc_app, !enc_cons, enc_nil, app_nil_r. destruct (encode_shape c) as (h & t & -> & Hh & Ht).
  replace (zlen (enc a) + 1) with (zlen (enc a ++ [h])) by (rewrite zlen_app; reflexivity).
  replace (enc a ++ (h :: t) ++ enc b) with ((enc a ++ [h]) ++ t ++ enc b) by (rewrite <- app_assoc; reflexivity).
  rewrite up_skip; [rewrite <- app_assoc; reflexivity|exact Ht|destruct (enc a); discriminate| |apply enc_b]. rewrite !app_length. cbn [length]. lia.
Qed.

Definition runes_ok (l : list Z) : Prop := Forall (fun c => valid_rune c = true) l.
Lemma vr_id c : valid_rune c = true -> vr c = c. Proof. intros H. unfold vr. rewrite H. reflexivity. Qed.
Lemma slice_enc a b : slice (enc (a ++ b)) (zlen (enc a)) (zlen (enc (a ++ b))) = Ret (enc b).
Proof. rewrite enc_app. apply slice_tail; reflexivity. Qed.
Lemma enc_pos c b : 0 < zlen (enc (c :: b)).
Proof. rewrite enc_cons, zlen_app. pose proof (encode_nonempty c). pose proof (zlen_nonneg (enc b)). destruct (encode_rune c) as [|x l]; [contradiction|]. rewrite zlen_cons. pose proof (zlen_nonneg l). lia. Qed.
(* the word is [a] then [b], the cursor between them *)
Definition between (a b : list Z) (e : env) : Prop := cur e = enc (a ++ b) /\ Cursor e = zlen (enc a) /\ Limit e = zlen (enc (a ++ b)).
Lemma between_next a c b e : between a (c :: b) e -> NextChar e = set_Cursor (zlen (enc (a ++ [c]))) e /\ between (a ++ [c]) b (NextChar e).
Proof.
  intros (H1 & H2 & H3). unfold NextChar. rewrite H1, H2, next_enc. split; [reflexivity|]. unfold between. cbn [cur Cursor Limit set_Cursor].
  replace ((a ++ [c]) ++ b) with (a ++ c :: b) by (rewrite <- app_assoc; reflexivity). split; [exact H1|]. split; [reflexivity|exact H3].
Qed.
Lemma between_limit a b e : between a b e -> (Limit e <=? Cursor e) = match b with [] => true | _ => false end.
Proof. intros (H1 & H2 & H3). rewrite H2, H3, enc_app, zlen_app. destruct b as [|c b]; [rewrite enc_nil; change (zlen (@nil Z)) with 0; lia|]. pose proof (enc_pos c b). lia. Qed.

(* a test of the next character *)
Definition tests (test : env -> res (bool * env)) (P : Z -> bool) : Prop := forall a b e, between a b e -> runes_ok b ->
  test e = match b with c :: _ => if P c then Ret (true, NextChar e) else Ret (false, e) | [] => Ret (false, e) end.
Definition group_pred (g : list Z) (lo hi : Z) (P : Z -> bool) : Prop := forall r, lo <= r <= hi -> in_group g (r - lo) = Ret (P r).
Lemma in_tests g lo hi P : group_pred g lo hi P -> tests (InGrouping g lo hi) (fun c => negb (c =? RuneError) && (lo <=? c) && (c <=? hi) && P c).
Proof.
  intros Hg a b e Hb Hr. unfold InGrouping. rewrite (between_limit a b e Hb). destruct b as [|c b]; [reflexivity|]. destruct Hb as (H1 & H2 & H3).
  rewrite H1, H2, slice_enc, enc_cons. cbn [bind]. rewrite decode_encode. cbn [fst]. rewrite (vr_id c (Forall_inv Hr)).
  destruct (c =? RuneError); [reflexivity|]. cbn [negb andb]. destruct ((hi <? c) || (c <? lo)) eqn:E.
  - replace ((lo <=? c) && (c <=? hi)) with false by lia. reflexivity.
  - replace ((lo <=? c) && (c <=? hi)) with true by lia. rewrite Hg by lia. cbn [bind andb]. reflexivity.
Qed.
Lemma out_tests g lo hi P : group_pred g lo hi P -> tests (OutGrouping g lo hi) (fun c => negb (c =? RuneError) && negb ((lo <=? c) && (c <=? hi) && P c)).
Proof.
  intros Hg a b e Hb Hr. unfold OutGrouping. rewrite (between_limit a b e Hb). destruct b as [|c b]; [reflexivity|]. destruct Hb as (H1 & H2 & H3).
  rewrite H1, H2, slice_enc, enc_cons. cbn [bind]. rewrite decode_encode. cbn [fst]. rewrite (vr_id c (Forall_inv Hr)).
  destruct (c =? RuneError); [reflexivity|]. cbn [negb andb]. destruct ((hi <? c) || (c <? lo)) eqn:E.
  - replace ((lo <=? c) && (c <=? hi)) with false by lia. reflexivity.
  - replace ((lo <=? c) && (c <=? hi)) with true by lia. rewrite Hg by lia. cbn [bind andb]. destruct (P c); reflexivity.
Qed.
Lemma tests_ext test P Q : (forall c, valid_rune c = true -> P c = Q c) -> tests test P -> tests test Q.
Proof. intros He Ht a b e Hb Hr. rewrite (Ht a b e Hb Hr). destruct b as [|c b]; [reflexivity|]. rewrite (He c (Forall_inv Hr)). reflexivity. Qed.

Lemma go_past_enc test P : tests test P -> forall fuel b a e, between a b e -> runes_ok b -> (length b < fuel)%nat ->
  exists a' e', a ++ b = a' ++ after P b /\ go_past test fuel e = Ret (existsb P b, e') /\ between a' (after P b) e' /\ e' = set_Cursor (zlen (enc a')) e.
Proof.
  intros Ht. induction fuel as [|f IH]; intros b a e Hb Hr Hf; [lia|]. cbn [go_past]. rewrite (Ht a b e Hb Hr). destruct b as [|c b].
  - cbn [bind existsb after]. rewrite (between_limit a [] e Hb). exists a, e. split; [reflexivity|]. split; [reflexivity|]. split; [exact Hb|]. destruct Hb as (_ & <- & _). symmetry. apply set_Cursor_same.
  - cbn [existsb after]. destruct (between_next a c b e Hb) as (Hn1 & Hn2). destruct (P c) eqn:Ep; cbn [bind].
    + exists (a ++ [c]), (NextChar e). split; [rewrite <- app_assoc; reflexivity|]. split; [reflexivity|]. split; [exact Hn2|exact Hn1].
    + rewrite (between_limit a (c :: b) e Hb). destruct (IH b (a ++ [c]) (NextChar e) Hn2 (Forall_inv_tail Hr)) as (a' & e' & E1 & E2 & E3 & E4); [cbn in Hf; lia|].
      exists a', e'. split; [rewrite <- E1, <- app_assoc; reflexivity|]. split; [exact E2|]. split; [exact E3|]. rewrite E4, Hn1. reflexivity.
Qed.


Lemma prefix_char c d b : valid_rune c = true -> valid_rune d = true -> has_prefix (enc (c :: b)) (encode_rune d) = (c =? d).
Proof.
  intros Hc Hd. destruct (c =? d) eqn:E.
  - apply Z.eqb_eq in E. subst. apply has_prefix_ok. exists (enc b). reflexivity.
  - apply has_prefix_false. intros (t & Ht). rewrite enc_cons in Ht. apply (f_equal (fun s => fst (decode_rune s))) in Ht. rewrite !decode_encode in Ht. cbn [fst] in Ht. rewrite !vr_id in Ht by assumption. apply Z.eqb_neq in E. contradiction.
Qed.
Lemma eqs_enc a b d e : between a b e -> runes_ok b -> valid_rune d = true ->
  EqS (encode_rune d) e = match b with c :: _ => if c =? d then Ret (true, NextChar e) else Ret (false, e) | [] => Ret (false, e) end.
Proof.
  intros Hb Hr Hd. unfold EqS. rewrite (between_limit a b e Hb). destruct b as [|c b]; [reflexivity|]. destruct (between_next a c b e Hb) as (Hn & _). rewrite Hn. destruct Hb as (H1 & H2 & H3).
  rewrite H1, H2, slice_enc. cbn [bind]. rewrite (prefix_char c d b (Forall_inv Hr) Hd). destruct (c =? d) eqn:E; [|reflexivity]. apply Z.eqb_eq in E. subst d.
  replace (zlen (enc a) + zlen (encode_rune c)) with (zlen (enc (a ++ [c]))) by (rewrite enc_app, zlen_app, enc_cons, enc_nil, app_nil_r; reflexivity).
  assert (forall fuel, up_to_boundary fuel (enc (a ++ c :: b)) (zlen (enc (a ++ [c]))) = zlen (enc (a ++ [c]))) as Hu; [|rewrite Hu; reflexivity].
  intros [|f]; cbn [up_to_boundary]; [reflexivity|]. replace (a ++ c :: b) with ((a ++ [c]) ++ b) by (rewrite <- app_assoc; reflexivity). rewrite boundary_enc. reflexivity.
Qed.
Definition finds_char (find : env -> res (bool * env)) (d : Z) : Prop := forall a b e, between a b e -> runes_ok b ->
  exists e', find e = Ret (match b with c :: _ => c =? d | [] => false end, e') /\ cur e' = cur e /\ Limit e' = Limit e /\ LimitBackward e' = LimitBackward e /\
    (match b with c :: _ => c =? d | [] => false end = true -> Bra e' = zlen (enc a) /\ Ket e' = zlen (enc (a ++ [d]))).
Lemma goto_enc find d : finds_char find d -> forall fuel b a e, between a b e -> runes_ok b -> (length b < fuel)%nat ->
  exists e', cur e' = cur e /\ Limit e' = Limit e /\ LimitBackward e' = LimitBackward e /\
    ((exists b1 b2, b = b1 ++ d :: b2 /\ ~ In d b1 /\ goto_find find fuel e = Ret (true, e') /\ between (a ++ b1) (d :: b2) e' /\ Bra e' = zlen (enc (a ++ b1)) /\ Ket e' = zlen (enc (a ++ b1 ++ [d])))
     \/ (~ In d b /\ goto_find find fuel e = Ret (false, e'))).
Proof.
  intros Hfi. induction fuel as [|f IH]; intros b a e Hb Hr Hf; [lia|]. cbn [goto_find]. destruct (Hfi a b e Hb Hr) as (e1 & -> & H1 & H2 & H3 & H4). cbn [bind].
  assert (between a b (set_Cursor (Cursor e) e1)) as Hb1 by (destruct Hb as (B1 & B2 & B3); split; [cbn; congruence|]; split; [exact B2|cbn; congruence]).
  rewrite (between_limit a b _ Hb1). destruct b as [|c b].
  - eexists. split; [|split; [|split; [|right; split; [intros []|reflexivity]]]]; assumption.
  - destruct (c =? d) eqn:E.
    + apply Z.eqb_eq in E. subst c. destruct (H4 eq_refl) as (Hbra & Hket). exists (set_Cursor (Cursor e) e1). split; [exact H1|]. split; [exact H2|]. split; [exact H3|]. left. exists [], b. rewrite app_nil_r. cbn [app].
      split; [reflexivity|]. split; [intros []|]. split; [reflexivity|]. split; [exact Hb1|]. split; assumption.
    + destruct (between_next a c b _ Hb1) as (Hn1 & Hn2). destruct (IH b (a ++ [c]) _ Hn2 (Forall_inv_tail Hr)) as (e2 & G1 & G2 & G3 & G4); [cbn in Hf; lia|].
      exists e2. cbn [cur Limit LimitBackward NextChar set_Cursor] in G1, G2, G3. split; [congruence|]. split; [congruence|]. split; [congruence|].
      apply Z.eqb_neq in E. destruct G4 as [(b1 & b2 & -> & Hn & Hg & Hbt & Hbra & Hket)|(Hn & Hg)].
      * left. exists (c :: b1), b2. split; [reflexivity|]. split; [intros [->|Hi]; [apply E; reflexivity|exact (Hn Hi)]|]. split; [exact Hg|].
        rewrite <- app_assoc in Hbt, Hbra, Hket. split; [exact Hbt|]. split; [exact Hbra|]. exact Hket.
      * right. split; [intros [->|Hi]; [apply E; reflexivity|exact (Hn Hi)]|exact Hg].
Qed.
Definition swap (d d' c : Z) : Z := if c =? d then d' else c.
Lemma swap_none d d' b : ~ In d b -> map (swap d d') b = b.
Proof. intros H. induction b as [|x b IH]; [reflexivity|]. cbn [map]. unfold swap at 1. destruct (x =? d) eqn:E; [apply Z.eqb_eq in E; exfalso; apply H; left; exact E|]. rewrite IH; [reflexivity|]. intros Hi. apply H. right. exact Hi. Qed.
Definition occ (d : Z) (b : list Z) : nat := length (filter (Z.eqb d) b).
Lemma repeat_enc find d d' : finds_char find d -> valid_rune d' = true -> d <> d' -> forall fuel found b a e, between a b e -> runes_ok b -> (occ d b < fuel)%nat ->
  exists r e', repeat_replace find (encode_rune d') fuel found e = Ret (r, e') /\ cur e' = enc (a ++ map (swap d d') b) /\ Limit e' = zlen (cur e') /\ LimitBackward e' = LimitBackward e.
Proof.
  intros Hfi Hd' Hdd. induction fuel as [|f IH]; intros found b a e Hb Hr Hf; [lia|]. cbn [repeat_replace].
  assert (length b < fuel_of e)%nat as Hfu.
  { unfold fuel_of. destruct Hb as (-> & _). rewrite enc_app, app_length. clear. enough (length b <= length (enc b))%nat by lia. induction b as [|c b IH]; [cbn; lia|]. rewrite enc_cons, app_length. pose proof (encode_nonempty c). destruct (encode_rune c); [contradiction|]. cbn [length]. lia. }
  destruct (goto_enc find d Hfi (fuel_of e) b a e Hb Hr Hfu) as (e1 & H1 & H2 & H3 & [(b1 & b2 & -> & Hn & -> & Hbt & Hbra & Hket)|(Hn & ->)]); cbn [bind].
  - assert (cur e1 = enc (a ++ b1) ++ encode_rune d ++ enc b2) as Hc by (destruct Hbt as (-> & _); rewrite enc_app, enc_cons; reflexivity).
    assert (zlen (enc (a ++ b1 ++ [d])) = zlen (enc (a ++ b1) ++ encode_rune d)) as Hk by (rewrite app_assoc, enc_app, enc_cons, enc_nil, app_nil_r; reflexivity).
    unfold SliceFrom. rewrite (ReplaceS_split (enc (a ++ b1)) (encode_rune d) (enc b2) (encode_rune d') e1 (Bra e1) (Ket e1) Hc Hbra (eq_trans Hket Hk)). cbn [bind].
    set (e2 := mkEnv _ _ _ _ _ _). assert (between (a ++ b1) (d' :: b2) e2) as Hb2.
    { destruct Hbt as (T1 & T2 & T3). split; [|split].
      - unfold e2. cbn [cur]. rewrite (enc_app (a ++ b1)), enc_cons. reflexivity.
      - unfold e2. cbn [Cursor]. rewrite T2, Hket, Hk, Hbra, zlen_app. pose proof (encode_nonempty d). destruct (encode_rune d) as [|y l] eqn:Ed; [contradiction|]. rewrite zlen_cons. pose proof (zlen_nonneg l).
        replace (zlen (enc (a ++ b1)) + (1 + zlen l) <=? zlen (enc (a ++ b1))) with false by lia. rewrite Z.ltb_irrefl. reflexivity.
      - unfold e2. cbn [Limit]. rewrite T3, !(enc_app (a ++ b1)), !enc_cons, !zlen_app. ring. }
    destruct (IH true (d' :: b2) (a ++ b1) e2 Hb2) as (r & e' & -> & R1 & R2 & R3).
    + constructor; [exact Hd'|]. apply Forall_app in Hr. exact (Forall_inv_tail (proj2 Hr)).
    + unfold occ in *. rewrite filter_app, app_length in Hf. cbn [filter] in Hf. rewrite Z.eqb_refl in Hf. cbn [length] in Hf. cbn [filter]. replace (d =? d') with false by lia. lia.
    + exists r, e'. split; [reflexivity|]. split; [|split; [exact R2|rewrite R3; exact H3]]. rewrite R1, map_app. cbn [map]. rewrite (swap_none d d' b1 Hn).
      replace (swap d d' d) with d' by (unfold swap; rewrite Z.eqb_refl; reflexivity). replace (swap d d' d') with d' by (unfold swap; destruct (d' =? d); reflexivity). rewrite <- app_assoc. reflexivity.
  - eexists _, _. split; [reflexivity|]. cbn [cur Limit LimitBackward set_Cursor]. rewrite H1, H2. destruct Hb as (-> & _ & ->). rewrite (swap_none d d' b Hn). split; [reflexivity|]. split; [reflexivity|exact H3].
Qed.
