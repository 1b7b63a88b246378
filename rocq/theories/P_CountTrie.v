(** C46 Count trie sums counts.  C47 N-gram counts are occurrence counts. *)
From Coq Require Import String.
From Verif Require Import Base BaseLemmas GoMap CountTrie CountTrieSpec CountTrieProofs.
Local Open Scope Z_scope.

(** ** C46 *)
(** Whatever was put, in whatever order Go visits the maps: Walk feeds the callback the
    entries of one list that has every sentence at most once, and has (s, c) iff c is the
    (non-zero) sum of the counts put under s (in uint32 arithmetic); it stops at the
    callback's first error and returns it.  Conditions: fewer than 2^32 distinct words, and
    some put of a sentence that is not empty. *)
Theorem C46_walk_partial : forall puts ord,
  (forall p l, Permutation l (ord p l)) ->
  zlen (nodup (list_eq_dec Z.eq_dec) (flat_map fst puts)) < 2 ^ 32 ->
  (exists p, In p puts /\ fst p <> []) ->
  exists calls, NoDup (map fst calls)
    /\ (forall s c, In (s, c) calls <-> c = put_total puts s mod 2 ^ 32 /\ 0 < c)
    /\ forall S (cb : S -> list bytes -> Z -> option err * S) st, Walk ord cb (put_all puts) st = feed cb calls st.
Proof.
  intros puts ord Hord Hd (p & Hp & Hne). apply walk_ok; [exact Hord|exact Hd|].
  intros E. apply Hne. apply (max_len_pos puts E). exact Hp.
Qed.
Print Assumptions C46_walk_partial.

(** When the sums fit uint32 the counts are the sums. *)
Theorem C46_walk_sums : forall puts ord,
  (forall p l, Permutation l (ord p l)) ->
  zlen (nodup (list_eq_dec Z.eq_dec) (flat_map fst puts)) < 2 ^ 32 ->
  (exists p, In p puts /\ fst p <> []) ->
  (forall s, 0 <= put_total puts s < 2 ^ 32) ->
  exists calls, NoDup (map fst calls)
    /\ (forall s c, In (s, c) calls <-> c = put_total puts s /\ 0 < c)
    /\ forall S (cb : S -> list bytes -> Z -> option err * S) st, Walk ord cb (put_all puts) st = feed cb calls st.
Proof.
  intros puts ord Hord Hd He Hs. destruct (C46_walk_partial puts ord Hord Hd He) as (calls & H1 & H2 & H3).
  exists calls. split; [exact H1|]. split; [|exact H3]. intros s c. rewrite H2. rewrite Z.mod_small by apply Hs. reflexivity.
Qed.
Print Assumptions C46_walk_sums.

(* collecting the calls *)
Definition collect (acc : list (list bytes * Z)) (p : list bytes) (c : Z) : option err * list (list bytes * Z) := (None, acc ++ [(p, c)]).
Definition ord_id (p : list Z) (l : list (Z * node)) := l.
Definition ord_rev (p : list Z) (l : list (Z * node)) := rev l.
Definition puts0 : list (list bytes * Z) :=
  [([bs "i"; bs "am"], 2); ([bs "i"], 1); ([bs "am"; bs "i"], 5); ([bs "i"; bs "am"], 3); ([], 7)].
Example C46_nonvacuous :
  (forall p l, Permutation l (ord_id p l)) /\ (forall p l, Permutation l (ord_rev p l))
  /\ zlen (nodup (list_eq_dec Z.eq_dec) (flat_map fst puts0)) < 2 ^ 32
  /\ (exists p, In p puts0 /\ fst p <> [])
  /\ Walk ord_id collect (put_all puts0) [] = (Ret tt, [([], 7); ([bs "i"], 1); ([bs "i"; bs "am"], 5); ([bs "am"; bs "i"], 5)])
  /\ Walk ord_rev collect (put_all puts0) [] = (Ret tt, [([], 7); ([bs "am"; bs "i"], 5); ([bs "i"], 1); ([bs "i"; bs "am"], 5)]).
Proof.
  split; [intros; apply Permutation_refl|]. split; [intros; apply Permutation_rev|]. split; [vm_compute; reflexivity|].
  split; [exists ([bs "i"; bs "am"], 2); split; [left; reflexivity|discriminate]|]. split; vm_compute; reflexivity.
Qed.

(** The statement as given fails: counts of the empty sentence are dropped when nothing
    else was put, and a sum of 2^32 is not visited at all. *)
Theorem C46_walk_refuted :
  (exists puts, put_total puts [] = 1 /\ forall ord S (cb : S -> list bytes -> Z -> option err * S) st, Walk ord cb (put_all puts) st = (Ret tt, st))
  /\ (exists puts, put_total puts [bs "a"] = 2 ^ 32 /\ (forall p, In p puts -> is_u32 (snd p))
        /\ forall ord S (cb : S -> list bytes -> Z -> option err * S) st, (forall p l, Permutation l (ord p l)) -> Walk ord cb (put_all puts) st = (Ret tt, st)).
Proof.
  split.
  - exists [([], 1)]. split; [reflexivity|]. intros. reflexivity.
  - set (puts := [([bs "a"], 2 ^ 31); ([bs "a"], 2 ^ 31)]). exists puts. split; [reflexivity|]. split.
    { intros p [<-|[<-|[]]]; unfold is_u32; cbn [snd]; lia. }
    intros ord S cb st Hord. destruct (C46_walk_partial puts ord Hord) as (calls & _ & H2 & H3).
    + vm_compute. reflexivity.
    + exists ([bs "a"], 2 ^ 31). split; [left; reflexivity|discriminate].
    + rewrite H3. destruct calls as [|[s c] calls]; [reflexivity|]. exfalso.
      destruct (proj1 (H2 s c) (or_introl eq_refl)) as [Hc Hp]. unfold puts, put_total in Hc. cbn [fold_right fst snd] in Hc.
      destruct (sent_eqb [bs "a"] s); rewrite Hc in Hp; [|cbn in Hp; lia]. vm_compute in Hp. discriminate.
Qed.
Print Assumptions C46_walk_refuted.

(** ** C47 *)
Section Occ.
Lemma total_app l m s : put_total (l ++ m) s = put_total l s + put_total m s.
Proof. induction l as [|p l IH]; [reflexivity|]. cbn [app put_total fold_right]. fold (put_total (l ++ m) s). fold (put_total l s). rewrite IH. lia. Qed.
Definition ones (l : list (list bytes)) : list (list bytes * Z) := map (fun g => (g, 1)) l.
Lemma total_ones l g : put_total (ones l) g = zlen (filter (fun x => sent_eqb x g) l).
Proof.
  induction l as [|x l IH]; [reflexivity|]. cbn [ones map put_total fold_right fst snd filter]. fold (ones l). fold (put_total (ones l) g). rewrite IH.
  destruct (sent_eqb x g); [rewrite zlen_cons; reflexivity|reflexivity].
Qed.
Lemma windows_len k s x : In x (windows k s) -> length x = k.
Proof.
  unfold windows. destruct (length s <? k)%nat eqn:E; [intros []|]. apply Nat.ltb_ge in E. rewrite in_map_iff. intros (i & <- & Hi). apply in_seq in Hi.
  rewrite firstn_length, skipn_length. lia.
Qed.
Lemma zlen_filter_map {A B} (f : A -> B) (P : B -> bool) l : zlen (filter P (map f l)) = zlen (filter (fun a => P (f a)) l).
Proof. induction l as [|a l IH]; [reflexivity|]. cbn [map filter]. destruct (P (f a)); [rewrite !zlen_cons, IH; reflexivity|exact IH]. Qed.
Lemma filter_none {A} (P : A -> bool) l : (forall x, In x l -> P x = false) -> filter P l = [].
Proof. induction l as [|x l IH]; intros H; [reflexivity|]. cbn [filter]. rewrite (H x (or_introl eq_refl)). apply IH. intros y Hy. apply H. right. exact Hy. Qed.
Lemma sent_eqb_false a b : a <> b -> sent_eqb a b = false.
Proof. intros H. destruct (sent_eqb a b) eqn:E; [|reflexivity]. apply sent_eqb_ok in E. contradiction. Qed.

Lemma windows_occ g s : g <> [] -> zlen (filter (fun x => sent_eqb x g) (windows (length g) s)) = occurrences g s.
Proof.
  intros Hg. unfold windows, occurrences. destruct (length s <? length g)%nat eqn:E.
  - apply Nat.ltb_lt in E. rewrite (filter_none _ (seq 0 (List.length s))); [reflexivity|]. intros i Hi. apply sent_eqb_false. intros Eq.
    apply (f_equal (@length bytes)) in Eq. rewrite firstn_length, skipn_length in Eq. lia.
  - apply Nat.ltb_ge in E. rewrite zlen_filter_map.
    assert (length g <> 0)%nat as Hg0 by (destruct g; [contradiction|cbn; lia]).
    replace (seq 0 (length s)) with (seq 0 (length s - length g + 1) ++ seq (0 + (length s - length g + 1)) (length g - 1)) by (rewrite <- seq_app; f_equal; lia).
    cbn [plus].
    rewrite filter_app, (filter_none _ (seq (length s - length g + 1) (length g - 1))); [rewrite app_nil_r; reflexivity|].
    intros i Hi. apply in_seq in Hi. apply sent_eqb_false. intros Eq. apply (f_equal (@length bytes)) in Eq. rewrite firstn_length, skipn_length in Eq. lia.
Qed.
Lemma all_windows_occ order g s :
  zlen (filter (fun x => sent_eqb x g) (flat_map (fun k => windows k s) (seq 1 order)))
  = if ((1 <=? length g) && (length g <=? order))%nat then occurrences g s else 0.
Proof.
  induction order as [|n IH].
  - cbn [seq flat_map filter]. destruct (1 <=? length g)%nat eqn:E1; [|reflexivity]. destruct (length g <=? 0)%nat eqn:E2; [|reflexivity].
    apply Nat.leb_le in E1, E2. lia.
  - rewrite seq_S, flat_map_app, filter_app, zlen_app, IH. cbn [flat_map]. rewrite app_nil_r. cbn [plus].
    destruct (Nat.eq_dec (length g) (S n)) as [Hk|Hk].
    + rewrite <- Hk, windows_occ by (destruct g; [discriminate|discriminate]).
      rewrite Nat.leb_refl. destruct (1 <=? length g)%nat eqn:E1; cbn [andb]; [|apply Nat.leb_gt in E1; lia].
      destruct (length g <=? n)%nat eqn:E2; [apply Nat.leb_le in E2; lia|lia].
    + rewrite (filter_none _ (windows (S n) s)); [|intros x Hx; apply windows_len in Hx; apply sent_eqb_false; intros ->; lia].
      change (zlen (@nil (list bytes))) with 0. rewrite Z.add_0_r.
      destruct (1 <=? length g)%nat; cbn [andb]; [|reflexivity].
      destruct (length g <=? n)%nat eqn:E1, (length g <=? S n)%nat eqn:E2; try reflexivity.
      * apply Nat.leb_le in E1. apply Nat.leb_gt in E2. lia.
      * apply Nat.leb_gt in E1. apply Nat.leb_le in E2. lia.
Qed.
Definition grams_of (first last : bytes) (order : Z) (s : list bytes) : list (list bytes) :=
  match s with [] => [] | _ => flat_map (fun k => windows k (first :: s ++ [last])) (seq 1 (Z.to_nat order)) end.
Lemma fold_put_ones l : forall t, fold_left (fun t g => Put t g 1) l t = fold_left (fun t p => Put t (fst p) (snd p)) (ones l) t.
Proof. induction l as [|g l IH]; intros t; [reflexivity|]. cbn [fold_left ones map fst snd]. apply IH. Qed.
Lemma build_puts first last order sentences : forall t,
  fold_left (add_sentence first last order) (filter (fun s => negb (zlen s =? 0)) sentences) t
  = fold_left (fun t p => Put t (fst p) (snd p)) (ones (flat_map (grams_of first last order) sentences)) t.
Proof.
  induction sentences as [|s l IH]; intros t; [reflexivity|]. cbn [filter flat_map]. unfold ones. rewrite map_app, fold_left_app. fold (ones (flat_map (grams_of first last order) l)).
  destruct s as [|w s]; [apply IH|]. replace (negb (zlen (w :: s) =? 0)) with true; [|rewrite zlen_cons; pose proof (zlen_nonneg s); destruct (1 + zlen s =? 0) eqn:E; [lia|reflexivity]].
  cbn [fold_left]. rewrite IH. f_equal. unfold add_sentence. rewrite fold_put_ones. reflexivity.
Qed.
Lemma build_total first last order sentences g :
  put_total (ones (flat_map (grams_of first last order) sentences)) g
  = if (1 <=? zlen g) && (zlen g <=? order) then occurrences_in first last sentences g else 0.
Proof.
  induction sentences as [|s l IH].
  - cbn. destruct (_ && _); reflexivity.
  - cbn [flat_map]. unfold ones. rewrite map_app. fold (ones (grams_of first last order s)). fold (ones (flat_map (grams_of first last order) l)).
    rewrite total_app, IH. unfold occurrences_in. cbn [fold_right]. fold (occurrences_in first last l g). destruct s as [|w s].
    + cbn [grams_of ones map put_total fold_right]. destruct (_ && _); lia.
    + unfold grams_of. rewrite total_ones, all_windows_occ.
      assert (((1 <=? length g) && (length g <=? Z.to_nat order))%nat = ((1 <=? zlen g) && (zlen g <=? order))) as ->.
      { unfold zlen. destruct (1 <=? length g)%nat eqn:E1, (1 <=? Z.of_nat (length g)) eqn:E2; try (apply Nat.leb_le in E1 || apply Nat.leb_gt in E1); cbn [andb]; try lia.
        destruct (length g <=? Z.to_nat order)%nat eqn:E3, (Z.of_nat (length g) <=? order) eqn:E4; try (apply Nat.leb_le in E3 || apply Nat.leb_gt in E3); lia. }
      destruct (_ && _); lia.
Qed.
Lemma in_window k s x w : In x (windows k s) -> In w x -> In w s.
Proof.
  unfold windows. destruct (length s <? k)%nat; [intros []|]. rewrite in_map_iff. intros (i & <- & _) Hw.
  assert (forall n (l : list bytes) y, In y (firstn n l) -> In y l) as Hf by (induction n; destruct l; cbn; intuition).
  assert (forall n (l : list bytes) y, In y (skipn n l) -> In y l) as Hs by (induction n; destruct l; cbn; intuition).
  apply Hf in Hw. apply Hs in Hw. exact Hw.
Qed.
End Occ.

(** Walking what Build returns feeds the callback one list with each n-gram at most once,
    and (g, c) is in it iff g has between 1 and [order] words and c is the (non-zero) number
    of its occurrences in the sentences wrapped in the start and end symbols, in uint32
    arithmetic.  Condition: fewer than 2^32 distinct words. *)
Theorem C47_build_counts_partial : forall first last sentences order ord,
  (forall p l, Permutation l (ord p l)) -> 0 <= order < 2 ^ 8 ->
  zlen (nodup (list_eq_dec Z.eq_dec) (first :: last :: concat sentences)) < 2 ^ 32 ->
  exists calls, NoDup (map fst calls)
    /\ (forall g c, In (g, c) calls <-> 1 <= zlen g <= order /\ c = occurrences_in first last sentences g mod 2 ^ 32 /\ 0 < c)
    /\ forall S (cb : S -> list bytes -> Z -> option err * S) st, Walk ord cb (Build first last sentences order) st = feed cb calls st.
Proof.
  intros first last sentences order ord Hord Ho Hd.
  assert (Build first last sentences order = put_all (ones (flat_map (grams_of first last order) sentences))) as EB.
  { unfold Build, put_all. apply build_puts. }
  set (puts := ones (flat_map (grams_of first last order) sentences)) in *.
  assert (distinct (all_tokens puts) < 2 ^ 32) as Hd'.
  { eapply Z.le_lt_trans; [|exact Hd]. apply distinct_mono. intros w Hw. unfold all_tokens in Hw. apply in_flat_map in Hw. destruct Hw as ([g c] & Hg & Hw). cbn [fst] in Hw.
    unfold puts, ones in Hg. apply in_map_iff in Hg. destruct Hg as (g' & Eg & Hg). injection Eg as -> _. apply in_flat_map in Hg. destruct Hg as (s & Hs & Hg).
    destruct s as [|w0 s]; [destruct Hg|]. unfold grams_of in Hg. apply in_flat_map in Hg. destruct Hg as (k & _ & Hg).
    pose proof (in_window _ _ _ w Hg Hw) as Hin. cbn [In app] in Hin |- *. destruct Hin as [Hin|[Hin|Hin]]; [auto| |].
    - right. right. apply in_concat. exists (w0 :: s). split; [exact Hs|left; exact Hin].
    - apply in_app_iff in Hin. destruct Hin as [Hin|[Hin|[]]]; [|auto]. right. right. apply in_concat. exists (w0 :: s). split; [exact Hs|right; exact Hin]. }
  assert (forall g, put_total puts g = if (1 <=? zlen g) && (zlen g <=? order) then occurrences_in first last sentences g else 0) as Ht.
  { intros g. unfold puts. apply build_total. }
  assert (forall g c, (c = put_total puts g mod 2 ^ 32 /\ 0 < c) <-> (1 <= zlen g <= order /\ c = occurrences_in first last sentences g mod 2 ^ 32 /\ 0 < c)) as Heq.
  { intros g c. rewrite Ht. destruct ((1 <=? zlen g) && (zlen g <=? order)) eqn:E.
    - apply andb_prop in E. destruct E as [E1 E2]. apply Z.leb_le in E1, E2. tauto.
    - split; [intros [-> H]; cbn in H; lia|]. intros [[H1 H2] _]. apply Z.leb_le in H1, H2. rewrite H1, H2 in E. discriminate. }
  destruct (Z.eq_dec (max_len puts) 0) as [Em|Em].
  - exists []. split; [constructor|]. split.
    + intros g c. split; [intros []|]. intros H. apply Heq in H. destruct H as [-> H].
      destruct (total_pos_in puts g) as [c Hc]; [intros E0; rewrite E0 in H; cbn in H; lia|].
      pose proof (max_len_pos puts Em _ Hc) as Hg. cbn [fst] in Hg. subst g. rewrite Ht in H. cbn in H. lia.
    + intros S cb st. rewrite EB. destruct (fold_ok (all_tokens puts) Hd' puts NewCountTrie) as (h & tb & E & _).
      { cbn. split; [constructor|]. split; [intros w []|reflexivity]. } { intros w []. } { apply incl_refl. } { cbn. lia. }
      fold (put_all puts) in E. rewrite E. rewrite Em. reflexivity.
  - destruct (walk_ok ord Hord puts Hd' Em) as (calls & H1 & H2 & H3). exists calls. split; [exact H1|]. split.
    + intros g c. rewrite H2. apply Heq.
    + intros S cb st. rewrite EB. apply H3.
Qed.
Print Assumptions C47_build_counts_partial.

Definition corpus0 : list (list bytes) := [[bs "a"; bs "b"; bs "a"]; []; [bs "a"]].
Example C47_nonvacuous :
  zlen (nodup (list_eq_dec Z.eq_dec) (bs "<S>" :: bs "</S>" :: concat corpus0)) < 2 ^ 32
  /\ occurrences_in (bs "<S>") (bs "</S>") corpus0 [bs "a"; bs "</S>"] = 2
  /\ Walk ord_id collect (Build (bs "<S>") (bs "</S>") corpus0 2) [] =
     (Ret tt, [([bs "<S>"], 2); ([bs "<S>"; bs "a"], 2); ([bs "a"], 3); ([bs "a"; bs "b"], 1); ([bs "a"; bs "</S>"], 2); ([bs "b"], 1); ([bs "b"; bs "a"], 1); ([bs "</S>"], 2)]).
Proof. split; [vm_compute; reflexivity|]. split; vm_compute; reflexivity. Qed.
