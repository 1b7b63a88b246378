(** Proofs about the counting trie: lookups after Put, and the calls Walk makes. *)
From Verif Require Import Base BaseLemmas GoMap CountTrie CountTrieSpec.
Local Open Scope Z_scope.

Lemma to_nat_zlen {A} (l : list A) : Z.to_nat (zlen l) = length l. Proof. apply Nat2Z.id. Qed.
(** ** Numbering of tokens *)
Fixpoint pos (h : list bytes) (w : bytes) : Z :=
  match h with [] => 0 | x :: t => if beqb x w then 0 else 1 + pos t w end.
Lemma pos_nth h w : In w h -> 0 <= pos h w < zlen h /\ nth_error h (Z.to_nat (pos h w)) = Some w.
Proof.
  induction h as [|x t IH]; cbn [In pos]; [tauto|]. intros H. rewrite zlen_cons. pose proof (zlen_nonneg t).
  destruct (beqb x w) eqn:E.
  - apply beqb_ok in E. subst. split; [lia|reflexivity].
  - destruct H as [->|H]; [rewrite (eqb_refl _ beqb_ok) in E; discriminate|]. destruct (IH H) as [H1 H2]. split; [lia|].
    replace (Z.to_nat (1 + pos t w)) with (S (Z.to_nat (pos t w))) by lia. exact H2.
Qed.
Lemma pos_app h x w : In w h -> pos (h ++ x) w = pos h w.
Proof.
  induction h as [|y t IH]; cbn [In pos app]; [tauto|]. intros H. destruct (beqb y w) eqn:E; [reflexivity|].
  destruct H as [->|H]; [rewrite (eqb_refl _ beqb_ok) in E; discriminate|]. rewrite (IH H). reflexivity.
Qed.
Lemma pos_new h w : ~ In w h -> pos (h ++ [w]) w = zlen h.
Proof.
  induction h as [|y t IH]; cbn [In pos app]; intros H.
  - rewrite (eqb_refl _ beqb_ok). reflexivity.
  - rewrite (eqb_neq _ beqb_ok) by (intros ->; tauto). rewrite IH by tauto. rewrite zlen_cons. reflexivity.
Qed.
Lemma pos_of_nth h i w : NoDup h -> 0 <= i -> nth_error h (Z.to_nat i) = Some w -> pos h w = i.
Proof.
  intros Hn Hi H. assert (In w h) as Hin by (eapply nth_error_In; exact H).
  destruct (pos_nth h w Hin) as [H1 H2]. rewrite <- H in H2.
  assert (Z.to_nat (pos h w) = Z.to_nat i); [|lia].
  rewrite NoDup_nth_error in Hn. apply Hn; [|exact H2]. unfold zlen in H1. lia.
Qed.
Definition table_ok (tb : list (bytes * Z)) (h : list bytes) : Prop :=
  NoDup h /\ (forall w, In w h -> mget beqb tb w = Some (pos h w)) /\ (forall w, ~ In w h -> mget beqb tb w = None).

Lemma in_beqb (w : bytes) h : In w h \/ ~ In w h.
Proof. destruct (in_dec (list_eq_dec Z.eq_dec) w h); auto. Qed.

Lemma map_ok tb h w : table_ok tb h -> zlen h < 2 ^ 32 ->
  exists x i tb2, mapToUint32 tb h w = (i, tb2, h ++ x) /\ table_ok tb2 (h ++ x) /\ In w (h ++ x) /\ i = pos (h ++ x) w /\ incl x [w].
Proof.
  intros (Hn & Hs & Ho) Hz. unfold mapToUint32. destruct (in_beqb w h) as [Hin|Hin].
  - rewrite (Hs w Hin). exists [], (pos h w), tb. rewrite app_nil_r. repeat split; auto. intros y [].
  - rewrite (Ho w Hin). exists [w], (wrap32 (zlen h)), (mset beqb tb w (wrap32 (zlen h))).
    pose proof (zlen_nonneg h). rewrite (wrap32_small (zlen h)) by lia.
    split; [reflexivity|]. split; [split; [|split]|].
    + apply (Permutation_NoDup (l := w :: h)); [apply Permutation_cons_append|]. constructor; assumption.
    + intros y Hy. rewrite (mget_mset _ beqb_ok). destruct (beqb w y) eqn:E.
      * apply beqb_ok in E. subst y. rewrite pos_new by assumption. reflexivity.
      * apply in_app_iff in Hy. destruct Hy as [Hy|[->|[]]]; [|rewrite (eqb_refl _ beqb_ok) in E; discriminate].
        rewrite pos_app by exact Hy. apply Hs. exact Hy.
    + intros y Hy. rewrite (mget_mset _ beqb_ok). rewrite in_app_iff in Hy. rewrite (eqb_neq _ beqb_ok) by (intros ->; apply Hy; right; left; reflexivity).
      apply Ho. tauto.
    + split; [apply in_or_app; right; left; reflexivity|]. split; [rewrite pos_new by assumption; reflexivity|]. apply incl_refl.
Qed.

(* distinct tokens of a list *)
Definition distinct (l : list bytes) : Z := zlen (nodup (list_eq_dec Z.eq_dec) l).
Lemma nodup_le_distinct h l : NoDup h -> incl h l -> zlen h <= distinct l.
Proof.
  intros Hn Hi. unfold distinct, zlen. apply inj_le. apply NoDup_incl_length; [exact Hn|].
  intros x Hx. apply nodup_In. apply Hi. exact Hx.
Qed.
Lemma distinct_mono l m : incl l m -> distinct l <= distinct m.
Proof. intros H. apply nodup_le_distinct; [apply NoDup_nodup|]. intros x Hx. apply nodup_In in Hx. apply H. exact Hx. Qed.

Lemma map_all_ok s : forall tb h all, table_ok tb h -> incl h all -> incl s all -> distinct all < 2 ^ 32 ->
  exists x tb2, map_all tb h s = (map (pos (h ++ x)) s, tb2, h ++ x) /\ table_ok tb2 (h ++ x) /\ incl s (h ++ x) /\ incl (h ++ x) all.
Proof.
  induction s as [|w s IH]; intros tb h all Ht Hh Hs Hd; cbn [map_all map].
  - exists [], tb. rewrite app_nil_r. repeat split; auto; try apply Ht. intros y [].
  - assert (zlen h < 2 ^ 32) as Hz by (pose proof (nodup_le_distinct h all (proj1 Ht) Hh); lia).
    destruct (map_ok tb h w Ht Hz) as (x & i & tb1 & E & Ht1 & Hin & -> & Hx). rewrite E.
    destruct (IH tb1 (h ++ x) all Ht1) as (y & tb2 & E2 & Ht2 & Hs2 & Ha2).
    + intros z Hz'. apply in_app_iff in Hz'. destruct Hz' as [Hz'|Hz']; [apply Hh; exact Hz'|].
      apply Hx in Hz'. destruct Hz' as [<-|[]]. apply Hs. left. reflexivity.
    + intros z Hz'. apply Hs. right. exact Hz'.
    + exact Hd.
    + rewrite E2. exists (x ++ y), tb2. rewrite app_assoc. split; [|split; [exact Ht2|split; [|exact Ha2]]].
      * rewrite (pos_app (h ++ x) y w Hin). reflexivity.
      * intros z [<-|Hz']; [apply in_or_app; left; exact Hin|apply Hs2; exact Hz'].
Qed.

(** ** The tree *)
Fixpoint lookup (n : node) (ws : list Z) : Z :=
  match ws with
  | [] => ncount n
  | w :: ws' => match mget Z.eqb (children n) w with Some c => lookup c ws' | None => 0 end
  end.
Lemma lookup_empty ws : lookup (Node [] 0) ws = 0. Proof. destruct ws; reflexivity. Qed.
Definition weqb (a b : list Z) : bool := beqb a b.
Lemma lookup_put : forall ws n c ws',
  lookup (put_node n ws c) ws' = if beqb ws ws' then wrap32 (lookup n ws' + c) else lookup n ws'.
Proof.
  induction ws as [|w ws IH]; intros n c ws'.
  - destruct ws' as [|w' ws']; reflexivity.
  - destruct ws' as [|w' ws']; [reflexivity|]. cbn [put_node lookup children beqb].
    rewrite (mget_mset _ Zeqb_ok). destruct (w =? w') eqn:E; cbn [andb]; [|reflexivity].
    apply Z.eqb_eq in E. subst w'. rewrite IH. destruct (mget Z.eqb (children n) w); [reflexivity|].
    rewrite lookup_empty. reflexivity.
Qed.

Fixpoint wf (d : nat) (H : Z) (n : node) : Prop :=
  match d with
  | O => children n = []
  | S d' => NoDup (map fst (children n)) /\ Forall (fun kc => 0 <= fst kc < H /\ wf d' H (snd kc)) (children n)
  end.
Lemma wf_empty d H c : wf d H (Node [] c).
Proof. destruct d; cbn; [reflexivity|]. split; constructor. Qed.
Lemma wf_mono : forall d d' H n, (d <= d')%nat -> wf d H n -> wf d' H n.
Proof.
  induction d as [|d IH]; intros d' H n Hd Hw.
  - cbn [wf] in Hw. destruct d'; cbn [wf]; [exact Hw|]. rewrite Hw. split; constructor.
  - destruct d' as [|d']; [lia|]. cbn [wf] in *. destruct Hw as [H1 H2]. split; [exact H1|].
    eapply Forall_impl; [|exact H2]. cbn. intros a [Ha Hb]. split; [exact Ha|]. apply IH; [lia|exact Hb].
Qed.
Lemma wf_put : forall ws d H n c, wf d H n -> (length ws <= d)%nat -> Forall (fun i => 0 <= i < H) ws -> wf d H (put_node n ws c).
Proof.
  induction ws as [|w ws IH]; intros d H n c Hw Hd Hr.
  - destruct n as [ch k]. destruct d; exact Hw.
  - apply Forall_cons_iff in Hr. destruct Hr as [Hr1 Hr]. destruct d as [|d]; [cbn in Hd; lia|].
    cbn [wf put_node children] in *. destruct Hw as [H1 H2]. cbn [length] in Hd. split; [apply (mset_nodup _ Zeqb_ok); exact H1|].
    set (ch := match mget Z.eqb (children n) w with Some x => x | None => Node [] 0 end).
    assert (wf d H ch) as Hch.
    { unfold ch. destruct (mget Z.eqb (children n) w) as [x|] eqn:E; [|apply wf_empty].
      apply (mget_In _ Zeqb_ok) in E; [|exact H1]. rewrite Forall_forall in H2. apply (H2 _ E). }
    assert (wf d H (put_node ch ws c)) as Hp by (apply IH; [exact Hch|lia|exact Hr]).
    rewrite Forall_forall. intros [k v] Hin.
    assert (NoDup (map fst (mset Z.eqb (children n) w (put_node ch ws c)))) as Hnd by (apply (mset_nodup _ Zeqb_ok); exact H1).
    apply (mget_In _ Zeqb_ok _ _ _ Hnd) in Hin. rewrite (mget_mset _ Zeqb_ok) in Hin. destruct (w =? k) eqn:E.
    + apply Z.eqb_eq in E. subst k. injection Hin as <-. cbn [fst snd]. auto.
    + apply (mget_In _ Zeqb_ok _ _ _ H1) in Hin. rewrite Forall_forall in H2. apply (H2 _ Hin).
Qed.
(* what a non-zero lookup says *)
Lemma lookup_range : forall ws d H n, wf d H n -> lookup n ws <> 0 -> (length ws <= d)%nat /\ Forall (fun i => 0 <= i < H) ws.
Proof.
  induction ws as [|w ws IH]; intros d H n Hw Hl; [split; [cbn; lia|constructor]|].
  cbn [lookup] in Hl. destruct (mget Z.eqb (children n) w) as [x|] eqn:E; [|lia].
  destruct d as [|d].
  - cbn [wf] in Hw. rewrite Hw in E. discriminate.
  - cbn [wf] in Hw. destruct Hw as [H1 H2]. apply (mget_In _ Zeqb_ok) in E; [|exact H1].
    rewrite Forall_forall in H2. destruct (H2 _ E) as [Ha Hb]. cbn [fst snd] in *.
    destruct (IH d H x Hb Hl) as [Hc Hd]. split; [cbn [length]; lia|constructor; assumption].
Qed.

(** ** The calls of Walk, without the shared path *)
Section Calls.
Context (ord : list Z -> list (Z * node) -> list (Z * node)) (Hord : forall p l, Permutation l (ord p l)).
Fixpoint calls (fuel : nat) (ids : list Z) (n : node) : list (list Z * Z) :=
  match fuel with
  | O => []
  | S f => (if 0 <? ncount n then [(ids, ncount n)] else []) ++ flat_map (fun wc => calls f (ids ++ [fst wc]) (snd wc)) (ord ids (children n))
  end.
Lemma calls_in : forall d H ids n p c, wf d H n ->
  (In (p, c) (calls (S d) ids n) <-> exists ws, p = ids ++ ws /\ c = lookup n ws /\ 0 < c).
Proof.
  induction d as [|d IH]; intros H ids n p c Hw.
  - cbn [wf] in Hw. cbn [calls]. rewrite Hw. rewrite (Permutation_nil (Hord ids [])). cbn [flat_map]. rewrite app_nil_r. split.
    + destruct (0 <? ncount n) eqn:E; [|intros []]. intros [Hin|[]]. injection Hin as <- <-. exists []. rewrite app_nil_r. cbn [lookup]. repeat split. lia.
    + intros (ws & -> & -> & Hc). destruct ws as [|w ws]; cbn [lookup] in *.
      * destruct (0 <? ncount n) eqn:E; [|lia]. rewrite app_nil_r. left. reflexivity.
      * rewrite Hw in Hc. cbn in Hc. lia.
  - pose proof Hw as Hw'. cbn [wf] in Hw. destruct Hw as [H1 H2]. rewrite Forall_forall in H2.
    change (calls (S (S d)) ids n) with ((if 0 <? ncount n then [(ids, ncount n)] else []) ++ flat_map (fun wc => calls (S d) (ids ++ [fst wc]) (snd wc)) (ord ids (children n))).
    rewrite in_app_iff, in_flat_map. split.
    + intros [Hin|([w ch] & Hin & Hc)].
      * destruct (0 <? ncount n) eqn:E; [|destruct Hin]. destruct Hin as [Hin|[]]. injection Hin as <- <-. exists []. rewrite app_nil_r. cbn [lookup]. repeat split. lia.
      * apply (Permutation_in _ (Permutation_sym (Hord ids (children n)))) in Hin. cbn [fst snd] in Hc.
        destruct (H2 _ Hin) as [_ Hb]. cbn [snd] in Hb. apply (IH H (ids ++ [w]) ch p c Hb) in Hc.
        destruct Hc as (ws & -> & -> & Hc). exists (w :: ws). rewrite <- app_assoc. split; [reflexivity|]. cbn [lookup].
        apply (mget_In _ Zeqb_ok _ _ _ H1) in Hin. rewrite Hin. split; [reflexivity|exact Hc].
    + intros (ws & -> & -> & Hc). destruct ws as [|w ws]; cbn [lookup] in *.
      * left. destruct (0 <? ncount n) eqn:E; [|lia]. rewrite app_nil_r. left. reflexivity.
      * right. destruct (mget Z.eqb (children n) w) as [ch|] eqn:E; [|lia]. apply (mget_In _ Zeqb_ok _ _ _ H1) in E.
        exists (w, ch). split; [apply (Permutation_in _ (Hord ids (children n))); exact E|]. cbn [fst snd].
        destruct (H2 _ E) as [_ Hb]. cbn [snd] in Hb. apply (IH H _ ch _ _ Hb). exists ws. rewrite <- app_assoc. repeat split. exact Hc.
Qed.
Lemma NoDup_app_i {A} (l m : list A) : NoDup l -> NoDup m -> (forall x, In x l -> ~ In x m) -> NoDup (l ++ m).
Proof.
  induction l as [|x l IH]; cbn [app]; intros Hl Hm Hd; [exact Hm|]. apply NoDup_cons_iff in Hl. destruct Hl as [H1 H2].
  constructor; [|apply IH; [exact H2|exact Hm|intros y Hy; apply Hd; right; exact Hy]].
  rewrite in_app_iff. intros [H|H]; [contradiction|]. apply (Hd x); [left; reflexivity|exact H].
Qed.
Lemma calls_prefix : forall d H ids n p, wf d H n -> In p (map fst (calls (S d) ids n)) -> exists ws, p = ids ++ ws.
Proof.
  intros d H ids n p Hw Hin. apply in_map_iff in Hin. destruct Hin as ([q c] & <- & Hin). apply (calls_in d H) in Hin; [|exact Hw].
  destruct Hin as (ws & -> & _). exists ws. reflexivity.
Qed.
Lemma calls_nodup : forall d H ids n, wf d H n -> NoDup (map fst (calls (S d) ids n)).
Proof.
  induction d as [|d IH]; intros H ids n Hw.
  - cbn [wf] in Hw. cbn [calls]. rewrite Hw, (Permutation_nil (Hord ids [])). cbn [flat_map]. rewrite app_nil_r.
    destruct (0 <? ncount n); repeat constructor. intros [].
  - cbn [wf] in Hw. destruct Hw as [H1 H2].
    change (calls (S (S d)) ids n) with ((if 0 <? ncount n then [(ids, ncount n)] else []) ++ flat_map (fun wc => calls (S d) (ids ++ [fst wc]) (snd wc)) (ord ids (children n))).
    assert (NoDup (map fst (ord ids (children n)))) as H1' by (eapply Permutation_NoDup; [apply Permutation_map, Hord|exact H1]).
    assert (Forall (fun kc => 0 <= fst kc < H /\ wf d H (snd kc)) (ord ids (children n))) as H2' by (eapply Permutation_Forall; [apply Hord|exact H2]).
    clear H1 H2. revert H1' H2'. generalize (ord ids (children n)) as l. intros l H1 H2. rewrite map_app. apply NoDup_app_i.
    + destruct (0 <? ncount n); repeat constructor. intros [].
    + induction l as [|[w ch] l IHl]; [constructor|]. cbn [flat_map fst snd map] in *. apply NoDup_cons_iff in H1. destruct H1 as [Ha Hb].
      apply Forall_cons_iff in H2. destruct H2 as [[_ Hc] Hd]. cbn [snd] in Hc. rewrite map_app. apply NoDup_app_i.
      * apply (IH H). exact Hc.
      * apply IHl; assumption.
      * intros p Hp Hp2. apply (calls_prefix d H) in Hp; [|exact Hc]. destruct Hp as [ws ->].
        apply in_map_iff in Hp2. destruct Hp2 as ([q c] & Eq & Hin). cbn [fst] in Eq. apply in_flat_map in Hin. destruct Hin as ([w' ch'] & Hl & Hin). cbn [fst snd] in Hin.
        rewrite Forall_forall in Hd. destruct (Hd _ Hl) as [_ Hw']. cbn [snd] in Hw'.
        apply (in_map fst) in Hin. apply (calls_prefix d H) in Hin; [|exact Hw']. destruct Hin as [ws' Hws']. cbn [fst] in Hws'.
        rewrite Hws' in Eq. rewrite <- !app_assoc in Eq. apply app_inv_head in Eq. cbn [app] in Eq. injection Eq as -> _.
        apply Ha. apply (in_map fst) in Hl. exact Hl.
    + intros p Hp Hp2. destruct (0 <? ncount n); [|destruct Hp]. destruct Hp as [<-|[]].
      apply in_map_iff in Hp2. destruct Hp2 as ([q c] & Eq & Hin). cbn [fst] in Eq. apply in_flat_map in Hin. destruct Hin as ([w' ch'] & Hl & Hin). cbn [fst snd] in *.
      rewrite Forall_forall in H2. destruct (H2 _ Hl) as [_ Hw']. cbn [snd] in Hw'.
      apply (in_map fst) in Hin. apply (calls_prefix d H) in Hin; [|exact Hw']. destruct Hin as [ws' Hws']. cbn [fst] in Hws'.
      rewrite Hws' in Eq. rewrite <- !app_assoc in Eq. assert (length (ids ++ [w'] ++ ws') = length ids) as El by (rewrite Eq; reflexivity).
      rewrite app_length in El. cbn [app length] in El. lia.
Qed.

(** ** iterate is feed over calls *)
Context {S : Type} (walker : S -> list bytes -> Z -> option err * S).
Context (h : list bytes) (Hh : zlen h < 2 ^ 32).
Definition tok (i : Z) : bytes := nth (Z.to_nat i) h [].
Definition toks (pc : list Z * Z) : list bytes * Z := (map tok (fst pc), snd pc).
Lemma mapFrom_ok i : 0 <= i < zlen h -> mapFromUint32 h i = Ret (tok i).
Proof.
  intros Hi. unfold mapFromUint32. rewrite wrap32_small by lia. destruct (zlen h <=? i) eqn:E; [lia|].
  apply index_nth. exact Hi.
Qed.
Lemma feed_app l m s : feed walker (l ++ m) s = match feed walker l s with (Ret _, s') => feed walker m s' | r => r end.
Proof.
  revert s. induction l as [|[p c] l IH]; intros s; cbn [app feed]; [reflexivity|].
  destruct (walker s p c) as [[e|] s']; [reflexivity|]. apply IH.
Qed.
Lemma feed_shape l s : (exists s', feed walker l s = (Ret tt, s')) \/ (exists e s', feed walker l s = (Fail e, s')).
Proof.
  revert s. induction l as [|[p c] l IH]; intros s; cbn [feed]; [left; eauto|].
  destruct (walker s p c) as [[e|] s']; [right; eauto|apply IH].
Qed.
Definition agrees (ids : list Z) (path : list bytes) (r : res (list bytes) * S) (f : res unit * S) : Prop :=
  match f with
  | (Ret _, s') => exists p', r = (Ret p', s') /\ length p' = length path /\ firstn (length ids) p' = firstn (length ids) path
  | (Fail e, s') => r = (Fail e, s')
  | _ => False
  end.
Lemma fold_fail (F : res (list bytes) * S -> Z * node -> res (list bytes) * S) l e s :
  (forall wc, F (Fail e, s) wc = (Fail e, s)) -> fold_left F l (Fail e, s) = (Fail e, s).
Proof. intros HF. induction l as [|x l IH]; cbn [fold_left]; [reflexivity|]. rewrite HF. exact IH. Qed.

Lemma set_path_ok (ids : list Z) path w : (length ids < length path)%nat ->
  set_path path (zlen ids) w = Ret (firstn (length ids) path ++ w :: skipn (length ids + 1) path).
Proof.
  intros Hl. unfold set_path. destruct (zlen ids <? zlen path) eqn:E; [|unfold zlen in E; lia]. rewrite !to_nat_zlen. reflexivity.
Qed.
Lemma iterate_ok : forall d ids path n s, wf d (zlen h) n -> firstn (length ids) path = map tok ids -> (length ids + d <= length path)%nat ->
  agrees ids path (iterate ord walker (Datatypes.S d) h ids (zlen ids) path n s) (feed walker (map toks (calls (Datatypes.S d) ids n)) s).
Proof.
  induction d as [|d IH]; intros ids path n s Hw Hp Hl.
  - cbn [wf] in Hw. cbn [iterate calls]. rewrite Hw, (Permutation_nil (Hord ids [])). cbn [flat_map fold_left]. rewrite app_nil_r.
    rewrite !to_nat_zlen. destruct (0 <? ncount n) eqn:E.
    + cbn [map feed]. unfold toks. cbn [fst snd]. rewrite Hp. destruct (walker s (map tok ids) (ncount n)) as [[e|] s'].
      * reflexivity.
      * cbn [agrees]. exists path. auto.
    + cbn [map feed agrees]. exists path. auto.
  - pose proof Hw as [H1 H2].
    change (calls (Datatypes.S (Datatypes.S d)) ids n) with ((if 0 <? ncount n then [(ids, ncount n)] else []) ++ flat_map (fun wc => calls (Datatypes.S d) (ids ++ [fst wc]) (snd wc)) (ord ids (children n))).
    remember (Datatypes.S d) as d1 eqn:Hd1. cbn [iterate].
    rewrite map_app, feed_app, !to_nat_zlen.
    assert (feed walker (map toks (if 0 <? ncount n then [(ids, ncount n)] else [])) s =
            (let '(e, s1) := if 0 <? ncount n then walker s (firstn (length ids) path) (ncount n) else (None, s) in
             match e with Some e => (Fail e, s1) | None => (Ret tt, s1) end)) as ->.
    { destruct (0 <? ncount n); [|reflexivity]. cbn [map feed]. unfold toks. cbn [fst snd]. rewrite <- Hp. destruct (walker _ _ _) as [[e|] s']; reflexivity. }
    destruct (if 0 <? ncount n then _ else _) as [[e|] s1]; [reflexivity|].
    assert (Forall (fun kc => 0 <= fst kc < zlen h /\ wf d (zlen h) (snd kc)) (ord ids (children n))) as H2' by (eapply Permutation_Forall; [apply Hord|exact H2]).
    clear H1 H2. revert H2'. generalize (ord ids (children n)) as l. intros l H2.
    revert path s1 Hp Hl. induction l as [|[w ch] l IHl]; intros path s1 Hp Hl.
    + cbn [flat_map map feed fold_left agrees]. exists path. auto.
    + apply Forall_cons_iff in H2. destruct H2 as [[Hr Hwc] H2]. cbn [fst snd] in *. cbn [flat_map fold_left fst snd]. rewrite map_app, feed_app.
      rewrite (mapFrom_ok w Hr). cbn [bind]. rewrite set_path_ok by lia.
      set (p1 := firstn (length ids) path ++ tok w :: skipn (length ids + 1) path).
      assert (length p1 = length path) as Hlp.
      { unfold p1. rewrite app_length. cbn [length]. rewrite firstn_length, skipn_length. lia. }
      assert (firstn (length (ids ++ [w])) p1 = map tok (ids ++ [w])) as Hp1.
      { unfold p1. rewrite app_length. cbn [length]. rewrite firstn_app, firstn_firstn, firstn_length.
        replace (Nat.min (length ids + 1) (length ids)) with (length ids) by lia.
        replace (length ids + 1 - Nat.min (length ids) (length path))%nat with 1%nat by lia. cbn [firstn]. rewrite Hp, map_app. reflexivity. }
      assert (firstn (length ids) p1 = firstn (length ids) path) as Hp0.
      { unfold p1. rewrite firstn_app, firstn_firstn, firstn_length. replace (length ids - Nat.min (length ids) (length path))%nat with O by lia. cbn [firstn].
        rewrite app_nil_r. f_equal. lia. }
      assert ((length (ids ++ [w]) + d <= length p1)%nat) as Hl1 by (rewrite app_length; cbn [length]; lia).
      pose proof (IH (ids ++ [w]) p1 ch s1 Hwc Hp1 Hl1) as Hag. rewrite zlen_app in Hag. change (zlen [w]) with 1 in Hag.
      destruct (feed_shape (map toks (calls d1 (ids ++ [w]) ch)) s1) as [[s' Ef]|(e & s' & Ef)]; rewrite Ef in Hag |- *; cbn [agrees] in Hag.
      * destruct Hag as (p2 & Eit & Hl2 & Hf2). rewrite Eit.
        assert (firstn (length ids) p2 = firstn (length ids) path) as Hp2.
        { rewrite <- Hp0. rewrite app_length in Hf2. cbn [length] in Hf2.
          apply (f_equal (firstn (length ids))) in Hf2. rewrite !firstn_firstn in Hf2.
          replace (Nat.min (length ids) (length ids + 1)) with (length ids) in Hf2 by lia. exact Hf2. }
        assert (firstn (length ids) p2 = map tok ids) as Hp2' by (rewrite Hp2; exact Hp).
        assert ((length ids + d1 <= length p2)%nat) as Hl2' by lia.
        pose proof (IHl H2 p2 s' Hp2' Hl2') as Hag2. unfold agrees in Hag2 |- *.
        destruct (feed walker (map toks (flat_map (fun wc => calls d1 (ids ++ [fst wc]) (snd wc)) l)) s') as [[u|e'| |] s'']; try exact Hag2.
        destruct Hag2 as (p3 & E3 & Hl3 & Hf3). exists p3. split; [exact E3|]. split; [congruence|congruence].
      * rewrite Hag. cbn [agrees]. apply fold_fail. reflexivity.
Qed.
End Calls.

(** ** A whole trie *)
Definition put_ids (h : list bytes) (puts : list (list bytes * Z)) : list (list Z * Z) := map (fun p => (map (pos h) (fst p), snd p)) puts.
Definition fold_node (l : list (list Z * Z)) (n : node) : node := fold_left (fun n p => put_node n (fst p) (snd p)) l n.
Definition all_tokens (puts : list (list bytes * Z)) : list bytes := flat_map fst puts.
Definition max_len (puts : list (list bytes * Z)) : Z := fold_right (fun p a => Z.max (zlen (fst p)) a) 0 puts.

Lemma fold_ok all : distinct all < 2 ^ 32 -> forall puts t, table_ok (t_table t) (t_holder t) -> incl (t_holder t) all -> incl (all_tokens puts) all -> 0 <= t_depth t ->
  exists x tb2, fold_left (fun t p => Put t (fst p) (snd p)) puts t
    = mkTrie (fold_node (put_ids (t_holder t ++ x) puts) (t_root t)) (Z.max (t_depth t) (max_len puts)) tb2 (t_holder t ++ x)
    /\ table_ok tb2 (t_holder t ++ x) /\ incl (all_tokens puts) (t_holder t ++ x) /\ incl (t_holder t ++ x) all.
Proof.
  intros Hd. induction puts as [|[s c] puts IH]; intros t Ht Hi Ha Hz.
  - exists [], (t_table t). rewrite app_nil_r. cbn [fold_left]. destruct t as [r dp tb h]. cbn [t_root t_depth t_table t_holder] in *.
    unfold fold_node. cbn [put_ids map fold_left max_len fold_right]. rewrite Z.max_l by lia. repeat split; auto; try apply Ht. intros y [].
  - cbn [fold_left fst snd]. unfold all_tokens in Ha. cbn [flat_map fst] in Ha.
    destruct (map_all_ok s (t_table t) (t_holder t) all Ht Hi) as (x & tb1 & E & Ht1 & Hs1 & Ha1);
      [intros y Hy; apply Ha; apply in_or_app; left; exact Hy|exact Hd|].
    assert (Put t s c = mkTrie (put_node (t_root t) (map (pos (t_holder t ++ x)) s) c) (Z.max (t_depth t) (zlen s)) tb1 (t_holder t ++ x)) as EP
      by (unfold Put; rewrite E; reflexivity).
    rewrite EP. edestruct (IH (mkTrie (put_node (t_root t) (map (pos (t_holder t ++ x)) s) c) (Z.max (t_depth t) (zlen s)) tb1 (t_holder t ++ x)))
      as (y & tb2 & E2 & Ht2 & Hs2 & Ha2); cbn [t_table t_holder t_depth t_root]; auto; [intros z Hz'; apply Ha; apply in_or_app; right; exact Hz'|lia|].
    cbn [t_table t_holder t_depth t_root] in E2, Ht2, Hs2, Ha2. exists (x ++ y), tb2. rewrite app_assoc. split; [|split; [exact Ht2|split; [|exact Ha2]]].
    + rewrite E2. f_equal.
      * unfold fold_node, put_ids. cbn [map fold_left fst snd]. f_equal. f_equal.
        apply map_ext_in. intros w Hw. symmetry. apply pos_app. apply Hs1. exact Hw.
      * unfold max_len. cbn [fold_right fst]. fold (max_len puts). lia.
    + unfold all_tokens. cbn [flat_map fst]. intros z Hz'. apply in_app_iff in Hz'. destruct Hz' as [Hz'|Hz'].
      * apply in_or_app. left. apply Hs1. exact Hz'.
      * apply Hs2. exact Hz'.
Qed.

Definition id_total (l : list (list Z * Z)) (ws : list Z) : Z := fold_right (fun p a => (if beqb (fst p) ws then snd p else 0) + a) 0 l.
Lemma fold_lookup : forall l n ws k, lookup n ws = wrap32 k -> lookup (fold_node l n) ws = wrap32 (k + id_total l ws).
Proof.
  induction l as [|[p c] l IH]; intros n ws k Hk; unfold fold_node in *; cbn [fold_left fst snd id_total fold_right].
  - rewrite Hk. f_equal. lia.
  - fold (id_total l ws). rewrite (IH _ _ (k + (if beqb p ws then c else 0))); [f_equal; lia|].
    rewrite lookup_put. destruct (beqb p ws); [|rewrite Hk; f_equal; lia].
    rewrite Hk, wrap32_add_l. reflexivity.
Qed.
Lemma fold_wf : forall l d H n, wf d H n -> Forall (fun p => (length (fst p) <= d)%nat /\ Forall (fun i => 0 <= i < H) (fst p)) l -> wf d H (fold_node l n).
Proof.
  induction l as [|[p c] l IH]; intros d H n Hw Hl; unfold fold_node in *; cbn [fold_left fst snd]; [exact Hw|].
  apply Forall_cons_iff in Hl. destruct Hl as [[H1 H2] Hl]. apply IH; [|exact Hl]. apply wf_put; assumption.
Qed.
Lemma max_len_ge puts p : In p puts -> zlen (fst p) <= max_len puts.
Proof. induction puts as [|q puts IH]; cbn [In max_len fold_right]; [tauto|]. fold (max_len puts). intros [->|H]; [lia|]. apply IH in H. lia. Qed.
Lemma max_len_nonneg puts : 0 <= max_len puts.
Proof. induction puts as [|q puts IH]; cbn [max_len fold_right]; [lia|]. fold (max_len puts). lia. Qed.
Lemma max_len_pos puts : max_len puts = 0 -> forall p, In p puts -> fst p = [].
Proof. intros H p Hp. apply max_len_ge in Hp. destruct (fst p); [reflexivity|]. rewrite zlen_cons in Hp. pose proof (zlen_nonneg l). lia. Qed.

Lemma sent_eqb_ok a b : sent_eqb a b = true <-> a = b.
Proof. unfold sent_eqb. destruct (list_eq_dec (list_eq_dec Z.eq_dec) a b); split; intros; congruence. Qed.
Lemma map_pos_inj h a b : incl a h -> incl b h -> map (pos h) a = map (pos h) b -> a = b.
Proof.
  revert b. induction a as [|x a IH]; intros [|y b] Ha Hb E; cbn [map] in E; try discriminate; [reflexivity|].
  injection E as E1 E2. f_equal.
  - destruct (pos_nth h x) as [_ Hx]; [apply Ha; left; reflexivity|]. destruct (pos_nth h y) as [_ Hy]; [apply Hb; left; reflexivity|]. congruence.
  - apply IH; [intros z Hz; apply Ha; right; exact Hz|intros z Hz; apply Hb; right; exact Hz|exact E2].
Qed.
Lemma total_ids h puts s : incl (all_tokens puts) h -> incl s h -> id_total (put_ids h puts) (map (pos h) s) = put_total puts s.
Proof.
  intros Hp Hs. induction puts as [|[p c] puts IH]; [reflexivity|]. cbn [put_ids map id_total fold_right put_total fst snd].
  unfold all_tokens in Hp. cbn [flat_map fst] in Hp.
  fold (put_ids h puts). fold (id_total (put_ids h puts) (map (pos h) s)). fold (put_total puts s).
  rewrite IH by (intros z Hz; apply Hp; apply in_or_app; right; exact Hz). f_equal.
  destruct (beqb (map (pos h) p) (map (pos h) s)) eqn:E.
  - apply beqb_ok in E. apply map_pos_inj in E; [|intros z Hz; apply Hp; apply in_or_app; left; exact Hz|exact Hs]. subst.
    destruct (sent_eqb s s) eqn:E2; [reflexivity|]. assert (sent_eqb s s = true) by (apply sent_eqb_ok; reflexivity). congruence.
  - destruct (sent_eqb p s) eqn:E2; [|reflexivity]. apply sent_eqb_ok in E2. subst. rewrite (eqb_refl _ beqb_ok) in E. discriminate.
Qed.
Lemma total_pos_in puts s : put_total puts s <> 0 -> exists c, In (s, c) puts.
Proof.
  induction puts as [|[p c] puts IH]; cbn [put_total fold_right fst snd]; [lia|]. fold (put_total puts s). intros H.
  destruct (sent_eqb p s) eqn:E.
  - apply sent_eqb_ok in E. subst. exists c. left. reflexivity.
  - destruct IH as [c' Hc]; [lia|]. exists c'. right. exact Hc.
Qed.
Lemma tok_pos h w : In w h -> tok h (pos h w) = w.
Proof. intros Hw. destruct (pos_nth h w Hw) as [_ H]. unfold tok. apply nth_error_nth. exact H. Qed.
Lemma pos_tok h i : NoDup h -> 0 <= i < zlen h -> pos h (tok h i) = i.
Proof.
  intros Hn Hi. apply pos_of_nth; [exact Hn|lia|]. unfold tok. apply nth_error_nth'. unfold zlen in Hi. lia.
Qed.
Lemma tok_in h i : 0 <= i < zlen h -> In (tok h i) h.
Proof. intros Hi. unfold tok. apply nth_In. unfold zlen in Hi. lia. Qed.

Lemma walk_ok ord (Hord : forall p l, Permutation l (ord p l)) puts : distinct (all_tokens puts) < 2 ^ 32 -> max_len puts <> 0 ->
  exists cs, NoDup (map fst cs)
    /\ (forall s c, In (s, c) cs <-> c = put_total puts s mod 2 ^ 32 /\ 0 < c)
    /\ forall S (cb : S -> list bytes -> Z -> option err * S) st, Walk ord cb (put_all puts) st = feed cb cs st.
Proof.
  intros Hd Hm. destruct (fold_ok (all_tokens puts) Hd puts NewCountTrie) as (h & tb & E & Ht & Hin & Hi).
  { cbn. split; [constructor|]. split; [intros w []|reflexivity]. }
  { intros w []. } { apply incl_refl. } { cbn. lia. }
  cbn [NewCountTrie t_holder t_root t_depth app] in *. pose proof (max_len_nonneg puts) as Hmn. rewrite Z.max_r in E by lia.
  fold (put_all puts) in E.
  assert (zlen h < 2 ^ 32) as Hh by (pose proof (nodup_le_distinct h _ (proj1 Ht) Hi); lia).
  set (d := Z.to_nat (max_len puts)) in *. set (root := fold_node (put_ids h puts) (Node [] 0)) in *.
  assert (wf d (zlen h) root) as Hw.
  { apply fold_wf; [apply wf_empty|]. rewrite Forall_forall. intros q Hq. unfold put_ids in Hq. apply in_map_iff in Hq. destruct Hq as (p & <- & Hp). cbn [fst].
    split; [pose proof (max_len_ge puts p Hp); rewrite map_length; unfold zlen in *; unfold d; lia|].
    rewrite Forall_map, Forall_forall. intros w Hw. apply pos_nth. apply Hin. unfold all_tokens. apply in_flat_map. exists p. auto. }
  assert (forall ws, lookup root ws = wrap32 (id_total (put_ids h puts) ws)) as Hl.
  { intros ws. unfold root. rewrite (fold_lookup _ _ _ 0); [reflexivity|]. rewrite lookup_empty. reflexivity. }
  exists (map (toks h) (calls ord (Datatypes.S d) [] root)). split; [|split].
  - (* injectivity of the token map on the paths *)
    pose proof (calls_nodup ord Hord d (zlen h) [] root Hw) as Hn.
    assert (forall p, In p (map fst (calls ord (S d) [] root)) -> Forall (fun i => 0 <= i < zlen h) p) as Hr.
    { intros p Hp. apply in_map_iff in Hp. destruct Hp as ([q c] & <- & Hp). apply (calls_in ord Hord d (zlen h)) in Hp; [|exact Hw].
      destruct Hp as (ws & -> & -> & Hc). cbn [fst app]. eapply lookup_range; [exact Hw|lia]. }
    revert Hn Hr. rewrite map_map. generalize (calls ord (S d) [] root) as l. intros l Hn Hr. cbn [toks fst].
    induction l as [|[p c] l IH]; [constructor|]. cbn [map fst] in *. apply NoDup_cons_iff in Hn. destruct Hn as [H1 H2]. constructor; [|apply IH; [exact H2|intros q Hq; apply Hr; right; exact Hq]].
    intros Hq. apply in_map_iff in Hq. destruct Hq as ([q c'] & Eq & Hq). cbn [fst] in Eq. apply H1. apply in_map_iff. exists (q, c'). split; [|exact Hq]. cbn [fst].
    assert (forall l, Forall (fun i => 0 <= i < zlen h) l -> map (pos h) (map (tok h) l) = l) as Hinv.
    { intros l0 Hl0. rewrite map_map. rewrite <- (map_id l0) at 2. apply map_ext_in. intros i Hi0. apply pos_tok; [apply Ht|]. rewrite Forall_forall in Hl0. apply Hl0. exact Hi0. }
    rewrite <- (Hinv q), <- (Hinv p), Eq; [reflexivity|apply Hr; left; reflexivity|]. apply Hr. right. apply in_map_iff. exists (q, c'). auto.
  - intros s c. rewrite in_map_iff. split.
    + intros ([p c'] & Eq & Hc). unfold toks in Eq. cbn [fst snd] in Eq. injection Eq as <- <-. apply (calls_in ord Hord d (zlen h)) in Hc; [|exact Hw].
      destruct Hc as (ws & -> & -> & Hc). cbn [app]. split; [|exact Hc]. rewrite Hl. unfold wrap32. f_equal.
      assert (Forall (fun i => 0 <= i < zlen h) ws) as Hr by (eapply lookup_range; [exact Hw|lia]). rewrite Forall_forall in Hr.
      rewrite <- (total_ids h puts (map (tok h) ws)); [|exact Hin|intros z Hz; apply in_map_iff in Hz; destruct Hz as (i & <- & Hz); apply tok_in; apply Hr; exact Hz].
      f_equal. rewrite map_map. rewrite <- (map_id ws) at 1. apply map_ext_in. intros i Hi0. symmetry. apply pos_tok; [apply Ht|apply Hr; exact Hi0].
    + intros [-> Hc]. destruct (total_pos_in puts s) as [c0 Hin0]; [intros E0; rewrite E0 in Hc; cbn in Hc; lia|].
      assert (incl s h) as Hs by (intros w Hw'; apply Hin; unfold all_tokens; apply in_flat_map; exists (s, c0); auto).
      exists (map (pos h) s, put_total puts s mod 2 ^ 32). split.
      * unfold toks. cbn [fst snd]. f_equal. rewrite map_map. rewrite <- (map_id s) at 2. apply map_ext_in. intros w Hw'. apply tok_pos. apply Hs. exact Hw'.
      * apply (calls_in ord Hord d (zlen h)); [exact Hw|]. exists (map (pos h) s). split; [reflexivity|]. rewrite Hl, total_ids by assumption. split; [reflexivity|exact Hc].
  - intros S cb st. unfold Walk. rewrite E. cbn [t_depth t_holder t_root]. destruct (max_len puts =? 0) eqn:E0; [lia|]. fold d.
    assert ((length (@nil Z) + d <= length (repeat (@nil Z) d))%nat) as Hlen by (rewrite repeat_length; cbn; lia).
    pose proof (iterate_ok ord Hord cb h Hh d [] (repeat [] d) root st Hw eq_refl Hlen) as Hag.
    change (zlen (@nil Z)) with 0 in Hag.
    destruct (feed_shape cb (map (toks h) (calls ord (Datatypes.S d) [] root)) st) as [[s' Ef]|(e & s' & Ef)]; rewrite Ef in *; cbn [agrees] in Hag.
    + destruct Hag as (p' & -> & _). reflexivity.
    + rewrite Hag. reflexivity.
Qed.
