(** Walking the frequency trie; pruning twice; the grams of a word. *)
From Coq Require Import ZifyBool.
From Verif Require Import Base BaseLemmas GoMap Text AnalysisSpec TextProofs TextProofs2 VGram VGramSpec VGramProofs VGramProofs2.
Local Open Scope Z_scope.

Fixpoint node_induct (P : node -> Prop) (H : forall ch mk fr, Forall (fun p : Z * node => P (snd p)) ch -> P (Node ch mk fr)) (n : node) : P n :=
  match n with
  | Node ch mk fr => H ch mk fr ((fix all (l : list (Z * node)) : Forall (fun p => P (snd p)) l :=
      match l with [] => Forall_nil _ | p :: l' => Forall_cons _ (node_induct P H (snd p)) (all l') end) ch)
  end.

(** keys *)
Definition keys_here (x : node) : Prop := NoDup (map fst (children x)) /\ Forall (fun c => valid_rune c = true) (map fst (children x)).
Definition keys_ok (n : node) : Prop := forall p y, find_node n p = Some y -> keys_here y.
Lemma keys_step n : keys_ok n <-> keys_here n /\ forall c ch, mget Z.eqb (children n) c = Some ch -> keys_ok ch.
Proof.
  split.
  - intros H. split; [exact (H [] n eq_refl)|]. intros c ch Hc p y Hy. apply (H (c :: p) y). cbn [find_node]. rewrite Hc. exact Hy.
  - intros [H1 H2] p y Hy. destruct p as [|c p]; [injection Hy as <-; exact H1|]. cbn [find_node] in Hy.
    destruct (mget Z.eqb (children n) c) as [ch|] eqn:Ec; [|discriminate]. exact (H2 c ch Ec p y Hy).
Qed.
Lemma keys_children n n' : children n = children n' -> keys_ok n -> keys_ok n'.
Proof. intros E H. apply keys_step. apply keys_step in H. unfold keys_here in *. rewrite <- E. exact H. Qed.
Lemma keys_add q : forall cs n, keys_ok n -> Forall (fun c => valid_rune c = true) (map fst cs) -> keys_ok (add_node q n cs).
Proof.
  induction cs as [|[c i] cs IH]; intros n Hn Hv.
  - apply (keys_children n); [reflexivity|exact Hn].
  - cbn [add_node map fst] in *. pose proof (proj1 (keys_step n) Hn) as [[H1 H2] H3]. apply keys_step. cbn [children]. split.
    + split; [apply (mset_nodup Z.eqb Zeqb_ok); exact H1|]. apply Forall_forall. intros x Hx. apply (mset_keys_in Z.eqb Zeqb_ok) in Hx.
      destruct Hx as [Hx| ->]; [exact (proj1 (Forall_forall _ _) H2 x Hx)|exact (Forall_inv Hv)].
    + intros c' ch'. rewrite (mget_mset Z.eqb Zeqb_ok). destruct (Z.eqb_spec c c') as [<-|Hne]; [|apply H3].
      intros H. injection H as <-. apply IH; [|exact (Forall_inv_tail Hv)]. destruct (mget Z.eqb (children n) c) as [x|] eqn:Ex.
      * apply (keys_children x); [reflexivity|]. exact (H3 c x Ex).
      * apply keys_step. split; [split; constructor|]. intros c' ch' H. discriminate.
Qed.
Lemma keys_built q gs : Forall (Forall is_byte) gs -> keys_ok (root (built q gs)).
Proof.
  induction gs as [|g gs IH] using rev_ind; intros Hg.
  - apply keys_step. split; [split; constructor|]. intros c ch H. discriminate.
  - apply Forall_app in Hg. destruct Hg as [Hgs Hg]. apply Forall_inv in Hg. rewrite built_snoc. unfold Add. cbn [root]. apply keys_add; [apply IH; exact Hgs|].
    rewrite indexed_fst. apply (runes_valid g Hg).
Qed.
Lemma NoDup_filter_map {A B} (f : A -> B) (g : A -> bool) l : NoDup (map f l) -> NoDup (map f (filter g l)).
Proof.
  induction l as [|a l IH]; [auto|]. cbn [map filter]. intros H. apply NoDup_cons_iff in H. destruct H as [H1 H2]. destruct (g a); [|auto]. cbn [map]. constructor; [|auto].
  intros Hin. apply H1. apply in_map_iff in Hin. destruct Hin as (x & <- & Hx). apply filter_In in Hx. apply in_map. tauto.
Qed.
Lemma keys_prune_here srt T path x : keys_here x -> keys_here (prune_node srt T path x).
Proof.
  destruct x as [ch mk fr]. unfold keys_here. cbn [prune_node children]. intros [H1 H2].
  assert (map fst (map (fun p : Z * node => (fst p, prune_node srt T (path ++ [fst p]) (snd p))) ch) = map fst ch) as E by (rewrite map_map; reflexivity).
  destruct mk as [m|]; [|cbn [children]; rewrite E; auto]. destruct (fr <=? T); [split; constructor|]. destruct (select _ _ _) as [leaf gone]. cbn [children]. split.
  - apply NoDup_filter_map. rewrite E. exact H1.
  - apply Forall_forall. intros c Hc. apply in_map_iff in Hc. destruct Hc as (x & <- & Hx). apply filter_In in Hx. destruct Hx as [Hx _].
    apply (in_map fst) in Hx. rewrite E in Hx. exact (proj1 (Forall_forall _ _) H2 _ Hx).
Qed.
Lemma keys_prune srt T path n : keys_ok n -> keys_ok (prune_node srt T path n).
Proof. intros H p y Hy. destruct (prune_find srt T p path n y Hy) as (x & Hx & ->). apply keys_prune_here. exact (H p x Hx). Qed.
Lemma keys_find_valid n p y : keys_ok n -> find_node n p = Some y -> Forall (fun c => valid_rune c = true) p.
Proof.
  revert n. induction p as [|c p IH]; intros n Hn Hy; [constructor|]. cbn [find_node] in Hy. destruct (mget Z.eqb (children n) c) as [ch|] eqn:Ec; [|discriminate].
  apply keys_step in Hn. destruct Hn as [[H1 H2] H3]. constructor; [|exact (IH ch (H3 c ch Ec) Hy)].
  apply (mget_In Z.eqb Zeqb_ok _ _ _ H1) in Ec. apply (in_map fst) in Ec. exact (proj1 (Forall_forall _ _) H2 _ Ec).
Qed.

(** text made of valid characters *)
Lemma characters_enc l : Forall (fun c => valid_rune c = true) l -> characters (enc l) = l.
Proof.
  intros H. unfold characters. rewrite runes_enc, map_map. cbn [fst]. induction l as [|c l IH]; [reflexivity|]. cbn [map]. rewrite (IH (Forall_inv_tail H)).
  f_equal. unfold vr. rewrite (Forall_inv H). reflexivity.
Qed.
Lemma encode_bytes r : Forall is_byte (encode_rune r).
Proof.
  rewrite <- encode_vr. pose proof (vr_valid r) as Hv. set (x := vr r) in *. clearbody x. unfold encode_rune. rewrite Hv. unfold valid_rune in Hv. unfold is_byte.
  destruct (x <? 128) eqn:E1; [repeat constructor; lia|].
  destruct (x <? 2048) eqn:E2; [rewrite shr6, c6_mod, lor192, lor128t by lia; repeat constructor; lia|].
  destruct (x <? 65536) eqn:E3; [rewrite shr12, shr6, !c6_mod, lor224, !lor128t by lia; repeat constructor; lia|].
  rewrite shr18, shr12, shr6, !c6_mod, lor240, !lor128t by lia. repeat constructor; lia.
Qed.
Lemma enc_bytes l : Forall is_byte (enc l).
Proof. unfold enc. induction l as [|r l IH]; [constructor|]. cbn [map concat]. apply Forall_app. split; [apply encode_bytes|exact IH]. Qed.
Lemma enc_valid_text l : valid_text (enc l).
Proof. split; [apply enc_bytes|apply well_formed_enc]. Qed.
Lemma valid_text_enc s : valid_text s -> s = enc (characters s).
Proof.
  intros H. rewrite <- (runes_concat s) at 1. pose proof (runes_good s H) as Hr. unfold characters, enc. rewrite map_map. f_equal. apply map_ext_in. intros x Hx.
  exact (proj1 (Forall_forall _ _) Hr x Hx).
Qed.
Lemma enc_inj a b : Forall (fun c => valid_rune c = true) a -> Forall (fun c => valid_rune c = true) b -> enc a = enc b -> a = b.
Proof. intros Ha Hb E. rewrite <- (characters_enc a Ha), <- (characters_enc b Hb), E. reflexivity. Qed.

(** walk *)
Lemma perm_concat {A} (l l' : list (list A)) : Permutation l l' -> Permutation (concat l) (concat l').
Proof.
  intros H. induction H; cbn [concat]; [constructor|apply Permutation_app_head; assumption| |eapply perm_trans; eassumption].
  rewrite !app_assoc. apply Permutation_app_tail. apply Permutation_app_comm.
Qed.
Section WalkProofs.
Context (ord : bytes -> list (Z * list (bytes * node)) -> list (Z * list (bytes * node))) (Hord : any_order ord).
Definition blocks (key : bytes) (ch : list (Z * node)) : list (bytes * node) :=
  concat (map (fun p : Z * node => (key ++ encode_rune (fst p), snd p) :: walk ord (key ++ encode_rune (fst p)) (snd p)) ch).
Lemma walk_blocks key ch mk fr : Permutation (walk ord key (Node ch mk fr)) (blocks key ch).
Proof.
  cbn [walk]. unfold blocks. symmetry. eapply perm_trans; [|apply perm_concat; apply Permutation_map; apply Hord]. rewrite map_map. cbn [snd]. apply Permutation_refl.
Qed.
Lemma walk_in n : keys_ok n -> forall key k x, In (k, x) (walk ord key n) <-> exists p, p <> [] /\ find_node n p = Some x /\ k = key ++ enc p.
Proof.
  induction n as [ch mk fr IH] using node_induct. intros Hk key k x.
  pose proof (proj1 (keys_step _) Hk) as [[Hnd _] Hch]. cbn [children] in *. rewrite Forall_forall in IH.
  split.
  - intros Hin. apply (Permutation_in _ (walk_blocks key ch mk fr)) in Hin. unfold blocks in Hin. apply in_concat in Hin. destruct Hin as (l & Hl & Hin).
    apply in_map_iff in Hl. destruct Hl as ([c y] & <- & Hcy). cbn [fst snd] in Hin.
    pose proof (proj2 (mget_In Z.eqb Zeqb_ok ch c y Hnd) Hcy) as Hg. destruct Hin as [E|Hin].
    + injection E as <- <-. exists [c]. split; [discriminate|]. cbn [find_node children]. rewrite Hg. split; [reflexivity|]. unfold enc. cbn [map concat]. rewrite app_nil_r. reflexivity.
    + apply (IH (c, y) Hcy) in Hin; [|exact (Hch c y Hg)]. destruct Hin as (p & Hp & Hf & ->). exists (c :: p). split; [discriminate|]. cbn [find_node children]. rewrite Hg.
      split; [exact Hf|]. unfold enc. cbn [map concat]. rewrite app_assoc. reflexivity.
  - intros (p & Hp & Hf & ->). apply (Permutation_in _ (Permutation_sym (walk_blocks key ch mk fr))). unfold blocks. apply in_concat.
    destruct p as [|c p]; [congruence|]. cbn [find_node children] in Hf. destruct (mget Z.eqb ch c) as [y|] eqn:Hg; [|discriminate].
    pose proof (proj1 (mget_In Z.eqb Zeqb_ok ch c y Hnd) Hg) as Hcy.
    exists ((key ++ encode_rune c, y) :: walk ord (key ++ encode_rune c) y). split; [apply in_map_iff; exists (c, y); split; [reflexivity|exact Hcy]|].
    destruct p as [|d p].
    + left. injection Hf as ->. unfold enc. cbn [map concat]. rewrite app_nil_r. reflexivity.
    + right. apply (IH (c, y) Hcy); [exact (Hch c y Hg)|]. exists (d :: p). split; [discriminate|]. split; [exact Hf|]. unfold enc. cbn [map concat]. rewrite app_assoc. reflexivity.
Qed.
Lemma walk_nodup n : keys_ok n -> forall key, NoDup (map fst (walk ord key n)).
Proof.
  induction n as [ch mk fr IH] using node_induct. intros Hk key.
  pose proof (proj1 (keys_step _) Hk) as [[Hnd Hval] Hch]. cbn [children] in *.
  eapply Permutation_NoDup; [apply Permutation_map; symmetry; apply walk_blocks|].
  assert (forall c y, In (c, y) ch -> keys_ok y) as Hsub by (intros c y Hcy; apply (Hch c); apply (mget_In Z.eqb Zeqb_ok ch c y Hnd); exact Hcy).
  clear Hk Hch. unfold blocks. revert IH Hnd Hval Hsub. induction ch as [|[c y] ch IHch]; intros IH Hnd Hval Hsub; [constructor|].
  cbn [map concat fst snd] in *. apply NoDup_cons_iff in Hnd. destruct Hnd as [Hc Hnd].
  rewrite map_app.
  assert (forall k, In k (map fst (walk ord (key ++ encode_rune c) y)) -> exists p, p <> [] /\ k = (key ++ encode_rune c) ++ enc p /\ Forall (fun c => valid_rune c = true) p) as Hw.
  { intros k Hin. apply in_map_iff in Hin. destruct Hin as ([k' x] & <- & Hin). cbn [fst]. apply walk_in in Hin; [|exact (Hsub c y (or_introl eq_refl))].
    destruct Hin as (p & Hp & Hf & ->). exists p. split; [exact Hp|]. split; [reflexivity|]. eapply keys_find_valid; [|exact Hf]. exact (Hsub c y (or_introl eq_refl)). }
  assert (forall k, In k (map fst (concat (map (fun p : Z * node => (key ++ encode_rune (fst p), snd p) :: walk ord (key ++ encode_rune (fst p)) (snd p)) ch))) ->
    exists d p, In d (map fst ch) /\ k = key ++ enc (d :: p) /\ Forall (fun c => valid_rune c = true) (d :: p)) as Hrest.
  { intros k Hin. apply in_map_iff in Hin. destruct Hin as ([k' x] & <- & Hin). cbn [fst]. apply in_concat in Hin. destruct Hin as (l & Hl & Hin).
    apply in_map_iff in Hl. destruct Hl as ([d z] & <- & Hdz). cbn [fst snd] in Hin.
    assert (In d (map fst ch)) as Hd by (apply (in_map fst) in Hdz; exact Hdz).
    assert (valid_rune d = true) as Hvd by (exact (proj1 (Forall_forall _ _) (Forall_inv_tail Hval) d Hd)).
    destruct Hin as [E|Hin].
    - injection E as <- <-. exists d, []. split; [exact Hd|]. split; [unfold enc; cbn [map concat]; rewrite app_nil_r; reflexivity|]. repeat constructor. exact Hvd.
    - pose proof (Hsub d z (or_intror Hdz)) as Hz. apply walk_in in Hin; [|exact Hz]. destruct Hin as (p & Hp & Hf & ->). exists d, p. split; [exact Hd|].
      split; [unfold enc; cbn [map concat]; rewrite app_assoc; reflexivity|]. constructor; [exact Hvd|]. exact (keys_find_valid _ _ _ Hz Hf). }
  pose proof (Forall_inv Hval) as Hvc.
  assert (forall k, k = key ++ encode_rune c \/ In k (map fst (walk ord (key ++ encode_rune c) y)) -> exists p, k = key ++ enc (c :: p) /\ Forall (fun c => valid_rune c = true) (c :: p)) as Hmine.
  { intros k [->|Hin].
    - exists []. split; [unfold enc; cbn [map concat]; rewrite app_nil_r; reflexivity|]. repeat constructor. exact Hvc.
    - destruct (Hw k Hin) as (p & _ & -> & Hvp). exists p. split; [unfold enc; cbn [map concat]; rewrite app_assoc; reflexivity|]. constructor; assumption. }
  cbn [map app fst]. 
  assert (forall a b : list bytes, NoDup a -> NoDup b -> (forall k, In k a -> ~ In k b) -> NoDup (a ++ b)) as Happ.
  { clear. induction a as [|x a IH]; intros b Ha Hb Hd; [exact Hb|]. cbn [app]. apply NoDup_cons_iff in Ha. destruct Ha as [Hx Ha]. constructor.
    - intros Hin. apply in_app_or in Hin. destruct Hin as [Hin|Hin]; [contradiction|]. exact (Hd x (or_introl eq_refl) Hin).
    - apply IH; [exact Ha|exact Hb|]. intros k Hk. apply Hd. right. exact Hk. }
  match goal with |- NoDup (?h :: ?a ++ ?b) => change (NoDup ((h :: a) ++ b)) end. apply Happ.
  - constructor.
    + intros Hin. destruct (Hw _ Hin) as (p & Hp & E & _). rewrite <- (app_nil_r (key ++ encode_rune c)) in E at 1. apply app_inv_head in E.
      destruct p as [|d p]; [congruence|]. unfold enc in E. cbn [map concat] in E. symmetry in E. apply app_eq_nil in E. exact (encode_nonempty d (proj1 E)).
    + apply (Forall_inv IH). exact (Hsub c y (or_introl eq_refl)).
  - apply IHch; [exact (Forall_inv_tail IH)|exact Hnd|exact (Forall_inv_tail Hval)|]. intros d z Hdz. apply (Hsub d z). right. exact Hdz.
  - intros k H1 H2. destruct (Hmine k) as (p & E1 & V1); [destruct H1 as [<-|H1]; auto|]. destruct (Hrest k H2) as (d & p' & Hd & E2 & V2).
    rewrite E1 in E2. apply app_inv_head in E2. apply enc_inj in E2; [|exact V1|exact V2]. injection E2 as -> _. contradiction.
Qed.
End WalkProofs.
