(** The frequency trie stays balanced; pruning. *)
From Coq Require Import ZifyBool Sorted.
From Verif Require Import Base BaseLemmas GoMap Text AnalysisSpec TextProofs TextProofs2 VGram VGramSpec VGramProofs.
Local Open Scope Z_scope.

Lemma total_app a b : total (a ++ b) = total a + total b.
Proof. unfold total. induction a as [|x a IH]; cbn [app fold_right]; lia. Qed.
Lemma total_perm a b : Permutation a b -> total a = total b.
Proof. unfold total. intros H. induction H; cbn [fold_right]; lia. Qed.
Lemma total_nonneg l : (forall cf, In cf l -> 0 <= snd cf) -> 0 <= total l.
Proof. unfold total. induction l as [|x l IH]; cbn [fold_right]; intros H; [lia|]. pose proof (H x (or_introl eq_refl)). assert (0 <= fold_right (fun cf acc => snd cf + acc) 0 l) by (apply IH; intros; apply H; right; assumption). lia. Qed.
Definition freq_of (o : option node) : Z := match o with Some x => nfreq x | None => 0 end.
Lemma total_mset ch c x : NoDup (map fst ch) -> total (child_freqs (mset Z.eqb ch c x)) = total (child_freqs ch) + nfreq x - freq_of (mget Z.eqb ch c).
Proof.
  unfold total, child_freqs. induction ch as [|[k v] ch IH]; cbn [mset mget map fst snd fold_right freq_of]; intros Hn; [lia|].
  apply NoDup_cons_iff in Hn. destruct (Z.eqb_spec k c) as [->|Hne]; cbn [map fst snd fold_right freq_of]; [lia|]. rewrite IH by tauto. lia.
Qed.
Lemma add_freq q n cs : nfreq (add_node q n cs) = nfreq n.
Proof. destruct cs as [|[c i] cs]; reflexivity. Qed.

Section Balance.
Context (q : Z).
(* a node at [path], with [d] visits still to be accounted for below it *)
Definition loc (N : Z) (path : list Z) (d : Z) (x : node) : Prop :=
  NoDup (map fst (children x)) /\ (path = [] -> nmarker x = None) /\
  (path <> [] -> 0 <= nfreq x <= N /\
     match nmarker x with
     | Some m => 0 <= m /\ m + total (child_freqs (children x)) + d = nfreq x /\ q <= wrap32 (last_index path + 1)
     | None => ~ q <= wrap32 (last_index path + 1)
     end).
Definition ev (N : Z) (path : list Z) (x : node) : Prop := forall p y, find_node x p = Some y -> loc N (path ++ p) 0 y.
Lemma ev_step N path x : ev N path x <-> loc N path 0 x /\ forall c ch, mget Z.eqb (children x) c = Some ch -> ev N (path ++ [c]) ch.
Proof.
  split.
  - intros H. split.
    + specialize (H [] x eq_refl). rewrite app_nil_r in H. exact H.
    + intros c ch Hc p y Hy. rewrite <- app_assoc. cbn [app]. apply H. cbn [find_node]. rewrite Hc. exact Hy.
  - intros [H1 H2] p y Hy. destruct p as [|c p].
    + injection Hy as <-. rewrite app_nil_r. exact H1.
    + cbn [find_node] in Hy. destruct (mget Z.eqb (children x) c) as [ch|] eqn:Ec; [|discriminate].
      specialize (H2 c ch Ec p y Hy). rewrite <- app_assoc in H2. exact H2.
Qed.
Lemma loc_mono N N' path d x : N <= N' -> loc N path d x -> loc N' path d x.
Proof. intros HN (H1 & H2 & H3). split; [exact H1|]. split; [exact H2|]. intros Hp. destruct (H3 Hp) as [H4 H5]. split; [lia|exact H5]. Qed.
Lemma ev_mono N N' path x : N <= N' -> ev N path x -> ev N' path x.
Proof. intros HN H p y Hy. eapply loc_mono; [exact HN|]. apply H. exact Hy. Qed.
Lemma snoc_nonnil {A} (l : list A) c : l ++ [c] <> [].
Proof. destruct l; discriminate. Qed.
Lemma child_nonneg N path ch : NoDup (map fst ch) -> (forall c x, mget Z.eqb ch c = Some x -> ev N (path ++ [c]) x) -> 0 <= total (child_freqs ch).
Proof.
  intros Hnd H. apply total_nonneg. intros cf Hin. unfold child_freqs in Hin. apply in_map_iff in Hin. destruct Hin as ([c x] & <- & Hin). cbn [fst snd].
  apply (mget_In Z.eqb Zeqb_ok ch c x Hnd) in Hin. specialize (H c x Hin). apply ev_step in H. destruct H as [(_ & _ & H) _].
  destruct (H (snoc_nonnil path c)) as [H0 _]. lia.
Qed.

Lemma add_balanced N : 0 <= N -> N + 1 < 2 ^ 32 -> forall cs path x, consistent path cs -> loc (N + 1) path 1 x ->
  (forall c ch, mget Z.eqb (children x) c = Some ch -> ev N (path ++ [c]) ch) -> ev (N + 1) path (add_node q x cs).
Proof.
  intros HN0 HN. induction cs as [|[c i] cs IH]; intros path x Hc Hx Hch.
  - cbn [add_node]. apply ev_step. cbn [children]. split; [|intros c ch Hm; apply (ev_mono N); [lia|]; apply Hch; exact Hm].
    destruct Hx as (Hnd & Hr & Hl). split; [exact Hnd|]. cbn [nmarker]. split; [intros Hp; rewrite (Hr Hp); reflexivity|].
    intros Hp. cbn [nfreq]. destruct (Hl Hp) as [Hf Hm]. split; [exact Hf|]. cbn [children].
    pose proof (child_nonneg N path (children x) Hnd Hch) as Ht.
    destruct (nmarker x) as [m|]; [|exact Hm]. rewrite wrap32_small by lia. lia.
  - destruct Hc as [Hi Hc]. cbn [add_node].
    set (child := match mget Z.eqb (children x) c with Some y => y | None => newNode end).
    set (mk := match nmarker child with Some m => Some m | None => if q <=? wrap32 (i + 1) then Some 0 else None end).
    set (child' := Node (children child) mk (wrap32 (nfreq child + 1))).
    assert (0 <= nfreq child <= N) as Hfc.
    { unfold child. destruct (mget Z.eqb (children x) c) as [y|] eqn:Ey; [|cbn; lia]. specialize (Hch c y Ey). apply ev_step in Hch. destruct Hch as [(_ & _ & H) _]. exact (proj1 (H (snoc_nonnil path c))). }
    assert (wrap32 (nfreq child + 1) = nfreq child + 1) as Ew by (apply wrap32_small; lia).
    assert (ev (N + 1) (path ++ [c]) (add_node q child' cs)) as Hnew.
    { apply IH; [exact Hc| |].
      - unfold child', mk, child. destruct (mget Z.eqb (children x) c) as [y|] eqn:Ey.
        + specialize (Hch c y Ey). apply ev_step in Hch. destruct Hch as [(H1 & H2 & H3) _]. unfold child in Hfc, Ew. rewrite ?Ey in Hfc, Ew.
          split; [exact H1|]. split; [intros E; exfalso; exact (snoc_nonnil path c E)|]. intros _. cbn [nfreq nmarker children]. rewrite Ew. split; [lia|].
          destruct (H3 (snoc_nonnil path c)) as [_ H4]. destruct (nmarker y) as [m|]; [lia|]. rewrite Hi.
          destruct (Z.leb_spec q (wrap32 (last_index (path ++ [c]) + 1))); [contradiction|]. lia.
        + cbn [newNode children nmarker nfreq]. split; [constructor|]. split; [intros E; exfalso; exact (snoc_nonnil path c E)|]. intros _. cbn [nfreq nmarker children].
          change (wrap32 (0 + 1)) with 1. split; [lia|]. rewrite Hi. destruct (Z.leb_spec q (wrap32 (last_index (path ++ [c]) + 1))); [|lia].
          cbn [child_freqs map total fold_right]. lia.
      - intros c' ch' Hc'. unfold child' in Hc'. cbn [children] in Hc'. unfold child in Hc'. destruct (mget Z.eqb (children x) c) as [y|] eqn:Ey; [|discriminate].
        specialize (Hch c y Ey). apply ev_step in Hch. apply (proj2 Hch). exact Hc'. }
    apply ev_step. cbn [children nmarker nfreq]. destruct Hx as (Hnd & Hr & Hl). split.
    + split; [apply (mset_nodup Z.eqb Zeqb_ok); exact Hnd|]. cbn [nmarker]. split; [exact Hr|]. intros Hp. cbn [nfreq children].
      destruct (Hl Hp) as [Hf Hm]. split; [exact Hf|]. destruct (nmarker x) as [m|]; [|exact Hm].
      rewrite (total_mset _ _ _ Hnd). rewrite add_freq. unfold child'. cbn [nfreq]. rewrite Ew.
      assert (nfreq child = freq_of (mget Z.eqb (children x) c)) as Ef by (unfold child; destruct (mget Z.eqb (children x) c); reflexivity). lia.
    + intros c' ch'. rewrite (mget_mset Z.eqb Zeqb_ok). destruct (Z.eqb_spec c c') as [<-|Hne].
      * intros H. injection H as <-. exact Hnew.
      * intros H. apply (ev_mono N); [lia|]. apply Hch. exact H.
Qed.
Lemma built_balanced gs : Forall good_gram gs -> zlen gs < 2 ^ 32 -> ev (zlen gs) [] (root (built q gs)).
Proof.
  induction gs as [|g gs IH] using rev_ind; intros Hg Hlen.
  - apply ev_step. split; [|intros c ch H; discriminate]. split; [constructor|]. split; [reflexivity|]. congruence.
  - apply Forall_app in Hg. destruct Hg as [Hgs Hg]. apply Forall_inv in Hg. rewrite zlen_app in *. change (zlen [g]) with 1 in *.
    pose proof (zlen_nonneg gs). specialize (IH Hgs ltac:(lia)). rewrite built_snoc. unfold Add. cbn [root]. rewrite built_qMin.
    apply ev_step in IH. destruct IH as [(H1 & H2 & H3) H4]. apply add_balanced; [lia|lia|apply consistent_gram; exact Hg| |exact H4].
    split; [exact H1|]. split; [exact H2|]. congruence.
Qed.
End Balance.

(** Pruning, one node at a time *)
Definition sorted_freq (l : list (Z * Z)) : Prop := StronglySorted (fun a b => snd a <= snd b) l.
Lemma sorted_nth l : (forall i j a b, (i < j)%nat -> nth_error l i = Some a -> nth_error l j = Some b -> snd a <= snd b) -> sorted_freq l.
Proof.
  induction l as [|x l IH]; intros H; [constructor|]. constructor.
  - apply IH. intros i j a b Hij Ha Hb. apply (H (S i) (S j) a b); [lia|exact Ha|exact Hb].
  - apply Forall_forall. intros y Hy. apply In_nth_error in Hy. destruct Hy as [k Hk]. apply (H 0%nat (S k) x y); [lia|reflexivity|exact Hk].
Qed.
Definition kept (gone : list Z) (l : list (Z * Z)) : list (Z * Z) := filter (fun p => negb (existsb (Z.eqb (fst p)) gone)) l.
Definition dropped (gone : list Z) (l : list (Z * Z)) : list (Z * Z) := filter (fun p => existsb (Z.eqb (fst p)) gone) l.
Lemma existsb_mem c l : existsb (Z.eqb c) l = true <-> In c l.
Proof. rewrite existsb_exists. split; [intros (x & Hx & E); apply Z.eqb_eq in E; congruence|intros H; exists c; split; [exact H|apply Z.eqb_refl]]. Qed.
Lemma kept_dropped gone l : Permutation l (dropped gone l ++ kept gone l).
Proof.
  unfold dropped, kept. induction l as [|x l IH]; [constructor|]. cbn [filter]. destruct (existsb (Z.eqb (fst x)) gone); cbn [negb app].
  - constructor. exact IH.
  - apply Permutation_cons_app. exact IH.
Qed.
Lemma filter_perm {A} (f : A -> bool) l l' : Permutation l l' -> Permutation (filter f l) (filter f l').
Proof.
  intros H. induction H; cbn [filter]; [constructor| | |eapply perm_trans; eassumption].
  - destruct (f x); [constructor|]; assumption.
  - destruct (f x); destruct (f y); try apply Permutation_refl. apply perm_swap.
Qed.

Definition nonneg (l : list (Z * Z)) : Prop := forall cf, In cf l -> 0 <= snd cf.
(* the greedy choice takes a prefix of the sorted children *)
Lemma select_prefix T l : forall m, sorted_freq l -> nonneg l -> 0 <= m -> m + total l < 2 ^ 32 ->
  exists k, (k <= length l)%nat /\ select T l m = (m + total (firstn k l), map fst (firstn k l)) /\
    (k = 0%nat \/ m + total (firstn k l) <= T) /\ (forall cf, In cf (skipn k l) -> T < m + total (firstn k l) + snd cf).
Proof.
  induction l as [|[c f] l IH]; intros m Hs Hn Hm Ht.
  - exists 0%nat. cbn. split; [lia|]. split; [f_equal; lia|]. split; [left; reflexivity|]. intros cf [].
  - assert (0 <= f) as Hf by (apply (Hn (c, f)); left; reflexivity). assert (nonneg l) as Hn' by (intros x Hx; apply Hn; right; exact Hx).
    pose proof (total_nonneg l Hn') as Htl. cbn [total fold_right snd] in Ht. fold (total l) in Ht. inversion Hs as [|? ? Hs' Hall]; subst.
    cbn [select]. rewrite wrap32_small by lia. destruct (Z.leb_spec (m + f) T) as [Hle|Hgt].
    + destruct (IH (m + f) Hs' Hn' ltac:(lia) ltac:(lia)) as (k & Hk & E & H1 & H2). exists (S k). rewrite E. cbn [firstn map fst skipn length total fold_right snd]. fold (total (firstn k l)).
      split; [lia|]. split; [f_equal; lia|]. split; [right; destruct H1 as [->|H1]; [cbn [firstn total fold_right]; lia|lia]|].
      intros cf Hcf. specialize (H2 cf Hcf). lia.
    + (* nothing else fits either *)
      assert (forall l', (forall x, In x l' -> f <= snd x /\ m + snd x < 2 ^ 32) -> select T l' m = (m, [])) as Hnone.
      { induction l' as [|[c' f'] l' IH']; intros Hl'; [reflexivity|]. cbn [select]. destruct (Hl' (c', f') (or_introl eq_refl)) as [Ha Hb]. cbn [snd] in Ha, Hb.
        rewrite wrap32_small by lia. destruct (Z.leb_spec (m + f') T); [lia|]. apply IH'. intros x Hx. apply Hl'. right. exact Hx. }
      rewrite Forall_forall in Hall. exists 0%nat. cbn [firstn skipn map total fold_right]. rewrite Hnone.
      * split; [lia|]. split; [f_equal; lia|]. split; [left; reflexivity|]. intros cf [<-|Hcf]; [cbn [snd]; lia|]. specialize (Hall cf Hcf). cbn [snd] in Hall. lia.
      * intros x Hx. specialize (Hall x Hx). cbn [snd] in Hall. split; [exact Hall|].
        assert (snd x <= total l) as Hxt. { clear - Hx Hn'. induction l as [|y l IH]; [destruct Hx|]. cbn [total fold_right]. fold (total l).
          assert (nonneg l) as Hn by (intros z Hz; apply Hn'; right; exact Hz). pose proof (total_nonneg l Hn). pose proof (Hn' y (or_introl eq_refl)).
          destruct Hx as [->|Hx]; [lia|]. specialize (IH Hn Hx). lia. }
        lia.
Qed.
(* the first k of a sorted list are the cheapest k *)
Lemma cheapest l : sorted_freq l -> nonneg l -> forall s rest, Permutation l (s ++ rest) -> total (firstn (length s) l) <= total s.
Proof.
  induction l as [|x l IH]; intros Hs Hn s rest Hp.
  - apply Permutation_nil in Hp. apply app_eq_nil in Hp. destruct Hp as [-> _]. cbn. lia.
  - destruct s as [|y s]; [cbn; lia|]. inversion Hs as [|? ? Hs' Hall]; subst. rewrite Forall_forall in Hall.
    assert (nonneg l) as Hn' by (intros z Hz; apply Hn; right; exact Hz).
    assert (In x ((y :: s) ++ rest)) as Hin by (eapply Permutation_in; [exact Hp|left; reflexivity]).
    apply in_app_or in Hin. destruct Hin as [Hin|Hin].
    + destruct (in_split _ _ Hin) as (s1 & s2 & E). rewrite E in Hp |- *. rewrite <- app_assoc in Hp. cbn [app] in Hp.
      apply Permutation_cons_app_inv in Hp. specialize (IH Hs' Hn' (s1 ++ s2) rest). rewrite <- app_assoc in IH. specialize (IH Hp).
      replace (length (s1 ++ x :: s2)) with (S (length (s1 ++ s2))) by (rewrite !app_length; cbn; lia). cbn [firstn total fold_right]. fold (total (firstn (length (s1 ++ s2)) l)).
      rewrite total_app in *. cbn [total fold_right]. fold (total s2). lia.
    + destruct (in_split _ _ Hin) as (r1 & r2 & ->). 
      assert (Permutation l (s ++ (y :: r1 ++ r2))) as Hp'.
      { replace ((y :: s) ++ r1 ++ x :: r2) with (((y :: s) ++ r1) ++ x :: r2) in Hp by (rewrite <- app_assoc; reflexivity).
        apply Permutation_cons_app_inv in Hp. rewrite Hp. cbn [app]. rewrite <- app_assoc. apply Permutation_middle. }
      specialize (IH Hs' Hn' s _ Hp'). cbn [length firstn total fold_right]. fold (total (firstn (length s) l)). fold (total s).
      assert (snd x <= snd y). { apply Hall. eapply Permutation_in; [symmetry; exact Hp'|]. apply in_or_app. right. left. reflexivity. } lia.
Qed.
Lemma dropped_prefix (l : list (Z * Z)) k : NoDup (map fst l) -> dropped (map fst (firstn k l)) l = firstn k l /\ kept (map fst (firstn k l)) l = skipn k l.
Proof.
  intros Hnd.
  assert (forall a, In a (map fst (firstn k l)) -> ~ In a (map fst (skipn k l))) as Hdis.
  { intros a H1 H2. rewrite <- (firstn_skipn k l), map_app in Hnd. revert Hnd H1 H2. generalize (map fst (firstn k l)), (map fst (skipn k l)). intros u v Hnd H1 H2.
    induction u as [|b u IH]; [destruct H1|]. cbn [app] in Hnd. apply NoDup_cons_iff in Hnd. destruct Hnd as [Hb Hnd]. destruct H1 as [->|H1]; [|auto]. apply Hb. apply in_or_app. right. exact H2. }
  split.
  - unfold dropped. transitivity (filter (fun p => existsb (Z.eqb (fst p)) (map fst (firstn k l))) (firstn k l ++ skipn k l)); [rewrite firstn_skipn; reflexivity|]. rewrite filter_app.
    assert (forall u, (forall a, In a u -> In a (firstn k l)) -> filter (fun p => existsb (Z.eqb (fst p)) (map fst (firstn k l))) u = u) as H1.
    { induction u as [|a u IH]; intros Hu; [reflexivity|]. cbn [filter]. replace (existsb (Z.eqb (fst a)) (map fst (firstn k l))) with true.
      - f_equal. apply IH. intros. apply Hu. right. assumption.
      - symmetry. apply existsb_mem. apply in_map. apply Hu. left. reflexivity. }
    assert (forall u, (forall a, In a u -> In a (skipn k l)) -> filter (fun p => existsb (Z.eqb (fst p)) (map fst (firstn k l))) u = []) as H2.
    { induction u as [|a u IH]; intros Hu; [reflexivity|]. cbn [filter]. replace (existsb (Z.eqb (fst a)) (map fst (firstn k l))) with false.
      - apply IH. intros. apply Hu. right. assumption.
      - symmetry. apply not_true_is_false. intros H. apply existsb_mem in H. apply (Hdis _ H). apply in_map. apply Hu. left. reflexivity. }
    rewrite H1, H2 by auto. apply app_nil_r.
  - unfold kept. transitivity (filter (fun p => negb (existsb (Z.eqb (fst p)) (map fst (firstn k l)))) (firstn k l ++ skipn k l)); [rewrite firstn_skipn; reflexivity|]. rewrite filter_app.
    assert (forall u, (forall a, In a u -> In a (firstn k l)) -> filter (fun p => negb (existsb (Z.eqb (fst p)) (map fst (firstn k l)))) u = []) as H1.
    { induction u as [|a u IH]; intros Hu; [reflexivity|]. cbn [filter]. replace (existsb (Z.eqb (fst a)) (map fst (firstn k l))) with true.
      - apply IH. intros. apply Hu. right. assumption.
      - symmetry. apply existsb_mem. apply in_map. apply Hu. left. reflexivity. }
    assert (forall u, (forall a, In a u -> In a (skipn k l)) -> filter (fun p => negb (existsb (Z.eqb (fst p)) (map fst (firstn k l)))) u = u) as H2.
    { induction u as [|a u IH]; intros Hu; [reflexivity|]. cbn [filter]. replace (existsb (Z.eqb (fst a)) (map fst (firstn k l))) with false.
      - cbn [negb]. f_equal. apply IH. intros. apply Hu. right. assumption.
      - symmetry. apply not_true_is_false. intros H. apply existsb_mem in H. apply (Hdis _ H). apply in_map. apply Hu. left. reflexivity. }
    rewrite H1, H2 by auto. reflexivity.
Qed.

Section PruneProofs.
Context (srt : list Z -> list (Z * Z) -> list (Z * Z)) (T : Z) (Hsrt : sorts_by_frequency srt).
Lemma prune_freq path x : nfreq (prune_node srt T path x) = nfreq x.
Proof. destruct x as [ch mk fr]. cbn [prune_node]. destruct mk; [|reflexivity]. destruct (fr <=? T); [reflexivity|]. destruct (select _ _ _). reflexivity. Qed.
Lemma child_freqs_pruned (f : Z * node -> node) (g : Z -> bool) ch : (forall p, nfreq (f p) = nfreq (snd p)) ->
  child_freqs (filter (fun p => g (fst p)) (map (fun p => (fst p, f p)) ch)) = filter (fun p => g (fst p)) (child_freqs ch).
Proof.
  intros Hf. unfold child_freqs. induction ch as [|[c x] ch IH]; [reflexivity|]. cbn [map fst snd filter]. destruct (g c); cbn [map fst snd]; rewrite ?IH, ?Hf; reflexivity.
Qed.
Lemma child_freqs_fst ch : map fst (child_freqs ch) = map fst ch.
Proof. unfold child_freqs. rewrite map_map. reflexivity. Qed.

(* what the trie needs for the counters not to overflow *)
Definition room (x : node) : Prop := 0 <= nfreq x < 2 ^ 32 /\ NoDup (map fst (children x)) /\ nonneg (child_freqs (children x)) /\
  (forall m, nmarker x = Some m -> 0 <= m /\ m + total (child_freqs (children x)) < 2 ^ 32).

Lemma prune_view path x : room x -> pruned_view T (to_view x) (to_view (prune_node srt T path x)).
Proof.
  intros (_ & Hnd & Hnn & Hm). destruct x as [ch mk fr]. cbn [children nmarker] in *. unfold pruned_view, to_view.
  cbn [v_frequency v_marker v_children]. rewrite prune_freq. cbn [nfreq nmarker children]. split; [reflexivity|].
  cbn [prune_node]. destruct mk as [m|].
  - destruct (fr <=? T) eqn:ET; [split; reflexivity|].
    specialize (Hm m eq_refl). destruct Hm as [Hm Htot]. destruct (Hsrt path (child_freqs ch)) as [Hp Hsorted]. set (sl := srt path (child_freqs ch)) in *.
    apply sorted_nth in Hsorted.
    assert (nonneg sl) as Hnn' by (intros cf Hcf; apply Hnn; eapply Permutation_in; [symmetry; exact Hp|exact Hcf]).
    assert (total sl = total (child_freqs ch)) as Et by (symmetry; apply total_perm; exact Hp).
    destruct (select_prefix T sl m Hsorted Hnn' Hm ltac:(lia)) as (k & Hk & E & H1 & H2). rewrite E. cbn [nmarker children].
    assert (NoDup (map fst sl)) as Hnds by (eapply Permutation_NoDup; [apply Permutation_map; exact Hp|]; rewrite child_freqs_fst; exact Hnd).
    destruct (dropped_prefix sl k Hnds) as [Ed Ek]. set (gone := map fst (firstn k sl)) in *.
    assert (child_freqs (filter (fun p => negb (existsb (Z.eqb (fst p)) gone)) (map (fun p : Z * node => (fst p, prune_node srt T (path ++ [fst p]) (snd p))) ch)) = kept gone (child_freqs ch)) as Ec.
    { apply (child_freqs_pruned (fun p => prune_node srt T (path ++ [fst p]) (snd p)) (fun c => negb (existsb (Z.eqb c) gone))). intros p. apply prune_freq. }
    rewrite Ec. exists (firstn k sl). split; [reflexivity|]. 
    assert (Permutation (kept gone (child_freqs ch)) (skipn k sl)) as Hkp by (rewrite <- Ek; apply filter_perm; exact Hp).
    split; [|split; [|split]].
    + rewrite Hkp. rewrite firstn_skipn. exact Hp.
    + destruct H1 as [->|H1]; [left; reflexivity|right; exact H1].
    + intros cf Hcf. apply H2. eapply Permutation_in; [exact Hkp|exact Hcf].
    + intros other rest Hpo Hle. unfold zlen. rewrite firstn_length_le by exact Hk.
      destruct (Nat.le_gt_cases (length other) k) as [Hc|Hc]; [lia|]. exfalso.
      assert (Permutation sl (other ++ rest)) as Hpo' by (rewrite <- Hpo; symmetry; exact Hp).
      pose proof (cheapest sl Hsorted Hnn' other rest Hpo') as Hch.
      assert (length other <= length sl)%nat as Hlo by (rewrite (Permutation_length Hpo'), app_length; lia).
      (* the element after the first k is among them *)
      destruct (skipn k sl) as [|a l2] eqn:Es; [apply (f_equal (@length _)) in Es; rewrite skipn_length in Es; cbn in Es; lia|].
      assert (total (firstn (length other) sl) >= total (firstn k sl) + snd a) as Hge.
      { rewrite <- (firstn_skipn k sl) at 1. rewrite Es, firstn_app, firstn_length_le by exact Hk. rewrite (firstn_all2 (n := length other)) by (rewrite firstn_length; lia).
        rewrite total_app. destruct (length other - k)%nat as [|n0] eqn:En; [lia|]. cbn [firstn total fold_right]. fold (total (firstn n0 l2)).
        assert (0 <= total (firstn n0 l2)); [|lia]. apply total_nonneg. intros cf Hcf. apply Hnn'. rewrite <- (firstn_skipn k sl), Es. apply in_or_app. right. right.
        rewrite <- (firstn_skipn n0 l2). apply in_or_app. left. exact Hcf. }
      specialize (H2 a (or_introl eq_refl)). lia.
  - cbn [nmarker children]. split; [reflexivity|].
    pose proof (child_freqs_pruned (fun p => prune_node srt T (path ++ [fst p]) (snd p)) (fun _ => true) ch (fun p => prune_freq _ _)) as H.
    assert (forall A (l : list A), filter (fun _ => true) l = l) as Hft by (intros A l; induction l as [|a l IH]; cbn [filter]; congruence).
    rewrite !Hft in H. exact H.
Qed.
(* a node found after pruning is the pruned node found before *)
Lemma mget_map_filter (f : Z * node -> node) (g : Z -> bool) ch c y : mget Z.eqb (filter (fun p => g (fst p)) (map (fun p => (fst p, f p)) ch)) c = Some y ->
  exists x, mget Z.eqb ch c = Some x /\ y = f (c, x).
Proof.
  induction ch as [|[k v] ch IH]; [discriminate|]. cbn [map fst filter mget]. destruct (Z.eqb_spec k c) as [->|Hne].
  - destruct (g c) eqn:Eg.
    + cbn [mget]. rewrite Z.eqb_refl. intros H. injection H as <-. eauto.
    + intros H. exfalso. clear IH. induction ch as [|[k' v'] ch IH]; [discriminate|]. cbn [map fst filter] in H. destruct (g k') eqn:Eg'; [|auto].
      cbn [mget] in H. destruct (Z.eqb_spec k' c) as [->|Hne]; [congruence|auto].
  - destruct (g k); [cbn [mget]; destruct (Z.eqb_spec k c); [congruence|exact IH]|exact IH].
Qed.
Lemma prune_child path x c y : mget Z.eqb (children (prune_node srt T path x)) c = Some y ->
  exists x', mget Z.eqb (children x) c = Some x' /\ y = prune_node srt T (path ++ [c]) x'.
Proof.
  destruct x as [ch mk fr]. cbn [prune_node children].
  assert (forall A (l : list A), filter (fun _ => true) l = l) as Hft by (intros A l; induction l as [|a l IH]; cbn [filter]; congruence).
  destruct mk as [m|].
  - destruct (fr <=? T); [discriminate|]. destruct (select _ _ _) as [leaf gone]. cbn [children]. intros H.
    apply (mget_map_filter (fun p => prune_node srt T (path ++ [fst p]) (snd p)) (fun c => negb (existsb (Z.eqb c) gone))) in H. exact H.
  - cbn [children]. intros H. rewrite <- (Hft _ (map _ ch)) in H. apply (mget_map_filter (fun p => prune_node srt T (path ++ [fst p]) (snd p)) (fun _ => true)) in H. exact H.
Qed.
Lemma prune_find : forall p path x y, find_node (prune_node srt T path x) p = Some y ->
  exists x', find_node x p = Some x' /\ y = prune_node srt T (path ++ p) x'.
Proof.
  induction p as [|c p IH]; intros path x y H.
  - cbn [find_node] in *. injection H as <-. exists x. rewrite app_nil_r. split; reflexivity.
  - cbn [find_node] in *. destruct (mget Z.eqb (children (prune_node srt T path x)) c) as [z|] eqn:Ez; [|discriminate].
    destruct (prune_child path x c z Ez) as (x' & E1 & ->). rewrite E1. destruct (IH _ _ _ H) as (x2 & E2 & ->). exists x2. split; [exact E2|].
    rewrite <- app_assoc. reflexivity.
Qed.
End PruneProofs.
