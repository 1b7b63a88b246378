(** Invariant of the workers of a Suggest call, for every schedule. *)
From Coq Require Import ZifyBool Permutation Sorted.
From Verif Require Import Base BaseLemmas GoMap Store Postings PostingsSpec Merger MergerSpec MergerProofs Index IndexSpec IndexProofs P_IndexLemmas
  Float64 Metric Heap HeapProofs TopK TopKSpec TopKProofs Suggest SuggestSpec.
Local Open Scope Z_scope.

(** ** lists *)
Lemma zlen_app' {A} (a b : list A) : zlen (a ++ b) = zlen a + zlen b.
Proof. unfold zlen. rewrite app_length. lia. Qed.
Lemma filter_ext_in' {A} (f g : A -> bool) l : (forall x, In x l -> f x = g x) -> filter f l = filter g l.
Proof. induction l as [|x l IH]; intros H; [reflexivity|]. cbn [filter]. rewrite (H x) by (left; reflexivity). rewrite IH; [reflexivity|]. intros y Hy. apply H. right. exact Hy. Qed.
Lemma filter_split {A} (f g : A -> bool) l : (forall x, In x l -> f x = true -> g x = false) ->
  Permutation (filter (fun x => f x || g x) l) (filter f l ++ filter g l).
Proof.
  induction l as [|x l IH]; intros H; [constructor|]. cbn [filter].
  assert (forall y, In y l -> f y = true -> g y = false) as H' by (intros y Hy; apply H; right; exact Hy). specialize (IH H').
  specialize (H x (or_introl eq_refl)). destruct (f x), (g x); cbn [orb app].
  - discriminate (H eq_refl).
  - constructor. exact IH.
  - rewrite IH. apply Permutation_middle.
  - exact IH.
Qed.
Lemma filter_group {A} (size : A -> Z) (P : Z -> A -> bool) l : forall S, NoDup S ->
  Permutation (filter (fun x => existsb (Z.eqb (size x)) S && P (size x) x) l)
    (flat_map (fun b => filter (fun x => (size x =? b) && P b x) l) S).
Proof.
  induction S as [|b S IH]; intros Hn.
  - cbn. induction l; [constructor|]. cbn [filter existsb andb]. exact IHl.
  - inversion_clear Hn as [|? ? Hb Hn']. cbn [flat_map existsb]. rewrite <- (IH Hn').
    rewrite <- filter_split.
    + erewrite filter_ext; [reflexivity|]. intros x. cbn beta. destruct (Z.eqb_spec (size x) b) as [->|]; cbn [orb andb]; [|reflexivity].
      destruct (P b x); [reflexivity|]. rewrite andb_false_r. reflexivity.
    + intros x _ E. destruct (Z.eqb_spec (size x) b) as [Eb|]; [|discriminate]. rewrite Eb.
      destruct (existsb (Z.eqb b) S) eqn:Ex; [|reflexivity]. apply existsb_exists in Ex. destruct Ex as (y & Hy & E'). apply Z.eqb_eq in E'. subst y. contradiction.
Qed.
Lemma set_nth_split {A} (x w : A) : forall n l, nth_error l n = Some w -> exists l1 l2, l = l1 ++ w :: l2 /\ set_nth_opt n x l = l1 ++ x :: l2.
Proof.
  induction n as [|n IH]; intros [|y l] H; cbn in H; try discriminate.
  - injection H as ->. exists [], l. split; reflexivity.
  - destruct (IH l H) as (l1 & l2 & E1 & E2). exists (y :: l1), l2. cbn [set_nth_opt app]. split; congruence.
Qed.

(** ** the collector: all candidates enter the local queue *)
Lemma feed_fuzzy d A B k : forall cs q l, Inv q k l -> Forall (fun c => is_u32 (fst c) /\ is_u32 (snd c) /\ Score d (snd c) A B <> S754_nan) cs ->
  exists q', feed (fuzzy_collect d A B) cs (Ret q) = (Ret tt, Ret q') /\ Inv q' k (l ++ map (fun c => mkCand (fst c) (Score d (snd c) A B)) cs).
Proof.
  induction cs as [|[x n] cs IH]; intros q l HI Hc.
  - exists q. cbn [map]. rewrite app_nil_r. split; [reflexivity|exact HI].
  - pose proof (Forall_inv Hc) as (Hx & Hn & Hs). cbn [fst snd] in *. cbn [feed fuzzy_collect bind].
    rewrite position_pack, overlap_pack by assumption.
    destruct (add_inv q k l (mkCand x (Score d n A B)) HI Hs) as (q1 & E1 & H1). cbn [Key Sc] in E1. rewrite E1.
    destruct (IH q1 _ H1 (Forall_inv_tail Hc)) as (q' & E & H2). exists q'. split; [exact E|]. rewrite <- app_assoc in H2. exact H2.
Qed.

Lemma overlap_le_size (tokens ts : list term) : NoDup tokens -> overlap_of tokens ts <= zlen ts.
Proof.
  intros Hnd.
  unfold overlap_of. assert (NoDup (filter (fun t => existsb (beqb t) ts) tokens)) as H by (apply NoDup_filter; exact Hnd).
  assert (incl (filter (fun t => existsb (beqb t) ts) tokens) ts) as Hi.
  { intros t Ht. apply filter_In in Ht. destruct Ht as [_ Ht]. apply mem_In'. exact Ht. }
  pose proof (NoDup_incl_length H Hi). unfold zlen. lia.
Qed.
Section S.
Context (rb : roaring) (srt : list iter -> list iter).
Context (ix : list (option inverted)) (docs : list (Z * list term)) (tokens : list term) (d : metric) (alpha : f64) (k : Z).
Notation A := (zlen tokens).
Notation bmin := (Suggest.bMin tokens d alpha).
Notation bmax := (Suggest.bMax ix tokens d alpha).
Notation cap := (chan_cap ix tokens d alpha).
Notation exec := (Suggest.exec rb srt ix tokens d alpha k).
Notation run := (Suggest.run rb srt ix tokens d alpha k).
Notation start := (Suggest.start ix tokens d alpha k).
Notation worker_search := (Suggest.worker_search rb srt tokens d k).

(* documents of size b that reach the threshold for s *)
Definition pick (s : f64) (b : Z) (doc : Z * list term) : bool := (Threshold d s A b <=? overlap_of tokens (snd doc)) && (Threshold d s A b <=? b).
Definition cands (p : Z * f64) : list cand :=
  map (cand_of d tokens) (filter (fun doc => (zlen (snd doc) =? fst p) && pick (snd p) (fst p) doc) docs).

Context (Hdocs : docs_ok docs) (Hix : index_of rb ix docs) (Hsrt : sorter_ok srt) (HA : 1 <= A <= 65535) (Hk : 1 <= k).
(* scores the query can produce *)
Definition score_like (s : f64) : Prop := exists m B, 0 <= m <= A /\ (NoDup tokens -> m <= B) /\ 1 <= B < zlen ix /\ s = Score d m A B.
Definition sim_like (s : f64) : Prop := s = alpha \/ (flt alpha s = true /\ score_like s).
Context (Hscore : forall s, score_like s -> s <> S754_nan).
Context (Hthr : forall s B, sim_like s -> 1 <= B < zlen ix -> 1 <= Threshold d s A B).
Context (Hmin : 1 <= MinY d alpha A <= A) (Hmax : A <= MaxY d alpha A < 2 ^ 62) (Hixlen : zlen ix < 2 ^ 62).

Lemma overlap_le_A ts : overlap_of tokens ts <= A.
Proof. unfold overlap_of, zlen. pose proof (filter_length_le' (fun t => existsb (beqb t) ts) tokens). lia. Qed.
Lemma overlap_nonneg ts : 0 <= overlap_of tokens ts. Proof. apply zlen_nonneg. Qed.
Lemma doc_size doc : In doc docs -> 1 <= zlen (snd doc) -> zlen (snd doc) < zlen ix.
Proof.
  intros Hin Hs. destruct doc as [x ts]. cbn [snd] in *. destruct ts as [|t ts]; [cbn in Hs; lia|].
  specialize (Hix (zlen (t :: ts)) t). unfold index_holds in Hix. destruct (IndicesGet ix (zlen (t :: ts))) eqn:E.
  - unfold IndicesGet in E. destruct ((_ >=? 0) && _) eqn:E'; [lia|discriminate].
  - assert (In x (posting_of docs (zlen (t :: ts)) t)) as Hp.
    { apply posting_of_In. exists (t :: ts). split; [exact Hin|]. split; [reflexivity|]. apply mem_In'. left. reflexivity. }
    rewrite Hix in Hp. destruct Hp.
Qed.
Lemma score_doc doc : In doc docs -> 1 <= zlen (snd doc) -> score_like (Sc (cand_of d tokens doc)).
Proof.
  intros Hin Hs. exists (overlap_of tokens (snd doc)), (zlen (snd doc)). pose proof (overlap_nonneg (snd doc)). pose proof (overlap_le_A (snd doc)). pose proof (overlap_le_size tokens (snd doc)).
  pose proof (doc_size doc Hin Hs). cbn [cand_of Sc]. repeat split; first [lia|auto].
Qed.
Lemma NoDup_docs : NoDup docs.
Proof.
  destruct Hdocs as (Hs & _ & _). clear - Hs. induction docs as [|x l IH]; [constructor|]. cbn [map] in Hs. inversion_clear Hs. constructor; [|auto].
  intros Hin. rewrite Forall_forall in H0. specialize (H0 (fst x) (in_map fst _ _ Hin)). lia.
Qed.
Lemma search_ok b s iv : 1 <= b < zlen ix -> Threshold d s A b <= b -> sim_like s -> IndicesGet ix b = Some iv ->
  exists q, worker_search b (Threshold d s A b) iv = Ret q /\ Inv q k (cands (b, s)).
Proof.
  intros Hb HTb Hs Hiv. unfold Suggest.worker_search.
  destruct (c26_docs (fuzzy_collect d (sizeA tokens) b) srt rb ix b iv docs tokens (Threshold d s A b) (NewTopKQueue k) Hsrt Hdocs Hiv) as (cs & Hsort & Hcs & e & He & Es).
  { intros t. apply Hix. } { lia. } { apply Hthr; assumption. }
  rewrite Es. unfold NewTopKQueue in *. replace (k <? 0) with false in * by lia.
  assert (Inv (mkQueue k []) k []) as H0 by (apply new_inv; [exact Hk|unfold NewTopKQueue; replace (k <? 0) with false by lia; reflexivity]).
  destruct (feed_fuzzy d (sizeA tokens) b k cs _ _ H0) as (q & Eq & Hq).
  { apply Forall_forall. intros [x n] Hin. apply Hcs in Hin. destruct Hin as (Hn & ts & Hin & Hts & En). cbn [fst snd]. fold (overlap_of tokens ts) in En.
    split; [|split].
    - destruct Hdocs as (_ & Hu & _). rewrite Forall_forall in Hu. apply Hu. apply (in_map fst) in Hin. exact Hin.
    - pose proof (overlap_nonneg ts). pose proof (overlap_le_A ts). unfold is_u32. lia.
    - apply Hscore. pose proof (score_doc (x, ts) Hin ltac:(cbn [snd]; lia)) as H. cbn [cand_of Sc snd] in H. rewrite <- En, Hts in H. exact H. }
  assert (wrapped e = (Ret tt, Ret q)) as -> by (destruct He as [->| ->]; rewrite Eq; reflexivity).
  exists q. split; [reflexivity|]. cbn [app] in Hq. apply (inv_perm _ _ (map (fun c => mkCand (fst c) (Score d (snd c) (sizeA tokens) b)) cs)); [|exact Hq].
  unfold cands. cbn [fst snd].
  set (F := filter _ docs). assert (Permutation (map (fun doc => (fst doc, overlap_of tokens (snd doc))) F) cs) as Hp.
  { apply NoDup_Permutation.
    - apply (NoDup_map_inv fst). rewrite map_map. cbn [fst]. subst F. assert (NoDup (map fst docs)) as Hn.
      { destruct Hdocs as (Hs1 & _ & _). clear - Hs1. induction (map fst docs) as [|x l IH]; [constructor|]. inversion_clear Hs1. constructor; [|auto].
        intros Hin. rewrite Forall_forall in H0. specialize (H0 _ Hin). lia. }
      clear - Hn. induction docs as [|x l IH]; [constructor|]. cbn [map] in Hn. inversion_clear Hn. cbn [filter]. destruct (_ && _); [|auto]. cbn [map]. constructor; [|auto].
      intros Hi. apply H. apply in_map_iff in Hi. destruct Hi as (y & E & Hy). apply filter_In in Hy. rewrite <- E. apply in_map. tauto.
    - clear - Hsort. induction Hsort as [|x l Hs IH Hx]; [constructor|]. constructor; [|exact IH]. intros Hi. rewrite Forall_forall in Hx. specialize (Hx _ Hi). lia.
    - intros [x n]. rewrite Hcs. subst F. rewrite in_map_iff. split.
      + intros ([y ts] & E & Hin). apply filter_In in Hin. destruct Hin as [Hin Hf]. cbn [fst snd] in *. injection E as -> <-. apply andb_prop in Hf. destruct Hf as [F1 F2]. unfold pick in F2. cbn [snd] in F2.
        split; [lia|]. exists ts. split; [exact Hin|]. split; [lia|reflexivity].
      + intros (Hn & ts & Hin & Hts & ->). exists (x, ts). split; [reflexivity|]. apply filter_In. split; [exact Hin|]. unfold pick. cbn [snd]. unfold overlap_of at 1. lia. }
  rewrite <- (Permutation_map _ Hp), map_map. cbn [fst snd]. erewrite map_ext_in; [reflexivity|]. intros [x ts] Hin. subst F. apply filter_In in Hin. destruct Hin as [_ Hf].
  cbn [fst snd] in *. unfold cand_of, sizeA. cbn [fst snd]. replace b with (zlen ts) by lia. reflexivity.
Qed.

(** ** justified similarities *)
Definition just (g : queue) (s : f64) : Prop :=
  s = alpha \/ (flt alpha s = true /\ score_like s /\ zlen (qh g) = k /\ Forall (fun c => fle s (Sc c) = true) (qh g)).
Lemma just_sim g s : just g s -> sim_like s. Proof. unfold just, sim_like. tauto. Qed.
Lemma fle_le4 s a b : s <> S754_nan -> num a -> num b -> le4 b a -> fle s (Sc b) = true -> fle s (Sc a) = true.
Proof.
  intros Hs Ha Hb. unfold num in *. unfold HeapProofs.le, less4. rewrite !fle_rank by assumption. destruct (rank s) as [[? ?] ?], (rank (Sc a)) as [[? ?] ?], (rank (Sc b)) as [[? ?] ?]. cbn. lia.
Qed.
Lemma count_split {X} (f : X -> bool) l1 l2 : length (filter f (l1 ++ l2)) = (length (filter f l1) + length (filter f l2))%nat.
Proof. rewrite filter_app, app_length. reflexivity. Qed.
Lemma just_mono g g' L L2 s : Inv g k L -> Inv g' k (L ++ L2) -> just g s -> just g' s.
Proof.
  intros HI HI' [->|(Ha & Hsc & Hz & Hall)]; [left; reflexivity|right]. split; [exact Ha|]. split; [exact Hsc|].
  pose proof (inv_num _ _ _ HI') as Hn'. destruct HI as (_ & _ & Hn & _ & Hl & rest & Hp & Hr), HI' as (_ & _ & HnL & _ & Hl' & rest' & Hp' & Hr').
  rewrite zlen_app' in Hl'. pose proof (zlen_nonneg L2). split; [lia|].
  apply Forall_forall. intros c Hc. destruct (fle s (Sc c)) eqn:E; [reflexivity|exfalso].
  set (f := fun x => fle s (Sc x)).
  assert (length (filter f rest') = 0%nat) as E1.
  { apply filter_none. intros x Hx. unfold f. destruct (fle s (Sc x)) eqn:Ex; [|reflexivity]. exfalso.
    assert (num x /\ num c) as [Nx Nc].
    { apply (Permutation_Forall Hp'), Forall_app in HnL. destruct HnL as [N1 N2]. rewrite Forall_forall in N1, N2. auto. }
    rewrite (fle_le4 s c x (Hscore s Hsc) Nc Nx (Hr' c x Hc Hx) Ex) in E. discriminate. }
  assert (length (filter f (qh g')) < length (qh g'))%nat as E2.
  { apply in_split in Hc. destruct Hc as (h1 & h2 & ->). rewrite count_split. cbn [filter]. unfold f at 2. rewrite E. rewrite app_length. cbn [length].
    pose proof (filter_length_le' f h1). pose proof (filter_length_le' f h2). lia. }
  assert (length (filter f (qh g)) = length (qh g)) as E3 by (apply filter_all; intros x Hx; rewrite Forall_forall in Hall; apply Hall; exact Hx).
  pose proof (filter_perm f _ _ Hp') as E4. pose proof (filter_perm f _ _ Hp) as E5. rewrite !count_split in *. unfold zlen in *. lia.
Qed.
Lemma store_just g L : Inv g k L -> Forall (fun c => score_like (Sc c)) L ->
  exists l, ManagerLowestScore g = Ret l /\ forall s, just g s -> just g (if flt s l then l else s).
Proof.
  intros HI HL. unfold ManagerLowestScore, IsFull. pose proof (inv_num _ _ _ HI) as Hn. destruct HI as (Ek & _ & _ & Hh & Hl & rest & Hp & Hr). rewrite Ek.
  destruct (Z.eqb_spec (zlen (qh g)) k) as [E|E]; cbn [negb].
  - unfold GetLowestScore. replace (0 <? zlen (qh g)) with true by lia. unfold top.
    destruct (qh g) as [|c h] eqn:Eh; [change (zlen (@nil cand)) with 0 in E; lia|]. cbn [index]. unfold index. replace ((0 <=? 0) && (0 <? zlen (c :: h))) with true by (rewrite <- Eh in *; lia). cbn [Z.to_nat nth_error bind].
    exists (Sc c). split; [reflexivity|]. intros s Hs. destruct (flt s (Sc c)) eqn:Ef; [|exact Hs].
    assert (score_like (Sc c)) as Hsc.
    { apply (Permutation_Forall Hp), Forall_app in HL. destruct HL as [HL _]. exact (Forall_inv HL). }
    right. rewrite Eh. split; [|split; [exact Hsc|split; [exact E|]]].
    + destruct Hs as [<-|(H1 & H2 & _)]; [exact Ef|]. assert (alpha <> S754_nan) as Na by (intros ->; cbn in H1; discriminate).
      pose proof (Hscore _ H2). pose proof (Hscore _ Hsc). rewrite flt_rank in * by assumption. destruct (rank s) as [[? ?] ?], (rank (Sc c)) as [[? ?] ?], (rank alpha) as [[? ?] ?]. cbn in *. lia.
    + apply Forall_forall. intros x Hx. pose proof (heap_top_min' less4 le4_trans less4_asym (c :: h) c x Hh eq_refl Hx) as Hle. rewrite Forall_forall in Hn. pose proof (Hn c (or_introl eq_refl)) as Nc. pose proof (Hn x Hx) as Nx.
      unfold num in *. unfold HeapProofs.le, less4 in Hle. rewrite fle_rank by assumption. destruct (rank (Sc c)) as [[? ?] ?], (rank (Sc x)) as [[? ?] ?]. cbn in *. lia.
  - exists f_neg_inf. split; [reflexivity|]. intros s Hs. replace (flt s f_neg_inf) with false; [exact Hs|]. destruct s as [|[]| |[]]; reflexivity.
Qed.

(** ** the invariant *)
Definition flight (w : wst) : list Z := match w with WSize b | WSearch b _ | WLock b _ | WMerge b _ => [b] | _ => [] end.
Definition wok (g : queue) (w : wst) : Prop :=
  match w with
  | WSearch b T => exists s, just g s /\ T = Threshold d s A b /\ T <= b /\ 1 <= b < zlen ix /\ IndicesGet ix b <> None
  | WLock b q | WMerge b q => exists s, just g s /\ Inv q k (cands (b, s))
  | WFail _ => False
  | _ => True
  end.
Definition range (i j : Z) (sent : list Z) : Prop := forall x, In x sent <-> bmin <= x /\ i < x < j /\ (x <= A \/ x <= bmax).
Definition sent_ok (p : pst) (sent : list Z) : Prop :=
  NoDup sent /\
  match p with
  | PLoop i j => exists n, 0 <= n <= 2 ^ 62 /\ i = A - n /\ j = A + 1 + n /\ range i j sent
  | PSendI i j => exists n, 0 <= n < 2 ^ 62 /\ i = A - n /\ j = A + 1 + n /\ range i j sent
  | PSendJ i j => exists n, 0 <= n < 2 ^ 62 /\ i = A - n /\ j = A + 1 + n /\ range (i - 1) j sent
  | PWait => forall x, In x sent <-> bmin <= x /\ (x <= A \/ x <= bmax)
  end.
Definition WInv (s : st) : Prop :=
  exists sent fin,
    sent_ok (s_prod s) sent /\
    Permutation sent (s_ch s ++ flat_map flight (s_ws s) ++ map fst fin) /\
    Inv (s_glob s) k (flat_map cands fin) /\
    Forall (fun p => just (s_glob s) (snd p)) fin /\
    just (s_glob s) (s_sim s) /\
    Forall (wok (s_glob s)) (s_ws s) /\
    (In WExit (s_ws s) -> s_prod s = PWait /\ s_ch s = []) /\
    s_ws s <> [].
Definition good_any (r : list cand) : Prop :=
  exists sims, (forall B, sims B = alpha \/ (flt alpha (sims B) = true /\ score_like (sims B) /\ zlen r = k /\ Forall (fun c => fle (sims B) (Sc c) = true) r)) /\
    best_k k (answers_any d alpha sims tokens docs) r.

Lemma bmin_eq : bmin = MinY d alpha A. Proof. reflexivity. Qed.
Lemma bmax_eq : bmax = Z.min (MaxY d alpha A) (zlen ix - 1).
Proof. unfold Suggest.bMax, sizeA. cbn zeta. destruct (zlen ix <=? MaxY d alpha A) eqn:E; lia. Qed.
Lemma bmax_lt : bmax < 2 ^ 62. Proof. rewrite bmax_eq. lia. Qed.

Lemma cands_score p : 1 <= fst p -> Forall (fun c => score_like (Sc c)) (cands p).
Proof.
  intros Hp. apply Forall_forall. intros c Hc. unfold cands in Hc. apply in_map_iff in Hc. destruct Hc as (doc & <- & Hin). apply filter_In in Hin. destruct Hin as [Hin Hf].
  apply score_doc; [exact Hin|]. apply andb_prop in Hf. lia.
Qed.
Lemma all_score fin : Forall (fun b => 1 <= b) (map fst fin) -> Forall (fun c => score_like (Sc c)) (flat_map cands fin).
Proof.
  induction fin as [|p fin IH]; intros H; [constructor|]. cbn [flat_map map] in *. apply Forall_app. split; [apply cands_score; exact (Forall_inv H)|apply IH; exact (Forall_inv_tail H)].
Qed.
Lemma sent_pos p sent : sent_ok p sent -> Forall (fun b => 1 <= b) sent.
Proof.
  intros [_ H]. apply Forall_forall. intros x Hx. pose proof Hmin. rewrite <- bmin_eq in *.
  destruct p as [i j|i j|i j|]; [destruct H as (n & _ & _ & _ & H)..|]; apply H in Hx; lia.
Qed.

(* the final answers, grouped by size *)
Definition lookup (fin : list (Z * f64)) (B : Z) : f64 :=
  match find (fun p => fst p =? B) fin with Some p => snd p | None => alpha end.
Lemma lookup_in fin p : NoDup (map fst fin) -> In p fin -> lookup fin (fst p) = snd p.
Proof.
  unfold lookup. induction fin as [|q fin IH]; intros Hn Hin; [destruct Hin|]. cbn [map find] in *. inversion_clear Hn as [|? ? Hq Hn']. destruct Hin as [->|Hin].
  - rewrite Z.eqb_refl. reflexivity.
  - destruct (Z.eqb_spec (fst q) (fst p)) as [E|E]; [|apply IH; assumption]. exfalso. apply Hq. rewrite E. apply in_map. exact Hin.
Qed.
Lemma flat_cands fin : flat_map cands fin = map (cand_of d tokens) (flat_map (fun p => filter (fun doc => (zlen (snd doc) =? fst p) && pick (snd p) (fst p) doc) docs) fin).
Proof. induction fin as [|p fin IH]; [reflexivity|]. cbn [flat_map]. rewrite map_app, IH. reflexivity. Qed.
Lemma answers_perm fin : NoDup (map fst fin) -> (forall x, In x (map fst fin) <-> bmin <= x /\ (x <= A \/ x <= bmax)) ->
  Permutation (flat_map cands fin) (answers_any d alpha (lookup fin) tokens docs).
Proof.
  intros Hn Hr. rewrite flat_cands. unfold answers_any. apply Permutation_map.
  assert (forall l, incl l fin -> flat_map (fun p => filter (fun doc => (zlen (snd doc) =? fst p) && pick (snd p) (fst p) doc) docs) l =
    flat_map (fun b => filter (fun doc => (zlen (snd doc) =? b) && pick (lookup fin b) b doc) docs) (map fst l)) as E.
  { induction l as [|p l IH]; intros Hi; [reflexivity|]. cbn [flat_map map]. rewrite (lookup_in fin p Hn) by (apply Hi; left; reflexivity).
    rewrite IH by (intros x Hx; apply Hi; right; exact Hx). reflexivity. }
  rewrite (E fin (incl_refl _)). rewrite <- (filter_group (fun doc => zlen (snd doc)) (fun b doc => pick (lookup fin b) b doc) docs (map fst fin) Hn).
  erewrite filter_ext_in'; [reflexivity|]. intros doc Hin. cbn beta. unfold eligible_any, eligible, pick. cbn zeta.
  destruct (Threshold d (lookup fin (zlen (snd doc))) A (zlen (snd doc)) <=? overlap_of tokens (snd doc)) eqn:Et; rewrite ?andb_true_r, ?andb_false_r; [|reflexivity].
  destruct (Threshold d (lookup fin (zlen (snd doc))) A (zlen (snd doc)) <=? zlen (snd doc)) eqn:Et2; cbn [andb]; rewrite ?andb_true_r, ?andb_false_r; [|reflexivity].
  apply Bool.eq_iff_eq_true. pose proof Hmin as Hm. pose proof Hmax as HM. rewrite existsb_exists. split.
  - intros (x & Hx & Ex). apply Z.eqb_eq in Ex. subst x. apply Hr in Hx. rewrite bmin_eq, bmax_eq in Hx. lia.
  - intros Hb. exists (zlen (snd doc)). split; [|apply Z.eqb_refl]. apply Hr. rewrite bmin_eq, bmax_eq.
    pose proof (doc_size doc Hin). lia.
Qed.
Lemma finish s : WInv s -> s_prod s = PWait -> forallb gone (s_ws s) = true ->
  first_error (s_ws s) = None /\ good_any (fst (GetCandidates (s_glob s))).
Proof.
  intros (sent & fin & Hsent & Hperm & HI & Hfin & _ & Hws & Hex & Hne) Hp Hg. rewrite Hp in Hsent. destruct Hsent as [Hnd' Hsent]. rewrite forallb_forall in Hg.
  assert (forall w, In w (s_ws s) -> w = WExit) as Hall.
  { intros w Hw. rewrite Forall_forall in Hws. specialize (Hws w Hw). specialize (Hg w Hw). destruct w; try discriminate; [reflexivity|destruct Hws]. }
  assert (flat_map flight (s_ws s) = [] /\ first_error (s_ws s) = None) as [E1 E2].
  { clear - Hall. induction (s_ws s) as [|w l IH]; [auto|]. rewrite (Hall w) by (left; reflexivity). cbn [flat_map flight app first_error]. apply IH. intros x Hx. apply Hall. right. exact Hx. }
  assert (s_ch s = []) as E3.
  { apply Hex. destruct (s_ws s) as [|w l]; [congruence|]. left. apply Hall. left. reflexivity. }
  rewrite E1, E3 in Hperm. cbn [app] in Hperm. split; [exact E2|]. exists (lookup fin).
  pose proof (list_inv _ _ _ HI) as (Hb & _ & Hl). split.
  - intros B. unfold lookup. destruct (find _ fin) as [p|] eqn:E; [|left; reflexivity]. apply find_some in E. destruct E as [Hin _].
    rewrite Forall_forall in Hfin. destruct (Hfin p Hin) as [H|(H1 & H2 & H3 & H4)]; [left; exact H|right]. split; [exact H1|]. split; [exact H2|].
    split; [unfold zlen in *; rewrite (Permutation_length Hl); exact H3|]. apply (Permutation_Forall (Permutation_sym Hl)). exact H4.
  - destruct Hb as (B1 & B2 & rest & B3 & B4).
    assert (Permutation (flat_map cands fin) (answers_any d alpha (lookup fin) tokens docs)) as Hans.
    { apply answers_perm; [apply (Permutation_NoDup Hperm); exact Hnd'|]. intros x. rewrite <- Hsent. split; [apply Permutation_in; symmetry; exact Hperm|apply Permutation_in; exact Hperm]. }
    split; [rewrite B1; rewrite (Permutation_length Hans); reflexivity|]. split; [exact B2|]. exists rest. split; [rewrite <- Hans; exact B3|exact B4].
Qed.

Lemma exec_worker_inv s i w p : WInv s -> nth_error (s_ws s) i = Some w -> exec_worker rb srt ix tokens d k s i w = Some p ->
  exists s', p = Running s' /\ WInv s'.
Proof.
  intros (sent & fin & Hsent & Hperm & HI & Hfin & Hsim & Hws & Hex & Hne) Hw He.
  assert (forall w', exists l1 l2, s_ws s = l1 ++ w :: l2 /\ set_nth_opt i w' (s_ws s) = l1 ++ w' :: l2) as Hset by (intros w'; apply set_nth_split; exact Hw).
  pose proof (nth_error_In _ _ Hw) as Hwin. pose proof Hws as Hws0. rewrite Forall_forall in Hws0. specialize (Hws0 w Hwin).
  assert (Forall (fun b => 1 <= b) sent) as Hpos by (eapply sent_pos; exact Hsent).
  (* replacing one worker, with the channel, similarity and result queue unchanged *)
  assert (forall w' lk, flight w' = flight w -> wok (s_glob s) w' -> w' <> WExit ->
    WInv (mkSt (s_ch s) (s_prod s) (set_nth_opt i w' (s_ws s)) (s_glob s) (s_sim s) lk)) as Hrep.
  { intros w' lk Hf Hok Hnex. destruct (Hset w') as (l1 & l2 & E1 & E2). exists sent, fin. cbn [s_ch s_prod s_ws s_glob s_sim]. rewrite E2. split; [exact Hsent|].
    rewrite E1 in *. split; [|split; [exact HI|split; [exact Hfin|split; [exact Hsim|split; [|split]]]]].
    - rewrite flat_map_app in *. cbn [flat_map] in *. rewrite Hf. exact Hperm.
    - apply Forall_app in Hws. destruct Hws as [W1 W2]. apply Forall_app. split; [exact W1|]. constructor; [exact Hok|exact (Forall_inv_tail W2)].
    - intros Hi. apply Hex. apply in_app_iff in Hi. apply in_app_iff. destruct Hi as [Hi|[Hi|Hi]]; [left; exact Hi|congruence|right; right; exact Hi].
    - destruct l1; discriminate. }
  (* a size is finished, with similarity v *)
  assert (forall b w' v lk, flight w = [b] -> flight w' = [] -> wok (s_glob s) w' -> w' <> WExit -> just (s_glob s) v -> cands (b, v) = [] ->
    WInv (mkSt (s_ch s) (s_prod s) (set_nth_opt i w' (s_ws s)) (s_glob s) (s_sim s) lk)) as Hdone.
  { intros b w' v lk Hf Hf' Hok Hnex Hv Hc. destruct (Hset w') as (l1 & l2 & E1 & E2). exists sent, ((b, v) :: fin). cbn [s_ch s_prod s_ws s_glob s_sim]. rewrite E2. split; [exact Hsent|].
    rewrite E1 in *. split; [|split; [|split; [|split; [exact Hsim|split; [|split]]]]].
    - rewrite flat_map_app in *. cbn [flat_map map fst] in *. rewrite Hf' . rewrite Hf in Hperm. cbn [app] in *. rewrite Hperm. apply Permutation_app_head. rewrite <- !app_assoc. apply Permutation_app_head.
      cbn [app]. apply Permutation_cons_app. reflexivity.
    - cbn [flat_map]. rewrite Hc. exact HI.
    - constructor; [exact Hv|exact Hfin].
    - apply Forall_app in Hws. destruct Hws as [W1 W2]. apply Forall_app. split; [exact W1|]. constructor; [exact Hok|exact (Forall_inv_tail W2)].
    - intros Hi. apply Hex. apply in_app_iff in Hi. apply in_app_iff. destruct Hi as [Hi|[Hi|Hi]]; [left; exact Hi|congruence|right; right; exact Hi].
    - destruct l1; discriminate. }
  assert (forall b, In b (flight w) -> 1 <= b) as Hbpos.
  { intros b Hb. apply (Permutation_Forall Hperm), Forall_app in Hpos. destruct Hpos as [_ Hp]. apply Forall_app in Hp. destruct Hp as [Hp _]. rewrite Forall_forall in Hp.
    apply Hp. apply in_flat_map. exists w. split; assumption. }
  destruct w as [|b|b T|b q|b q| | | |e]; cbn [exec_worker] in He.
  - (* receive *)
    destruct (s_ch s) as [|b ch] eqn:Ech.
    + destruct (s_prod s) eqn:Epr; try discriminate. injection He as <-. eexists. split; [reflexivity|]. unfold set_w. destruct (Hset WExit) as (l1 & l2 & E1 & E2).
      exists sent, fin. cbn [s_ch s_prod s_ws s_glob s_sim]. rewrite E2, E1, Epr, Ech in *. split; [exact Hsent|]. split; [rewrite flat_map_app in *; exact Hperm|].
      split; [exact HI|]. split; [exact Hfin|]. split; [exact Hsim|]. split; [|split; [auto|destruct l1; discriminate]].
      apply Forall_app in Hws. destruct Hws as [W1 W2]. apply Forall_app. split; [exact W1|]. constructor; [exact I|exact (Forall_inv_tail W2)].
    + injection He as <-. eexists. split; [reflexivity|]. destruct (Hset (WSize b)) as (l1 & l2 & E1 & E2).
      exists sent, fin. cbn [s_ch s_prod s_ws s_glob s_sim]. rewrite E2, E1 in *. split; [exact Hsent|]. split.
      * rewrite Hperm. rewrite !flat_map_app. cbn [flat_map flight app]. rewrite <- !app_assoc. cbn [app]. rewrite !(app_assoc ch). apply Permutation_cons_app. reflexivity.
      * split; [exact HI|]. split; [exact Hfin|]. split; [exact Hsim|]. split; [|split; [|destruct l1; discriminate]].
        -- apply Forall_app in Hws. destruct Hws as [W1 W2]. apply Forall_app. split; [exact W1|]. constructor; [exact I|exact (Forall_inv_tail W2)].
        -- intros Hi. exfalso. assert (In WExit (l1 ++ WRecv :: l2)) as Hi'; [|destruct (Hex Hi') as [_ Hc]; discriminate].
           apply in_app_iff in Hi. apply in_app_iff. destruct Hi as [Hi|[Hi|Hi]]; [left; exact Hi|congruence|right; right; exact Hi].
  - (* load the similarity *)
    specialize (Hbpos b (or_introl eq_refl)). unfold sizeA in He.
    destruct ((Threshold d (s_sim s) A b =? 0) || (b <? Threshold d (s_sim s) A b) || (A <? Threshold d (s_sim s) A b)) eqn:ET.
    + injection He as <-. eexists. split; [reflexivity|]. apply (Hdone b WRecv (s_sim s)); try reflexivity; [discriminate|exact Hsim|].
      unfold cands. cbn [fst snd]. rewrite (filter_ext_in' _ (fun _ => false)); [clear; induction docs; auto|]. intros doc Hin. unfold pick.
      destruct (Z.eqb_spec (zlen (snd doc)) b) as [Eb|]; [|reflexivity]. cbn [andb]. pose proof (overlap_le_A (snd doc)).
      pose proof (doc_size doc Hin ltac:(lia)). pose proof (Hthr (s_sim s) b (just_sim _ _ Hsim) ltac:(lia)). lia.
    + destruct (IndicesGet ix b) as [iv|] eqn:Eiv.
      * injection He as <-. eexists. split; [reflexivity|]. apply Hrep; [reflexivity| |discriminate]. cbn [wok]. exists (s_sim s). split; [exact Hsim|]. split; [reflexivity|].
        split; [lia|]. split; [|congruence]. unfold IndicesGet in Eiv. destruct ((b >=? 0) && (b <? zlen ix)) eqn:E; [lia|discriminate].
      * injection He as <-. eexists. split; [reflexivity|]. apply (Hdone b WRecv (s_sim s)); try reflexivity; [discriminate|exact Hsim|].
        unfold cands. cbn [fst snd]. rewrite (filter_ext_in' _ (fun _ => false)); [clear; induction docs; auto|]. intros [x ts] Hin. cbn [snd].
        destruct (Z.eqb_spec (zlen ts) b) as [Eb|]; [|reflexivity]. exfalso. destruct ts as [|t ts]; [change (zlen (@nil term)) with 0 in Eb; lia|].
        pose proof (Hix b t) as Hh. unfold index_holds in Hh. rewrite Eiv in Hh.
        assert (In x (posting_of docs b t)) as Hp; [|rewrite Hh in Hp; destruct Hp]. apply posting_of_In. exists (t :: ts). split; [exact Hin|]. split; [exact Eb|]. apply mem_In'. left. reflexivity.
  - (* search *)
    destruct Hws0 as (v & Hv & -> & HTb & Hb & Hiv). destruct (IndicesGet ix b) as [iv|] eqn:Eiv; [|congruence].
    destruct (search_ok b v iv Hb HTb (just_sim _ _ Hv) Eiv) as (q & Eq & Hq). rewrite Eq in He. injection He as <-. eexists. split; [reflexivity|].
    apply Hrep; [reflexivity| |discriminate]. cbn [wok]. exists v. split; assumption.
  - destruct (s_locked s); [discriminate|]. injection He as <-. eexists. split; [reflexivity|]. apply Hrep; [reflexivity|exact Hws0|discriminate].
  - (* merge *)
    destruct Hws0 as (v & Hv & Hq). destruct (merge_inv _ _ _ _ _ _ HI Hq) as (g' & Eg & _ & HI'). specialize (HI' ltac:(lia)). rewrite Eg in He. injection He as <-. eexists. split; [reflexivity|].
    pose proof (fun v => just_mono _ _ _ _ v HI HI') as Hmono. destruct (Hset WStore) as (l1 & l2 & E1 & E2).
    exists sent, ((b, v) :: fin). cbn [s_ch s_prod s_ws s_glob s_sim]. rewrite E2, E1 in *. split; [exact Hsent|]. split; [|split; [|split; [|split; [|split; [|split]]]]].
    + rewrite Hperm. rewrite !flat_map_app. cbn [flat_map flight app map fst]. apply Permutation_app_head. rewrite <- !app_assoc. apply Permutation_app_head.
      cbn [app]. apply Permutation_cons_app. reflexivity.
    + cbn [flat_map]. eapply inv_perm; [|exact HI']. apply Permutation_app_comm.
    + constructor; [apply Hmono; exact Hv|]. eapply Forall_impl; [|exact Hfin]. intros p Hp. apply Hmono. exact Hp.
    + apply Hmono. exact Hsim.
    + assert (forall w, wok (s_glob s) w -> wok g' w) as Hwm.
      { intros w. destruct w; cbn [wok]; auto; intros (v' & H1 & H2); exists v'; split; try (apply Hmono; exact H1); exact H2. }
      apply Forall_app in Hws. destruct Hws as [W1 W2]. apply Forall_app. split; [eapply Forall_impl; [exact Hwm|exact W1]|]. constructor; [exact I|]. eapply Forall_impl; [exact Hwm|]. exact (Forall_inv_tail W2).
    + intros Hi. apply Hex. apply in_app_iff in Hi. apply in_app_iff. destruct Hi as [Hi|[Hi|Hi]]; [left; exact Hi|congruence|right; right; exact Hi].
    + destruct l1; discriminate.
  - (* raise the similarity *)
    assert (Forall (fun c => score_like (Sc c)) (flat_map cands fin)) as Hsc.
    { apply all_score. apply (Permutation_Forall Hperm), Forall_app in Hpos. destruct Hpos as [_ Hp]. apply Forall_app in Hp. tauto. }
    destruct (store_just _ _ HI Hsc) as (l & El & Hl). rewrite El in He. injection He as <-. eexists. split; [reflexivity|].
    specialize (Hrep WUnlock (s_locked s) eq_refl I ltac:(discriminate)). destruct Hrep as (sent' & fin' & R1 & R2 & R3 & R4 & R5 & R6 & R7 & R8). cbn [s_ch s_prod s_ws s_glob s_sim] in *.
    exists sent', fin'. cbn [s_ch s_prod s_ws s_glob s_sim]. repeat (split; [assumption|]). split; [apply Hl; exact Hsim|]. repeat (split; [assumption|]). exact R8.
  - injection He as <-. eexists. split; [reflexivity|]. apply Hrep; [reflexivity|exact I|discriminate].
  - discriminate.
  - discriminate.
Qed.
Lemma NoDup_snoc' (l : list Z) x : NoDup l -> ~ In x l -> NoDup (l ++ [x]).
Proof. intros H Hx. apply (Permutation_NoDup (Permutation_cons_append l x)). constructor; assumption. Qed.
Lemma send_inv s b p p' : s_prod s <> PWait -> WInv s -> (forall sent, sent_ok (s_prod s) sent -> sent_ok p (sent ++ [b])) ->
  send ix tokens d alpha s b p = Some p' -> exists s', p' = Running s' /\ WInv s'.
Proof.
  intros Hp (sent' & fin & Hsent & Hperm & HI & Hfin & Hsim & Hws & Hex & Hne) Hs. unfold send. destruct (_ <? _); [|discriminate]. intros E. injection E as <-. eexists. split; [reflexivity|].
  exists (sent' ++ [b]), fin. cbn [s_ch s_prod s_ws s_glob s_sim]. split; [apply Hs; exact Hsent|]. split.
  - rewrite <- Permutation_cons_append, Hperm, <- app_assoc. cbn [app]. apply Permutation_middle.
  - repeat (split; [assumption|]). split; [|exact Hne]. intros Hi. destruct (Hex Hi) as [Hc _]. congruence.
Qed.
Lemma goto_inv s p p' : s_prod s <> PWait -> WInv s -> (forall sent, sent_ok (s_prod s) sent -> sent_ok p sent) -> goto s p = Some p' ->
  exists s', p' = Running s' /\ WInv s'.
Proof.
  intros Hp (sent' & fin & Hsent & Hperm & HI & Hfin & Hsim & Hws & Hex & Hne) Hs. unfold goto. intros E. injection E as <-. eexists. split; [reflexivity|].
  exists sent', fin. cbn [s_ch s_prod s_ws s_glob s_sim]. split; [apply Hs; exact Hsent|]. repeat (split; [assumption|]). split; [|exact Hne]. intros Hi. destruct (Hex Hi) as [Hc _]. congruence.
Qed.
Lemma exec_prod_inv s p : WInv s -> exec_prod ix tokens d alpha s = Some p ->
  (exists s', p = Running s' /\ WInv s') \/ (exists r, p = Finished (Ret r) /\ good_any r).
Proof.
  intros HW He. pose proof bmax_lt as Hbm. pose proof Hmin as Hm. rewrite <- bmin_eq in Hm. unfold exec_prod in He.
  destruct (s_prod s) as [i j|i j|i j|] eqn:Ep.
  - left. destruct ((bmin <=? i) || (j <=? bmax)) eqn:E; eapply goto_inv; try exact He; try exact HW; try congruence; rewrite Ep; intros sent (Hn & n & Hn2 & -> & -> & Hr); (split; [exact Hn|]).
    + exists n. split; [lia|]. auto.
    + intros x. rewrite (Hr x). lia.
  - left. destruct (bmin <=? i) eqn:E.
    + eapply send_inv; try exact He; try exact HW; try congruence; rewrite ?Ep; try discriminate. intros sent (Hn & n & Hn2 & -> & -> & Hr). split.
      * apply NoDup_snoc'; [exact Hn|]. rewrite (Hr (A - n)). lia.
      * exists n. split; [lia|]. split; [reflexivity|]. split; [reflexivity|]. intros x. rewrite in_app_iff, (Hr x). cbn [In]. lia.
    + eapply goto_inv; try exact He; try exact HW; try congruence; rewrite ?Ep; intros sent (Hn & n & Hn2 & -> & -> & Hr); (split; [exact Hn|]).
      exists n. split; [lia|]. split; [reflexivity|]. split; [reflexivity|]. intros x. rewrite (Hr x). lia.
  - left. cbn zeta in He. destruct (j <=? bmax) eqn:E.
    + eapply send_inv; try exact He; try exact HW; try congruence; rewrite ?Ep; try discriminate. intros sent (Hn & n & Hn2 & -> & -> & Hr). split.
      * apply NoDup_snoc'; [exact Hn|]. rewrite (Hr (A + 1 + n)). lia.
      * exists (n + 1). split; [lia|]. rewrite !wrapi64_small by lia. split; [lia|]. split; [lia|]. intros x. rewrite in_app_iff, (Hr x). cbn [In]. lia.
    + eapply goto_inv; try exact He; try exact HW; try congruence; rewrite ?Ep; intros sent (Hn & n & Hn2 & -> & -> & Hr); (split; [exact Hn|]).
      exists (n + 1). split; [lia|]. rewrite !wrapi64_small by lia. split; [lia|]. split; [lia|]. intros x. rewrite (Hr x). lia.
  - destruct (forallb gone (s_ws s)) eqn:Eg; [|discriminate]. injection He as <-. right. destruct (finish s HW Ep Eg) as [-> Hgood]. eexists. split; [reflexivity|exact Hgood].
Qed.
(* every run: running with the invariant, or finished with good results *)
Definition Good (p : proc) : Prop :=
  match p with Running s => WInv s | Finished (Ret r) => good_any r | _ => False end.
Lemma exec_good c p p' : Good p -> exec c p = Some p' -> Good p'.
Proof.
  intros HG He. destruct p as [s|r|]; try discriminate. cbn [Good] in HG. destruct c as [|i]; cbn [Suggest.exec] in He.
  - destruct (exec_prod_inv s p' HG He) as [(s' & -> & H)|(r & -> & H)]; exact H.
  - destruct (nth_error (s_ws s) i) as [w|] eqn:E; [|discriminate]. destruct (exec_worker_inv s i w p' HG E He) as (s' & -> & H). exact H.
Qed.
Lemma run_good sched : forall p p', Good p -> run sched p = Some p' -> Good p'.
Proof.
  induction sched as [|c t IH]; intros p p' HG Hr; cbn [Suggest.run] in Hr; [injection Hr as <-; exact HG|].
  destruct (exec c p) as [p1|] eqn:E; [|discriminate]. eapply IH; [|exact Hr]. eapply exec_good; eassumption.
Qed.
Lemma cap_eq : cap = bmax - bmin + 1.
Proof. unfold chan_cap. pose proof bmax_lt. pose proof (zlen_nonneg ix). pose proof bmax_eq. pose proof bmin_eq. rewrite (wrapi64_small (bmax - bmin)) by lia. apply wrapi64_small. lia. Qed.
Lemma start_good : bmin <= bmax -> bmax - bmin < max_chan -> Good start.
Proof.
  intros Hb Hc. unfold Suggest.start. replace (A =? 0) with false by lia. replace ((cap <? 0) || (max_chan <? cap)) with false by (rewrite cap_eq; lia).
  unfold NewTopKQueue. replace (k <? 0) with false by lia. cbn [Good]. exists [], []. cbn [s_ch s_prod s_ws s_glob s_sim app map flat_map]. split; [|split; [|split; [|split; [|split; [|split; [|split]]]]]].
  - split; [constructor|]. exists 0. unfold sizeA. split; [lia|]. split; [lia|]. split; [lia|]. intros x. cbn [In]. lia.
  - generalize (Z.to_nat (Z.min 5 cap)). intros n. assert (flat_map flight (repeat WRecv n) = []) as -> by (induction n; [reflexivity|exact IHn]). constructor.
  - apply new_inv; [exact Hk|]. unfold NewTopKQueue. replace (k <? 0) with false by lia. reflexivity.
  - constructor.
  - left. reflexivity.
  - apply Forall_forall. intros w Hw. apply repeat_spec in Hw. subst w. exact I.
  - intros Hi. apply repeat_spec in Hi. discriminate.
  - rewrite cap_eq. destruct (Z.to_nat (Z.min 5 (bmax - bmin + 1))) eqn:E; [lia|discriminate].
Qed.
End S.
