(** Lemmas about the frequency trie. *)
From Coq Require Import ZifyBool.
From Verif Require Import Base BaseLemmas GoMap Text AnalysisSpec TextProofs TextProofs2 VGram VGramSpec.
Local Open Scope Z_scope.

Definition obs (n : node) : Z * option Z := (nfreq n, nmarker n).
(* what adding the characters [cs] does to the node at path [p] *)
Definition upd (q : Z) (p : list Z) (cs : list (Z * Z)) (old : option (Z * option Z)) : option (Z * option Z) :=
  if starts p (map fst cs) then
    let '(f, m) := match old with Some o => o | None => (0, None) end in
    let i := snd (nth (length p - 1) cs (0, 0)) in
    let m1 := match m with Some m => Some m | None => if q <=? wrap32 (i + 1) then Some 0 else None end in
    let m2 := if Nat.eqb (length p) (length cs)
              then match m1 with Some m => Some (wrap32 (m + 1)) | None => None end else m1 in
    Some (wrap32 (f + 1), m2)
  else old.

Lemma starts_cons c p d l : starts (c :: p) (d :: l) = (c =? d) && starts p l.
Proof. unfold starts. cbn [length firstn beqb]. reflexivity. Qed.
Lemma starts_nil l : starts [] l = true. Proof. reflexivity. Qed.
Lemma starts_cons_nil c p : starts (c :: p) [] = false. Proof. reflexivity. Qed.

Lemma add_obs q cs n : obs (add_node q n cs) = (nfreq n, if Nat.eqb 0 (length cs) then match nmarker n with Some m => Some (wrap32 (m + 1)) | None => None end else nmarker n).
Proof. destruct cs as [|[c i] cs]; reflexivity. Qed.
Lemma find_children n n' p : children n = children n' -> p <> [] -> find_node n p = find_node n' p.
Proof. intros E Hp. destruct p as [|c p]; [congruence|]. cbn [find_node]. rewrite E. reflexivity. Qed.

Lemma find_add q : forall cs n p, p <> [] ->
  option_map obs (find_node (add_node q n cs) p) = upd q p cs (option_map obs (find_node n p)).
Proof.
  induction cs as [|[c0 i0] cs IH]; intros n p Hp.
  - cbn [add_node]. destruct p as [|c p]; [congruence|]. reflexivity.
  - destruct p as [|c p]; [congruence|]. cbn [add_node find_node children]. rewrite (mget_mset Z.eqb Zeqb_ok).
    unfold upd. cbn [map fst]. rewrite starts_cons. rewrite (Z.eqb_sym c c0).
    destruct (Z.eqb_spec c0 c) as [<-|Hne]; [|reflexivity]. cbn [andb].
    set (child := match mget Z.eqb (children n) c0 with Some x => x | None => newNode end).
    set (mk := match nmarker child with Some m => Some m | None => _ end).
    set (child' := Node (children child) mk (wrap32 (nfreq child + 1))).
    destruct p as [|d p].
    + cbn [find_node option_map]. rewrite add_obs. cbn [starts length firstn beqb nth snd Nat.sub].
      assert (match option_map obs match mget Z.eqb (children n) c0 with Some ch => Some ch | None => None end with Some o => o | None => (0, None) end = obs child) as E.
      { unfold child. destruct (mget Z.eqb (children n) c0); reflexivity. }
      rewrite E. unfold obs. unfold child'. cbn [nfreq nmarker]. unfold mk. cbn [Nat.eqb]. reflexivity.
    + rewrite IH by discriminate. unfold upd.
      assert (option_map obs (find_node child' (d :: p)) = option_map obs match mget Z.eqb (children n) c0 with Some ch => find_node ch (d :: p) | None => None end) as E.
      { cbn [find_node]. unfold child'. cbn [children]. unfold child. destruct (mget Z.eqb (children n) c0); reflexivity. }
      rewrite E. cbn [length Nat.sub nth Nat.eqb]. rewrite Nat.sub_0_r. reflexivity.
Qed.

(** histories *)
Definition built (q : Z) (grams : list bytes) : trie := fold_left Add grams (NewFrequencyTrie q).
Lemma built_snoc q gs g : built q (gs ++ [g]) = Add (built q gs) g.
Proof. unfold built. rewrite fold_left_app. reflexivity. Qed.
Lemma built_qMin q gs : qMin (built q gs) = q.
Proof. induction gs as [|g gs IH] using rev_ind; [reflexivity|]. rewrite built_snoc. exact IH. Qed.
Lemma indexed_fst l : forall i, map fst (indexed i l) = map fst l.
Proof. induction l as [|[r b] l IH]; intros i; [reflexivity|]. cbn [indexed map fst]. rewrite IH. reflexivity. Qed.
Lemma indexed_length l : forall i, length (indexed i l) = length l.
Proof. intros i. rewrite <- (map_length fst), indexed_fst, map_length. reflexivity. Qed.

Lemma filter_snoc {A} (f : A -> bool) l x : zlen (filter f (l ++ [x])) = zlen (filter f l) + if f x then 1 else 0.
Proof. rewrite filter_app, zlen_app. cbn [filter]. destruct (f x); reflexivity. Qed.
Lemma passing_snoc p gs g : passing p (gs ++ [g]) = passing p gs + if starts p (characters g) then 1 else 0.
Proof. exact (filter_snoc (fun g => starts p (characters g)) gs g). Qed.
Lemma ending_snoc p gs g : ending p (gs ++ [g]) = ending p gs + if beqb p (characters g) then 1 else 0.
Proof. exact (filter_snoc (fun g => beqb p (characters g)) gs g). Qed.
Lemma passing_nonneg p gs : 0 <= passing p gs. Proof. apply zlen_nonneg. Qed.

Lemma find_built_snoc q gs g p : p <> [] ->
  option_map obs (find_node (root (built q (gs ++ [g]))) p) = upd q p (indexed 0 (runes g)) (option_map obs (find_node (root (built q gs)) p)).
Proof. intros Hp. rewrite built_snoc. unfold Add. cbn [root]. rewrite built_qMin. apply find_add. exact Hp. Qed.

Lemma built_freq q gs p : p <> [] ->
  match option_map obs (find_node (root (built q gs)) p) with
  | None => passing p gs = 0
  | Some (f, _) => f = wrap32 (passing p gs) /\ 0 < passing p gs
  end.
Proof.
  intros Hp. induction gs as [|g gs IH] using rev_ind.
  - destruct p as [|c p]; [congruence|]. reflexivity.
  - rewrite find_built_snoc by exact Hp. rewrite passing_snoc. unfold upd. rewrite indexed_fst. fold (characters g).
    destruct (starts p (characters g)).
    + destruct (option_map obs (find_node (root (built q gs)) p)) as [[f m]|].
      * destruct IH as [-> IH]. rewrite wrap32_add_l. split; [reflexivity|lia].
      * rewrite IH. split; [reflexivity|lia].
    + destruct (option_map obs (find_node (root (built q gs)) p)) as [[f m]|]; [|lia]. rewrite Z.add_0_r. exact IH.
Qed.

(** byte positions in a well-formed string *)
Notation good_gram := valid_text.
Lemma runelen_valid r w : (1 <= w)%nat -> RuneLen r = Z.of_nat w -> valid_rune r = true.
Proof.
  intros Hw. unfold RuneLen, valid_rune. destruct (r <? 0) eqn:E1; [lia|]. destruct (r <? 128) eqn:E2; [lia|]. destruct (r <? 2048) eqn:E3; [lia|].
  destruct ((55296 <=? r) && (r <=? 57343)) eqn:E4; [lia|]. destruct (r <? 65536) eqn:E5; [lia|]. destruct (r <=? 1114111) eqn:E6; lia.
Qed.
Lemma good_step s : s <> [] -> good_gram s ->
  encode_rune (fst (decode_rune s)) = firstn (snd (decode_rune s)) s /\ valid_rune (fst (decode_rune s)) = true /\
  good_gram (skipn (snd (decode_rune s)) s).
Proof.
  intros Hne [Hb Hw]. destruct (well_formed_inv s Hne Hw) as [Hd Hw']. pose proof (decode_good s Hb Hne) as H.
  destruct (decode_rune s) as [r w] eqn:E. cbn [fst snd] in *. destruct H as [[-> ->]|[H1 H2]]; [congruence|].
  split; [exact H1|]. split; [|split; [apply Forall_skipn; exact Hb|exact Hw']].
  pose proof (decode_width s Hne) as Hlen. rewrite E in Hlen. cbn [snd] in Hlen. exact (runelen_valid r w (proj1 Hlen) H2).
Qed.
Lemma runes_good s : good_gram s -> Forall (fun rb => snd rb = encode_rune (fst rb)) (runes s).
Proof.
  induction s as [|s Hne IH] using runes_ind; intros Hg; [constructor|]. rewrite (runes_cons s Hne).
  destruct (good_step s Hne Hg) as (E & _ & Hg'). constructor; [cbn [fst snd]; congruence|]. apply IH. exact Hg'.
Qed.
Lemma runes_valid (s : bytes) : Forall is_byte s -> Forall (fun r => valid_rune r = true) (characters s).
Proof.
  unfold characters. induction s as [|s Hne IH] using runes_ind; intros Hb; [constructor|]. rewrite (runes_cons s Hne). cbn [map fst].
  constructor; [|apply IH; apply Forall_skipn; exact Hb].
  pose proof (decode_good s Hb Hne) as H. pose proof (decode_width s Hne) as Hlen. destruct (decode_rune s) as [r w]. cbn [fst snd] in *.
  destruct H as [[-> _]|[_ H2]]; [reflexivity|]. exact (runelen_valid r w (proj1 Hlen) H2).
Qed.
Lemma last_index_snoc l c : last_index (l ++ [c]) = zlen (concat (map encode_rune l)).
Proof. unfold last_index. rewrite removelast_last. reflexivity. Qed.
(* the indices handed to add_node agree with the path *)
Fixpoint consistent (path : list Z) (cs : list (Z * Z)) : Prop :=
  match cs with
  | [] => True
  | (c, i) :: cs' => i = last_index (path ++ [c]) /\ consistent (path ++ [c]) cs'
  end.
Lemma consistent_runes l : Forall (fun rb : Z * bytes => snd rb = encode_rune (fst rb)) l ->
  forall path, consistent path (indexed (zlen (concat (map encode_rune path))) l).
Proof.
  induction l as [|[r b] l IH]; intros Hl path; [exact I|]. cbn [indexed consistent]. pose proof (Forall_inv Hl) as E. cbn [fst snd] in E.
  split; [symmetry; apply last_index_snoc|]. 
  replace (zlen (concat (map encode_rune path)) + zlen b) with (zlen (concat (map encode_rune (path ++ [r])))).
  - apply IH. exact (Forall_inv_tail Hl).
  - rewrite map_app, concat_app, zlen_app. cbn [map concat]. rewrite app_nil_r, E. reflexivity.
Qed.
Lemma consistent_gram g : good_gram g -> consistent [] (indexed 0 (runes g)).
Proof. intros Hg. apply (consistent_runes (runes g) (runes_good g Hg) []). Qed.
Lemma consistent_nth : forall p path cs, p <> [] -> consistent path cs -> starts p (map fst cs) = true ->
  snd (nth (length p - 1) cs (0, 0)) = last_index (path ++ p).
Proof.
  induction p as [|c p IH]; intros path cs Hp Hc Hs; [congruence|]. destruct cs as [|[d i] cs]; [discriminate|].
  cbn [map fst] in Hs. rewrite starts_cons in Hs. apply andb_prop in Hs. destruct Hs as [Hcd Hs]. apply Z.eqb_eq in Hcd. subst d.
  destruct Hc as [Hi Hc]. destruct p as [|c' p].
  - cbn [length Nat.sub nth snd]. exact Hi.
  - cbn [length Nat.sub nth]. replace (path ++ c :: c' :: p) with ((path ++ [c]) ++ c' :: p) by (rewrite <- app_assoc; reflexivity).
    rewrite <- (IH (path ++ [c]) cs ltac:(discriminate) Hc Hs). cbn [length Nat.sub]. rewrite Nat.sub_0_r. reflexivity.
Qed.
Lemma beqb_starts p l : beqb p l = starts p l && Nat.eqb (length p) (length l).
Proof.
  revert l. induction p as [|c p IH]; intros [|d l]; try reflexivity. cbn [beqb]. rewrite starts_cons, IH. cbn [length Nat.eqb]. rewrite andb_assoc. reflexivity.
Qed.

Lemma ending_passing p gs : 0 < passing p gs \/ ending p gs = 0.
Proof.
  induction gs as [|g gs IH] using rev_ind; [right; reflexivity|]. rewrite passing_snoc, ending_snoc, beqb_starts. pose proof (passing_nonneg p gs).
  destruct (starts p (characters g)); [left; lia|]. cbn [andb]. rewrite !Z.add_0_r. exact IH.
Qed.
Lemma built_marker q gs p : p <> [] -> Forall good_gram gs ->
  match option_map obs (find_node (root (built q gs)) p) with
  | None => True
  | Some (_, m) => m = if q <=? wrap32 (last_index p + 1) then Some (wrap32 (ending p gs)) else None
  end.
Proof.
  intros Hp. induction gs as [|g gs IH] using rev_ind; intros Hg.
  - destruct p as [|c p]; [congruence|]. exact I.
  - apply Forall_app in Hg. destruct Hg as [Hgs Hg]. apply Forall_inv in Hg. specialize (IH Hgs).
    pose proof (built_freq q gs p Hp) as Hf.
    rewrite find_built_snoc by exact Hp. rewrite ending_snoc, beqb_starts. unfold upd. rewrite indexed_fst. fold (characters g).
    destruct (starts p (characters g)) eqn:Es.
    + assert (snd (nth (length p - 1) (indexed 0 (runes g)) (0, 0)) = last_index p) as Ei.
      { apply (consistent_nth p [] _ Hp (consistent_gram g Hg)). rewrite indexed_fst. exact Es. }
      rewrite Ei. rewrite indexed_length. unfold characters. rewrite map_length. cbn [andb].
      destruct (option_map obs (find_node (root (built q gs)) p)) as [[f m]|].
      * rewrite IH. destruct (q <=? wrap32 (last_index p + 1)); destruct (Nat.eqb (length p) (length (runes g))); try reflexivity.
        { rewrite wrap32_add_l. reflexivity. }
        { rewrite Z.add_0_r. reflexivity. }
      * destruct (ending_passing p gs) as [H|H]; [lia|]. rewrite H.
        destruct (q <=? wrap32 (last_index p + 1)); destruct (Nat.eqb (length p) (length (runes g))); reflexivity.
    + destruct (option_map obs (find_node (root (built q gs)) p)) as [[f m]|]; [|exact I]. cbn [andb]. rewrite Z.add_0_r. exact IH.
Qed.
