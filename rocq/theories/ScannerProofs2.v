(** Proofs about Scanner: lines and sentences. *)
From Coq Require Import ZifyBool.
From Verif Require Import Base BaseLemmas Text TextProofs TextProofs2 Scanner ScannerSpec ScannerProofs.
Local Open Scope Z_scope.
Opaque M.

(** ** Lines *)
Lemma index_nl_app d e i : index_nl d = Some i -> index_nl (d ++ e) = Some i.
Proof.
  revert i. induction d as [|c d IH]; intros i; cbn [index_nl app]; [discriminate|]. destruct (c =? 10); [auto|].
  destruct (index_nl d) as [j|]; [|discriminate]. cbn [option_map]. intros [= <-]. rewrite (IH j eq_refl). reflexivity.
Qed.
Lemma index_nl_lt d i : index_nl d = Some i -> (i < length d)%nat.
Proof.
  revert i. induction d as [|c d IH]; intros i; cbn [index_nl length]; [discriminate|]. destruct (c =? 10); [intros [= <-]; lia|].
  destruct (index_nl d) as [j|]; [|discriminate]. cbn [option_map]. intros [= <-]. specialize (IH j eq_refl). lia.
Qed.
Lemma index_nl_firstn d n : forall i, index_nl d = Some i -> (i < n)%nat -> index_nl (firstn n d) = Some i.
Proof.
  revert n. induction d as [|c d IH]; intros n i; cbn [index_nl]; [discriminate|]. intros E Hn. destruct n as [|n]; [lia|]. cbn [firstn index_nl].
  destruct (c =? 10); [exact E|]. destruct (index_nl d) as [j|] eqn:Ej; [|discriminate]. cbn [option_map] in *. injection E as <-. rewrite (IH n j eq_refl) by lia. reflexivity.
Qed.
Lemma index_nl_none_firstn d n : index_nl d = None -> index_nl (firstn n d) = None.
Proof.
  revert n. induction d as [|c d IH]; intros n; cbn [index_nl]; [intros; rewrite firstn_nil; reflexivity|]. destruct (c =? 10) eqn:E; [discriminate|].
  destruct (index_nl d) eqn:Ed; [discriminate|]. intros _. destruct n; [reflexivity|]. cbn [firstn index_nl]. rewrite E, (IH n eq_refl). reflexivity.
Qed.
Lemma index_nl_ge_firstn d n : forall i, index_nl d = Some i -> (n <= i)%nat -> index_nl (firstn n d) = None.
Proof.
  revert n. induction d as [|c d IH]; intros n i; cbn [index_nl]; [discriminate|]. destruct (c =? 10) eqn:E; [intros [= <-] ?; replace n with O by lia; reflexivity|].
  destruct (index_nl d) as [j|] eqn:Ed; [|discriminate]. intros [= <-] Hn. destruct n; [reflexivity|]. cbn [firstn index_nl]. rewrite E, (IH n j eq_refl) by lia. reflexivity.
Qed.
Lemma lines_H1 d b a t : ScanLines d b = (a, t) -> (a <= length d)%nat.
Proof.
  unfold ScanLines. destruct (b && _); [intros [= <- _]; lia|]. destruct (index_nl d) as [i|] eqn:E; [intros [= <- _]; apply index_nl_lt in E; lia|].
  destruct b; intros [= <- _]; lia.
Qed.
Lemma lines_H2 d a t : ScanLines d false = (a, Some t) -> forall e b, ScanLines (d ++ e) b = (a, Some t).
Proof.
  unfold ScanLines. cbn [andb]. destruct (index_nl d) as [i|] eqn:E; [|discriminate]. intros [= <- <-] e b. pose proof (index_nl_lt _ _ E) as Hi.
  destruct (b && (zlen (d ++ e) =? 0)) eqn:Eb; [rewrite zlen_app in Eb; pose proof (zlen_nonneg e); unfold zlen in *; lia|].
  rewrite (index_nl_app _ e _ E). rewrite firstn_app. replace (i - length d)%nat with O by lia. cbn [firstn]. rewrite app_nil_r. reflexivity.
Qed.
Lemma lines_H3 d a : ScanLines d false = (a, None) -> forall e b, ScanLines (d ++ e) b = let '(a', t) := ScanLines (skipn a d ++ e) b in ((a + a')%nat, t).
Proof.
  unfold ScanLines at 1. cbn [andb]. destruct (index_nl d); [discriminate|]. intros [= <-] e b. cbn [skipn Nat.add]. destruct (ScanLines (d ++ e) b); reflexivity.
Qed.
Lemma lines_H4 d b a t : ScanLines d b = (a, Some t) -> (0 < a)%nat.
Proof.
  unfold ScanLines. destruct (b && (zlen d =? 0)) eqn:Eb; [discriminate|]. destruct (index_nl d) as [i|]; [intros [= <- _]; lia|]. destruct b; [|discriminate].
  intros [= <- _]. cbn [andb] in Eb. unfold zlen in Eb. lia.
Qed.
Lemma cut_lines_nl t : forall i cur, index_nl t = Some i -> cut_lines t cur = (cur ++ firstn i t) :: cut_lines (skipn (S i) t) [].
Proof.
  induction t as [|c t IH]; intros i cur; cbn [index_nl]; [discriminate|]. cbn [cut_lines]. destruct (c =? 10).
  - intros [= <-]. cbn [firstn skipn]. rewrite app_nil_r. reflexivity.
  - destruct (index_nl t) as [j|]; [|discriminate]. cbn [option_map]. intros [= <-]. rewrite (IH j (cur ++ [c]) eq_refl). cbn [firstn skipn]. rewrite <- app_assoc. reflexivity.
Qed.
Lemma cut_lines_last t : forall cur, index_nl t = None -> cut_lines t cur = match cur ++ t with [] => [] | l => [l] end.
Proof.
  induction t as [|c t IH]; intros cur; cbn [index_nl cut_lines]; [intros _; rewrite app_nil_r; destruct cur; reflexivity|]. destruct (c =? 10); [discriminate|].
  destruct (index_nl t); [discriminate|]. intros _. rewrite IH by reflexivity. rewrite <- app_assoc. reflexivity.
Qed.
Definition lines_result (R : bytes) : list bytes * res unit :=
  (map without_cr (while line_fits (raw_lines R)), if forallb line_fits (raw_lines R) then Ret tt else Fail ErrTooLong).
Lemma lines_ideal : forall n R, (length R < n)%nat -> ideal ScanLines R = lines_result R.
Proof.
  induction n as [|n IH]; intros R Hn; [lia|]. rewrite (ideal_eq _ lines_H1 lines_H4). pose proof M_val as HM. unfold lines_result, raw_lines.
  assert (forall i, index_nl R = Some i -> (i < M)%nat ->
     cons_tok (dropCR (firstn i R)) (ideal ScanLines (skipn (S i) R)) = (map without_cr (while line_fits (cut_lines R [])), if forallb line_fits (cut_lines R []) then Ret tt else Fail ErrTooLong)) as Hcons.
  { intros i E Hi. pose proof (index_nl_lt _ _ E). rewrite (cut_lines_nl _ _ [] E). cbn [app while forallb]. assert (line_fits (firstn i R) = true) as -> by (unfold line_fits, zlen; rewrite firstn_length; lia).
    cbn [andb map]. rewrite (IH (skipn (S i) R)) by (rewrite skipn_length; lia). reflexivity. }
  destruct (length R <? M)%nat eqn:El.
  - unfold ScanLines at 1. cbn [andb]. destruct (zlen R =? 0) eqn:Ez.
    + destruct R; [reflexivity|]. rewrite zlen_cons in Ez. pose proof (zlen_nonneg R). lia.
    + destruct (index_nl R) as [i|] eqn:E; [apply Hcons; [reflexivity|]; apply index_nl_lt in E; lia|].
      rewrite (cut_lines_last _ [] E). cbn [app]. destruct R as [|c R]; [discriminate|]. cbn [while forallb]. assert (line_fits (c :: R) = true) as -> by (unfold line_fits, zlen; apply Z.ltb_lt; apply Nat.ltb_lt in El; lia).
      rewrite skipn_all. reflexivity.
  - unfold ScanLines at 1. cbn [andb]. destruct (index_nl R) as [i|] eqn:E.
    + destruct (le_lt_dec M i) as [Hi|Hi].
      * rewrite (index_nl_ge_firstn _ _ _ E Hi). cbn [Nat.eqb]. rewrite (cut_lines_nl _ _ [] E). cbn [app while forallb]. pose proof (index_nl_lt _ _ E).
        assert (line_fits (firstn i R) = false) as -> by (unfold line_fits, zlen; rewrite firstn_length; lia). reflexivity.
      * rewrite (index_nl_firstn _ _ _ E Hi). rewrite firstn_firstn. replace (Nat.min i M) with i by lia. apply Hcons; auto.
    + rewrite (index_nl_none_firstn _ _ E). cbn [Nat.eqb]. rewrite (cut_lines_last _ [] E). cbn [app]. destruct R as [|c R]; [apply Nat.ltb_ge in El; cbn [length] in El; lia|].
      cbn [while forallb]. assert (line_fits (c :: R) = false) as -> by (unfold line_fits, zlen; apply Z.ltb_ge; apply Nat.ltb_ge in El; lia). reflexivity.
Qed.
Theorem scan_lines text chunk fuel : (2 * length text + 1 < fuel)%nat -> scan_all ScanLines chunk fuel (NewScanner text) = lines_result text.
Proof. intros Hf. rewrite (scanner_ideal _ chunk lines_H1 lines_H2 lines_H3 lines_H4) by exact Hf. apply (lines_ideal (S (length text))). lia. Qed.

(** ** Sentences *)
Definition is_cont (b : Z) : Prop := 128 <= b <= 191.
Lemma cont_is lo hi b : cont lo hi b = true -> 128 <= lo -> hi <= 191 -> is_cont b.
Proof. unfold cont, is_cont. lia. Qed.
Lemma decode_ext s e : s <> [] -> decode_rune (s ++ e) = decode_rune s \/ (decode_rune s = (RuneError, 1%nat) /\ Forall is_cont (tl s)).
Proof.
  destruct s as [|a s]; [congruence|]. intros _. cbn [app tl]. unfold decode_rune.
  destruct (a <? 128); [auto|]. destruct (a <? 194); [auto|]. destruct (a <? 224).
  { destruct s as [|b s]; cbn [app]; [right; split; [reflexivity|constructor]|auto]. }
  destruct (a <? 240).
  { set (lo := if a =? 224 then 160 else 128). set (hi := if a =? 237 then 159 else 191).
    assert (128 <= lo /\ hi <= 191) as [Hlo Hhi] by (unfold lo, hi; destruct (a =? 224), (a =? 237); lia).
    destruct s as [|b [|c s]]; cbn [app]; [right; split; [reflexivity|constructor]| |auto].
    destruct e as [|c e]; [auto|]. destruct (cont lo hi b && cont 128 191 c) eqn:E; [|auto]. right. split; [reflexivity|].
    apply andb_prop in E. constructor; [|constructor]. apply (cont_is lo hi); [apply E|exact Hlo|exact Hhi]. }
  destruct (a <? 245); [|auto].
  set (lo := if a =? 240 then 144 else 128). set (hi := if a =? 244 then 143 else 191).
  assert (128 <= lo /\ hi <= 191) as [Hlo Hhi] by (unfold lo, hi; destruct (a =? 240), (a =? 244); lia).
  destruct s as [|b [|c [|d s]]]; cbn [app]; [right; split; [reflexivity|constructor]| | |auto].
  - destruct e as [|c [|d e]]; [auto|auto|]. destruct (cont lo hi b && cont 128 191 c && cont 128 191 d) eqn:E; [|auto]. right. split; [reflexivity|].
    apply andb_prop in E. destruct E as [E E3]. apply andb_prop in E. constructor; [|constructor]. apply (cont_is lo hi); [apply E|exact Hlo|exact Hhi].
  - destruct e as [|d e]; [auto|]. destruct (cont lo hi b && cont 128 191 c && cont 128 191 d) eqn:E; [|auto]. right. split; [reflexivity|].
    apply andb_prop in E. destruct E as [E E3]. apply andb_prop in E. constructor; [|constructor; [|constructor]]; [apply (cont_is lo hi); [apply E|exact Hlo|exact Hhi]|apply (cont_is 128 191); [apply E|lia|lia]].
Qed.
Lemma decode_restrict s e : s <> [] -> (snd (decode_rune (s ++ e)) <= length s)%nat -> decode_rune s = decode_rune (s ++ e).
Proof.
  destruct s as [|a s]; [congruence|]. intros _. cbn [app length]. unfold decode_rune.
  destruct (a <? 128); [auto|]. destruct (a <? 194); [auto|]. destruct (a <? 224).
  { destruct s as [|b s]; cbn [app length]; [|auto]. destruct e as [|b e]; [auto|]. destruct (cont 128 191 b); cbn [snd]; [lia|auto]. }
  destruct (a <? 240).
  { set (lo := if a =? 224 then 160 else 128). set (hi := if a =? 237 then 159 else 191).
    destruct s as [|b [|c s]]; cbn [app length]; [| |auto]; [destruct e as [|b [|c e]]|destruct e as [|c e]]; auto; destruct (cont lo hi b && cont 128 191 c); cbn [snd]; auto; lia. }
  destruct (a <? 245); [|auto].
  set (lo := if a =? 240 then 144 else 128). set (hi := if a =? 244 then 143 else 191).
  destruct s as [|b [|c [|d s]]]; cbn [app length]; [| | |auto]; [destruct e as [|b [|c [|d e]]]|destruct e as [|c [|d e]]|destruct e as [|d e]]; auto;
    destruct (cont lo hi b && cont 128 191 c && cont 128 191 d); cbn [snd]; auto; lia.
Qed.
Lemma decode_width4 s : (snd (decode_rune s) <= 4)%nat.
Proof.
  destruct s as [|a s]; [cbn; lia|]. unfold decode_rune. destruct (a <? 128); [cbn; lia|]. destruct (a <? 194); [cbn; lia|]. destruct (a <? 224).
  { destruct s as [|b s]; [cbn; lia|]. destruct (cont _ _ _); cbn [snd]; lia. }
  destruct (a <? 240).
  { destruct s as [|b [|c s]]; [cbn; lia|cbn; lia|]. destruct (_ && _); cbn [snd]; lia. }
  destruct (a <? 245); [|cbn; lia]. destruct s as [|b [|c [|d s]]]; [cbn; lia|cbn; lia|cbn; lia|]. destruct (_ && _); cbn [snd]; lia.
Qed.
Lemma decode_cont b s : is_cont b -> decode_rune (b :: s) = (RuneError, 1%nat).
Proof. unfold is_cont, decode_rune. intros Hb. destruct (b <? 128) eqn:E1; [lia|]. destruct (b <? 194) eqn:E2; [reflexivity|lia]. Qed.

Section Sentence.
Context (has : Z -> bool) (Hre : has RuneError = false).
Fixpoint skip_r (rs : list (Z * bytes)) : nat :=
  match rs with (r, b) :: rs' => if has r then (length b + skip_r rs')%nat else O | [] => O end.
Fixpoint find_r (rs : list (Z * bytes)) : option (nat * nat) :=
  match rs with
  | (r, b) :: rs' => if has r then Some (O, length b) else match find_r rs' with Some (i, w) => Some ((length b + i)%nat, w) | None => None end
  | [] => None
  end.
Lemma decode_firstn s : s <> [] -> length (firstn (snd (decode_rune s)) s) = snd (decode_rune s).
Proof. intros H. pose proof (decode_width s H). rewrite firstn_length. lia. Qed.
Lemma skip_seps_ok data : forall fuel start, (length data - start < fuel)%nat -> skip_seps has fuel data start = (start + skip_r (runes (skipn start data)))%nat.
Proof.
  induction fuel as [|f IH]; intros start Hf; [lia|]. cbn [skip_seps]. destruct (skipn start data) as [|c t] eqn:E; [cbn; lia|].
  assert (c :: t <> []) as Hne by discriminate. pose proof (decode_width _ Hne) as Hw. rewrite (runes_cons _ Hne). pose proof (decode_firstn _ Hne) as Hl. rewrite <- E in *. set (s := skipn start data) in *.
  destruct (decode_rune s) as [r w] eqn:Ed. cbn [fst snd skip_r] in *. destruct (has r); [|lia]. assert (length s = length data - start)%nat by (unfold s; apply skipn_length).
  rewrite IH by lia. rewrite Hl. unfold s. rewrite skipn_add. lia.
Qed.
Lemma find_sep_ok data : forall fuel i, (length data - i < fuel)%nat ->
  find_sep has fuel data i = match find_r (runes (skipn i data)) with Some (j, w) => Some ((i + j)%nat, w) | None => None end.
Proof.
  induction fuel as [|f IH]; intros i Hf; [lia|]. cbn [find_sep]. destruct (skipn i data) as [|c t] eqn:E; [reflexivity|].
  assert (c :: t <> []) as Hne by discriminate. pose proof (decode_width _ Hne) as Hw. rewrite (runes_cons _ Hne). pose proof (decode_firstn _ Hne) as Hl. rewrite <- E in *. set (s := skipn i data) in *.
  destruct (decode_rune s) as [r w] eqn:Ed. cbn [fst snd find_r] in *. rewrite Hl. destruct (has r); [f_equal; f_equal; lia|]. assert (length s = length data - i)%nat by (unfold s; apply skipn_length).
  rewrite IH by lia. unfold s. rewrite skipn_add. destruct (find_r _) as [[j w']|]; [|reflexivity]. f_equal. f_equal. lia.
Qed.
(** the split function in terms of runes *)
Definition split_r (data : bytes) (atEOF : bool) : nat * option bytes :=
  let start := skip_r (runes data) in
  let rest := skipn start data in
  match find_r (runes rest) with
  | Some (i, w) => ((start + (i + w))%nat, Some (firstn i rest))
  | None => if atEOF then match rest with [] => (start, None) | _ => ((start + length rest)%nat, Some rest) end else (start, None)
  end.
Lemma skip_r_le s : (skip_r (runes s) <= length s)%nat.
Proof.
  induction s as [|s Hne IH] using runes_ind; [cbn; lia|]. pose proof (decode_width _ Hne) as Hw. rewrite (runes_cons _ Hne). pose proof (decode_firstn _ Hne) as Hl. cbn [skip_r]. rewrite Hl.
  destruct (has (fst _)); [|lia]. rewrite skipn_length in IH. lia.
Qed.
Lemma split_ok data b : scanSentence has data b = split_r data b.
Proof.
  unfold scanSentence, split_r. rewrite skip_seps_ok by lia. cbn [skipn Nat.add]. set (start := skip_r (runes data)). pose proof (skip_r_le data) as Hs. fold start in Hs.
  rewrite find_sep_ok by lia. destruct (find_r _) as [[i w]|]; [f_equal; [lia|]; f_equal; f_equal; lia|].
  destruct b; cbn [andb]; [|reflexivity]. pose proof (skipn_length start data) as Hl. destruct (start <? length data)%nat eqn:E.
  - destruct (skipn start data) as [|c t]; [cbn in Hl; lia|]. f_equal. lia.
  - destruct (skipn start data); [reflexivity|cbn in Hl; lia].
Qed.
Lemma find_r_bound s i w : find_r (runes s) = Some (i, w) -> (i + w <= length s)%nat /\ (1 <= w)%nat.
Proof.
  revert i w. induction s as [|s Hne IH] using runes_ind; intros i w; [discriminate|]. pose proof (decode_width _ Hne) as Hw. rewrite (runes_cons _ Hne). pose proof (decode_firstn _ Hne) as Hl. cbn [find_r]. rewrite Hl.
  destruct (has (fst _)); [intros [= <- <-]; lia|]. destruct (find_r _) as [[j w']|]; [|discriminate]. intros [= <- <-]. specialize (IH j w' eq_refl). rewrite skipn_length in IH. lia.
Qed.
Lemma find_r_cont (s : bytes) : Forall is_cont s -> find_r (runes s) = None.
Proof.
  induction s as [|s Hne IH] using runes_ind; intros H; [reflexivity|]. rewrite (runes_cons _ Hne). destruct s as [|b t]; [congruence|]. pose proof (Forall_inv H) as Hb. pose proof (Forall_inv_tail H) as Ht.
  rewrite (decode_cont b t Hb) in *. cbn [fst snd find_r firstn skipn length] in *. rewrite Hre, (IH Ht). reflexivity.
Qed.
Lemma skipn_app_le {A} n (s e : list A) : (n <= length s)%nat -> skipn n (s ++ e) = skipn n s ++ e.
Proof. intros H. rewrite skipn_app. replace (n - length s)%nat with O by lia. reflexivity. Qed.
Lemma firstn_app_le {A} n (s e : list A) : (n <= length s)%nat -> firstn n (s ++ e) = firstn n s.
Proof. intros H. rewrite firstn_app. replace (n - length s)%nat with O by lia. cbn [firstn]. apply app_nil_r. Qed.
(* a separator found stays found *)
Lemma find_r_app (s e : bytes) i w : find_r (runes s) = Some (i, w) -> find_r (runes (s ++ e)) = Some (i, w).
Proof.
  revert i w. induction s as [|s Hne IH] using runes_ind; intros i w; [discriminate|]. pose proof (decode_width _ Hne) as Hw.
  assert (s ++ e <> []) as Hne' by (destruct s; [congruence|discriminate]).
  destruct (decode_ext s e Hne) as [E|[E Hc]].
  - rewrite (runes_cons _ Hne), (runes_cons _ Hne'), E. rewrite skipn_app_le, firstn_app_le by lia. cbn [find_r]. destruct (has (fst _)); [auto|].
    destruct (find_r (runes (skipn _ s))) as [[j w']|]; [|discriminate]. rewrite (IH j w' eq_refl). auto.
  - rewrite (runes_cons _ Hne), E. cbn [fst snd find_r]. rewrite Hre. destruct s as [|b t]; [congruence|]. cbn [skipn tl] in *. rewrite (find_r_cont t Hc). discriminate.
Qed.
(* ... and was there already if it lies within the prefix *)
Lemma find_r_restrict (s e : bytes) i w : find_r (runes (s ++ e)) = Some (i, w) -> (i + w <= length s)%nat -> find_r (runes s) = Some (i, w).
Proof.
  revert i w. induction s as [|s Hne IH] using runes_ind; intros i w; [intros E; apply find_r_bound in E; cbn [length]; lia|]. pose proof (decode_width _ Hne) as Hw.
  assert (s ++ e <> []) as Hne' by (destruct s; [congruence|discriminate]). rewrite (runes_cons _ Hne'). pose proof (decode_firstn _ Hne') as Hl. cbn [find_r]. rewrite Hl.
  intros E Hb. assert (snd (decode_rune (s ++ e)) <= length s)%nat as Hle.
  { destruct (has (fst _)); [injection E as <- <-; lia|]. destruct (find_r (runes (skipn _ (s ++ e)))) as [[j w']|]; [|discriminate]. injection E as <- <-. lia. }
  pose proof (decode_restrict s e Hne Hle) as Er. rewrite <- Er in *. rewrite (runes_cons _ Hne). cbn [find_r]. rewrite (decode_firstn _ Hne). destruct (has (fst _)); [exact E|].
  rewrite skipn_app_le in E by lia. destruct (find_r (runes (skipn _ s ++ e))) as [[j w']|] eqn:Ej; [|discriminate]. injection E as <- <-. rewrite (IH j w' eq_refl) by (rewrite skipn_length; lia). reflexivity.
Qed.
(* skipped separators are skipped *)
Lemma skip_app (s e : bytes) : skip_r (runes (s ++ e)) = (skip_r (runes s) + skip_r (runes (skipn (skip_r (runes s)) s ++ e)))%nat.
Proof.
  induction s as [|s Hne IH] using runes_ind; [reflexivity|]. pose proof (decode_width _ Hne) as Hw.
  assert (s ++ e <> []) as Hne' by (destruct s; [congruence|discriminate]).
  rewrite (runes_cons _ Hne). cbn [skip_r]. rewrite (decode_firstn _ Hne). destruct (has (fst (decode_rune s))) eqn:Eh; [|reflexivity].
  destruct (decode_ext s e Hne) as [E|[E _]]; [|rewrite E in Eh; cbn [fst] in Eh; congruence].
  rewrite (runes_cons _ Hne') at 1. rewrite E. cbn [skip_r]. rewrite Eh, firstn_app_le, skipn_app_le by lia. rewrite (decode_firstn _ Hne), IH, skipn_add. lia.
Qed.
Lemma skip_idem (s : bytes) : skip_r (runes (skipn (skip_r (runes s)) s)) = O.
Proof. pose proof (skip_app s []) as H. rewrite !app_nil_r in H. lia. Qed.
(* a rune that is not a separator stays one, if a separator follows *)
Lemma skip_stop (s e : bytes) i w : skip_r (runes s) = O -> find_r (runes s) = Some (i, w) -> skip_r (runes (s ++ e)) = O.
Proof.
  destruct s as [|c t]; [discriminate|]. set (s := c :: t) in *. assert (s <> []) as Hne by discriminate. assert (s ++ e <> []) as Hne' by discriminate. pose proof (decode_width _ Hne) as Hw.
  rewrite (runes_cons _ Hne), (runes_cons _ Hne'). cbn [skip_r find_r]. rewrite (decode_firstn _ Hne). destruct (decode_ext s e Hne) as [E|[E Hc]].
  - rewrite E. destruct (has (fst _)); [lia|reflexivity].
  - rewrite E. cbn [fst snd]. rewrite Hre. cbn [skipn]. unfold s in Hc |- *. cbn [tl skipn] in *. rewrite (find_r_cont t Hc). discriminate.
Qed.
Lemma sent_H1 d b a t : scanSentence has d b = (a, t) -> (a <= length d)%nat.
Proof.
  rewrite split_ok. unfold split_r. pose proof (skip_r_le d) as Hs. set (start := skip_r (runes d)) in *. pose proof (skipn_length start d) as Hl.
  destruct (find_r _) as [[i w]|] eqn:E; [intros [= <- _]; apply find_r_bound in E; lia|]. destruct b; [|intros [= <- _]; lia].
  destruct (skipn start d); intros [= <- _]; [lia|]. cbn [length] in *. lia.
Qed.
Lemma sent_H4 d b a t : scanSentence has d b = (a, Some t) -> (0 < a)%nat.
Proof.
  rewrite split_ok. unfold split_r. destruct (find_r _) as [[i w]|] eqn:E; [intros [= <- _]; apply find_r_bound in E; lia|]. destruct b; [|discriminate].
  destruct (skipn _ d); [discriminate|]. intros [= <- _]. cbn [length]. lia.
Qed.
Lemma sent_H3 d a : scanSentence has d false = (a, None) -> forall e b, scanSentence has (d ++ e) b = let '(a', t) := scanSentence has (skipn a d ++ e) b in ((a + a')%nat, t).
Proof.
  rewrite split_ok. unfold split_r. destruct (find_r _) as [[i w]|] eqn:E; [discriminate|]. intros [= <-] e b. clear E. rewrite !split_ok. unfold split_r. pose proof (skip_r_le d) as Hs.
  rewrite skip_app. set (start := skip_r (runes d)) in *. set (s2 := skip_r (runes (skipn start d ++ e))).
  rewrite skipn_add, skipn_app_le by lia. destruct (find_r _) as [[i w]|]; [f_equal; lia|]. destruct b; [|reflexivity].
  destruct (skipn s2 (skipn start d ++ e)) as [|c t]; [reflexivity|]. f_equal. lia.
Qed.
Lemma sent_H2 d a t : scanSentence has d false = (a, Some t) -> forall e b, scanSentence has (d ++ e) b = (a, Some t).
Proof.
  rewrite split_ok. unfold split_r. destruct (find_r _) as [[i w]|] eqn:E; [|discriminate]. intros [= <- <-] e b. rewrite split_ok. unfold split_r. pose proof (skip_r_le d) as Hs.
  rewrite skip_app. pose proof (skip_idem d) as Hi. set (start := skip_r (runes d)) in *. pose proof (find_r_bound _ _ _ E) as Hb.
  rewrite (skip_stop _ e _ _ Hi E). rewrite Nat.add_0_r, skipn_app_le by lia. rewrite (find_r_app _ e _ _ E). rewrite firstn_app_le by lia. reflexivity.
Qed.
(* the pieces, in terms of the split function *)
Lemma zlen_firstn_decode s : s <> [] -> zlen (firstn (snd (decode_rune s)) s) = Z.of_nat (snd (decode_rune s)).
Proof. intros H. unfold zlen. rewrite decode_firstn by exact H. reflexivity. Qed.
Lemma cut_find (s : bytes) : forall cur, cut_text has (runes s) cur =
  match find_r (runes s) with Some (i, w) => (cur ++ firstn i s, Z.of_nat w) :: cut_text has (runes (skipn (i + w) s)) [] | None => [(cur ++ s, 1)] end.
Proof.
  induction s as [|s Hne IH] using runes_ind; intros cur; [cbn; rewrite app_nil_r; reflexivity|]. pose proof (decode_width _ Hne) as Hw. rewrite (runes_cons _ Hne). cbn [cut_text find_r]. rewrite (decode_firstn _ Hne).
  destruct (has (fst _)); [cbn [firstn Nat.add]; rewrite app_nil_r, zlen_firstn_decode by exact Hne; reflexivity|].
  rewrite IH. set (w0 := snd (decode_rune s)) in *. destruct (find_r _) as [[i w]|].
  - rewrite <- app_assoc. f_equal; [f_equal; f_equal|rewrite <- Nat.add_assoc, (skipn_add s w0 (i + w)); reflexivity].
    rewrite <- (firstn_skipn w0 s) at 3. rewrite firstn_app, firstn_length. replace (Nat.min w0 (length s)) with w0 by lia. rewrite firstn_all2 with (n := (w0 + i)%nat) by (rewrite firstn_length; lia). f_equal. f_equal. lia.
  - rewrite <- app_assoc, firstn_skipn. reflexivity.
Qed.
Lemma pieces_skip (s : bytes) : pieces has s = pieces has (skipn (skip_r (runes s)) s).
Proof.
  induction s as [|s Hne IH] using runes_ind; [reflexivity|]. pose proof (decode_width _ Hne) as Hw. rewrite (runes_cons _ Hne). cbn [skip_r]. rewrite (decode_firstn _ Hne).
  destruct (has (fst (decode_rune s))) eqn:Eh; [|reflexivity]. rewrite skipn_add, <- IH. unfold pieces at 1. rewrite (runes_cons _ Hne). cbn [cut_text]. rewrite Eh. cbn [filter fst]. reflexivity.
Qed.
Lemma find_pos s i w : skip_r (runes s) = O -> find_r (runes s) = Some (i, w) -> (0 < i)%nat.
Proof.
  destruct s as [|c t]; [discriminate|]. set (s := c :: t). assert (s <> []) as Hne by discriminate. clearbody s. pose proof (decode_width _ Hne) as Hw. rewrite (runes_cons _ Hne). cbn [skip_r find_r]. rewrite (decode_firstn _ Hne).
  destruct (has (fst _)); [intros; lia|]. intros _. destruct (find_r _) as [[j w']|]; [|discriminate]. intros [= <- _]. lia.
Qed.
Lemma pieces_find (s : bytes) : skip_r (runes s) = O -> pieces has s =
  match find_r (runes s) with Some (i, w) => (firstn i s, Z.of_nat w) :: pieces has (skipn (i + w) s) | None => match s with [] => [] | _ => [(s, 1)] end end.
Proof.
  intros H0. unfold pieces at 1. rewrite cut_find. destruct (find_r (runes s)) as [[i w]|] eqn:E.
  - pose proof (find_pos _ _ _ H0 E) as Hp. pose proof (find_r_bound _ _ _ E) as Hb. cbn [filter app fst]. assert (negb (zlen (firstn i s) =? 0) = true) as -> by (unfold zlen; rewrite firstn_length; lia). reflexivity.
  - cbn [filter app fst]. destruct s as [|c t]; [reflexivity|]. assert (negb (zlen (c :: t) =? 0) = true) as ->; [|reflexivity]. rewrite zlen_cons. pose proof (zlen_nonneg t). lia.
Qed.
Definition sentences_result (R : bytes) : list bytes * res unit :=
  (map fst (while piece_fits (pieces has R)), if forallb piece_fits (pieces has R) then Ret tt else Fail ErrTooLong).
Lemma result_cons p ps : piece_fits p = true ->
  (map fst (while piece_fits (p :: ps)), if forallb piece_fits (p :: ps) then Ret tt else Fail ErrTooLong)
  = cons_tok (fst p) (map fst (while piece_fits ps), if forallb piece_fits ps then Ret tt else Fail ErrTooLong).
Proof. intros E. cbn [while forallb]. rewrite E. reflexivity. Qed.
Lemma sentences_ideal : forall n R, (length R < n)%nat -> ideal (scanSentence has) R = sentences_result R.
Proof.
  induction n as [|n IH]; intros R Hn; [lia|]. rewrite (ideal_eq _ sent_H1 sent_H4). pose proof M_val as HM.
  destruct (length R <? M)%nat eqn:El.
  - rewrite split_ok. unfold split_r. pose proof (skip_r_le R) as Hs. pose proof (skip_idem R) as Hi. unfold sentences_result. rewrite (pieces_skip R). set (start := skip_r (runes R)) in *. pose proof (skipn_length start R) as Hsl. rewrite (pieces_find _ Hi).
    set (rest := skipn start R) in *. destruct (find_r (runes rest)) as [[i w]|] eqn:Ef.
    + pose proof (find_r_bound _ _ _ Ef) as Hb. rewrite skipn_add. fold rest. rewrite result_cons by (unfold piece_fits, zlen; cbn [fst snd]; rewrite firstn_length; lia). cbn [fst].
      rewrite (IH (skipn (i + w) rest)) by (rewrite skipn_length; lia). reflexivity.
    + destruct rest as [|c t] eqn:Er; [reflexivity|]. rewrite skipn_add. fold rest. rewrite Er, skipn_all. rewrite result_cons by (unfold piece_fits, zlen; cbn [fst snd]; lia). cbn [fst]. reflexivity.
  - destruct (scanSentence has (firstn M R) false) as [a [t|]] eqn:E.
    + pose proof (sent_H1 _ _ _ _ E) as Ha. rewrite firstn_length in Ha. pose proof (sent_H4 _ _ _ _ E) as Hp.
      pose proof (sent_H2 _ _ _ E (skipn M R) false) as E2. rewrite firstn_skipn in E2.
      rewrite (IH (skipn a R)) by (rewrite skipn_length; lia).
      rewrite split_ok in E2. unfold split_r in E2. pose proof (skip_r_le R) as Hs. pose proof (skip_idem R) as Hi. unfold sentences_result at 2. rewrite (pieces_skip R). set (start := skip_r (runes R)) in *. pose proof (skipn_length start R) as Hsl. rewrite (pieces_find _ Hi).
      set (rest := skipn start R) in *. destruct (find_r (runes rest)) as [[i w]|] eqn:Ef; [|discriminate]. injection E2 as <- <-. pose proof (find_r_bound _ _ _ Ef) as Hb.
      rewrite skipn_add. fold rest. rewrite result_cons by (unfold piece_fits, zlen; cbn [fst snd]; rewrite firstn_length; lia). reflexivity.
    + destruct (Nat.eqb_spec a 0) as [->|Hne].
      * (* nothing found in a full buffer *)
        rewrite split_ok in E. unfold split_r in E. destruct (find_r (runes (skipn _ _))) as [[i w]|] eqn:Ef0; [discriminate|]. injection E as Hs0. rewrite Hs0 in Ef0. cbn [skipn] in Ef0.
        set (d := firstn M R) in *. set (e := skipn M R). assert (R = d ++ e) as ER by (symmetry; apply firstn_skipn). assert (length d = M) as Hld by (unfold d; rewrite firstn_length; lia).
        clearbody d e. subst R. rewrite app_length in El.
        assert (d <> []) as Hnd by (intros ->; cbn [length] in Hld; lia).
        assert (d ++ e <> []) as Hnde by (destruct d; [congruence|discriminate]).
        assert (skip_r (runes (d ++ e)) = O) as H0.
        { rewrite (runes_cons _ Hnde). cbn [skip_r]. rewrite <- (decode_restrict d e Hnd) by (pose proof (decode_width4 (d ++ e)); lia).
          rewrite (runes_cons _ Hnd) in Hs0. cbn [skip_r] in Hs0. rewrite (decode_firstn _ Hnd) in Hs0. pose proof (decode_width _ Hnd). destruct (has (fst _)); [lia|reflexivity]. }
        unfold sentences_result. rewrite (pieces_find _ H0). destruct (find_r (runes (d ++ e))) as [[i w]|] eqn:Ef.
        -- pose proof (find_r_bound _ _ _ Ef) as Hb. rewrite app_length in Hb. destruct (le_lt_dec (i + w) (length d)) as [Hle|Hgt].
           { rewrite (find_r_restrict _ _ _ _ Ef Hle) in Ef0. discriminate. }
           cbn [while forallb]. assert (piece_fits (firstn i (d ++ e), Z.of_nat w) = false) as ->; [|reflexivity].
           unfold piece_fits, zlen. cbn [fst snd]. rewrite firstn_length, app_length. lia.
        -- destruct (d ++ e) as [|c t] eqn:Ede; [congruence|]. cbn [while forallb]. assert (piece_fits (@pair bytes Z (c :: t) 1) = false) as ->; [|reflexivity].
           rewrite <- Ede. unfold piece_fits, zlen. cbn [fst snd]. rewrite app_length. lia.
      * pose proof (sent_H1 _ _ _ _ E) as Ha. rewrite firstn_length in Ha. rewrite (IH (skipn a R)) by (rewrite skipn_length; lia).
        rewrite split_ok in E. unfold split_r in E. destruct (find_r _) as [[i w]|]; [discriminate|]. injection E as Ea. unfold sentences_result.
        assert (pieces has (skipn a R) = pieces has R) as ->; [|reflexivity].
        rewrite (pieces_skip R), (pieces_skip (skipn a R)). pose proof (skip_app (firstn M R) (skipn M R)) as Hsk. rewrite firstn_skipn, Ea in Hsk. rewrite Hsk.
        rewrite skipn_add. assert (skipn a (firstn M R) ++ skipn M R = skipn a R) as ->; [|reflexivity].
        rewrite <- (skipn_app_le a (firstn M R) (skipn M R)) by (rewrite firstn_length; lia). rewrite firstn_skipn. reflexivity.
Qed.
Theorem scan_sentences text chunk fuel : (2 * length text + 1 < fuel)%nat -> scan_all (scanSentence has) chunk fuel (NewScanner text) = sentences_result text.
Proof. intros Hf. rewrite (scanner_ideal _ chunk sent_H1 sent_H2 sent_H3 sent_H4) by exact Hf. apply (sentences_ideal (S (length text))). lia. Qed.
End Sentence.
