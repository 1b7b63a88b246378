(** Proofs about words, the normalizer, the suggest tokenizers and alphabets. *)
From Coq Require Import ZifyBool Permutation.
From Verif Require Import Base BaseLemmas GoMap Text Analysis AnalysisSpec TextProofs TextProofs2 AnalysisProofs.
Local Open Scope Z_scope.
Ltac Zify.zify_post_hook ::= Z.div_mod_to_equations.

(** ** decoded characters *)
Definition char_ok (rb : Z * bytes) : Prop := encode_rune (fst rb) = snd rb /\ RuneLen (fst rb) = zlen (snd rb).
Definition char_bad (rb : Z * bytes) : Prop := fst rb = RuneError /\ length (snd rb) = 1%nat.
Lemma runes_good (s : bytes) : Forall is_byte s -> Forall (fun rb => char_bad rb \/ char_ok rb) (runes s).
Proof.
  induction s as [|s Hne IH] using runes_ind; intros Hb; [constructor|]. rewrite (runes_cons s Hne). constructor; [|apply IH, Forall_skipn; exact Hb].
  pose proof (decode_good s Hb Hne) as H. pose proof (decode_width s Hne) as Hw. destruct (decode_rune s) as [r w]. unfold char_bad, char_ok. cbn [fst snd] in *. unfold zlen. rewrite firstn_length.
  destruct H as [[-> ->]|[H1 H2]]; [left|right].
  - split; [reflexivity|]. lia.
  - split; [exact H1|]. rewrite H2. f_equal. lia.
Qed.
Lemma well_formed_chars s : Forall is_byte s -> well_formed s -> Forall char_ok (runes s).
Proof.
  intros Hb Hw. pose proof (runes_good s Hb) as Hg. unfold well_formed in Hw. rewrite Forall_forall in *. intros x Hx.
  destruct (Hg x Hx) as [H|H]; [|exact H]. destruct (Hw x Hx H).
Qed.

(** ** words *)
Definition txt (rs : list (Z * bytes)) : bytes := concat (map snd rs).
Lemma txt_app a b : txt (a ++ b) = txt a ++ txt b. Proof. unfold txt. rewrite map_app, concat_app. reflexivity. Qed.
Fixpoint runs (has : Z -> bool) (cur : list (Z * bytes)) (rs : list (Z * bytes)) : list (list (Z * bytes)) :=
  match rs with
  | [] => match cur with [] => [] | _ => [cur] end
  | c :: rs' => if has (fst c) then runs has (cur ++ [c]) rs'
                else match cur with [] => runs has [] rs' | _ => cur :: runs has [] rs' end
  end.
Lemma slice_mid (a b c : bytes) s l : s = zlen a -> l = zlen b -> slice (a ++ b ++ c) s (s + l) = Ret b.
Proof. intros -> ->. apply slice_three. Qed.
Lemma word_loop_ok has text : forall rs pre cur i start len words,
  text = pre ++ txt cur ++ txt rs -> i = zlen pre + zlen (txt cur) -> Forall (fun c => has (fst c) = true -> char_ok c) rs ->
  start = (match cur with [] => -1 | _ => zlen pre end) -> len = zlen (txt cur) -> 
  match word_loop has text rs i start len words with
  | Ret (start', len', words') => (if negb (start' =? -1) then w <- slice text start' (start' + len') ;; Ret (words' ++ [w]) else Ret words') = Ret (words ++ map txt (runs has cur rs))
  | _ => False
  end.
Proof.
  induction rs as [|[r b] rs IH]; intros pre cur i start len words Ht Hi Hok Hs Hl; cbn [word_loop runs fst].
  - destruct cur as [|c cur]; subst start.
    + cbn. rewrite app_nil_r. reflexivity.
    + replace (zlen pre =? -1) with false by (unfold zlen; lia). cbn [negb map]. rewrite Ht, (slice_mid _ _ _ _ _ eq_refl Hl). reflexivity.
  - destruct (has r) eqn:Hh.
    + pose proof (Forall_inv Hok) as Hc. cbn [fst] in Hc. destruct (Hc Hh) as [_ HR]. cbn [fst snd] in HR.
      apply (IH pre (cur ++ [(r, b)])).
      * rewrite Ht, txt_app. unfold txt at 2. cbn [map concat snd]. rewrite <- app_assoc. cbn [app]. unfold txt. cbn [map concat snd]. rewrite app_nil_r. reflexivity.
      * rewrite txt_app. unfold txt at 2. cbn [map concat snd]. rewrite app_nil_r, zlen_app. lia.
      * exact (Forall_inv_tail Hok).
      * destruct cur as [|c cur]; subst start; cbn [app txt map concat].
        -- rewrite Z.eqb_refl. rewrite Hi. change (zlen (txt [])) with 0. lia.
        -- replace (zlen pre =? -1) with false by (unfold zlen; lia). reflexivity.
      * rewrite txt_app. unfold txt at 2. cbn [map concat snd]. rewrite app_nil_r, zlen_app. lia.
    + destruct cur as [|c cur]; subst start.
      * cbn [negb Z.eqb]. cbn [bind]. change (-1 =? -1) with true. cbn [negb bind]. apply (IH (pre ++ b) []).
        -- rewrite Ht. unfold txt. cbn [map concat snd]. rewrite !app_nil_l, <- app_assoc. reflexivity.
        -- change (zlen (txt [])) with 0 in *. rewrite zlen_app. lia.
        -- exact (Forall_inv_tail Hok).
        -- reflexivity.
        -- reflexivity.
      * replace (zlen pre =? -1) with false by (unfold zlen; lia). cbn [negb map]. rewrite Ht, (slice_mid _ _ _ _ _ eq_refl Hl), <- Ht. cbn [bind].
        assert (forall (x : bytes) l, words ++ x :: l = (words ++ [x]) ++ l) as Hw by (intros; rewrite <- app_assoc; reflexivity). rewrite (Hw (txt (c :: cur)) (map txt (runs has [] rs))) || rewrite (Hw (txt (c :: cur)) (@map _ (list Z) txt (runs has [] rs))).
        apply (IH ((pre ++ txt (c :: cur)) ++ b) []).
        -- rewrite Ht, <- !app_assoc. reflexivity.
        -- rewrite !zlen_app. change (zlen (txt [])) with 0. lia.
        -- exact (Forall_inv_tail Hok).
        -- reflexivity.
        -- reflexivity.
Qed.
Lemma WordTokenize_runs has text : Forall (fun c => has (fst c) = true -> char_ok c) (runes text) ->
  WordTokenize has text = Ret (map txt (runs has [] (runes text))).
Proof.
  intros H. unfold WordTokenize.
  pose proof (word_loop_ok has text (runes text) [] [] 0 (-1) 0 [] ) as HL.
  specialize (HL ltac:(cbn; symmetry; apply runes_concat) eq_refl H eq_refl eq_refl).
  destruct (word_loop _ _ _ _ _ _ _) as [[[s l] w]| | |]; try contradiction. exact HL.
Qed.
Lemma runs_words has rs : forall cur, Forall (fun c => has (fst c) = true) cur -> words_of has (cur ++ rs) (runs has cur rs).
Proof.
  induction rs as [|c rs IH]; intros cur Hc; cbn [runs].
  - destruct cur as [|x cur]; [rewrite app_nil_r; constructor|]. apply wo_word; [discriminate|exact Hc|discriminate|constructor].
  - destruct (has (fst c)) eqn:E.
    + replace (cur ++ c :: rs) with ((cur ++ [c]) ++ rs) by (rewrite <- app_assoc; reflexivity). apply IH. apply Forall_app. split; [exact Hc|constructor; [exact E|constructor]].
    + destruct cur as [|x cur].
      * cbn [app]. apply wo_sep; [exact E|]. apply (IH []). constructor.
      * apply wo_word; [discriminate|exact Hc| |].
        -- intros c' cs' E'. injection E' as <- _. exact E.
        -- apply wo_sep; [exact E|]. apply (IH []). constructor.
Qed.
Lemma words_of_det has rs ws : words_of has rs ws -> forall ws', words_of has rs ws' -> ws = ws'.
Proof.
  assert (forall a b (w1 w2 : list (Z * bytes)), w1 ++ a = w2 ++ b -> Forall (fun c => has (fst c) = true) w1 -> Forall (fun c => has (fst c) = true) w2 ->
    (forall c cs', a = c :: cs' -> has (fst c) = false) -> (forall c cs', b = c :: cs' -> has (fst c) = false) -> w1 = w2 /\ a = b) as Huniq.
  { intros a b w1. induction w1 as [|x w1 IH]; intros [|y w2] E H1 H2 Ha Hb.
    - auto.
    - cbn in E. subst a. pose proof (Forall_inv H2) as X. pose proof (Ha y (w2 ++ b) eq_refl). cbn in X. congruence.
    - cbn in E. subst b. pose proof (Forall_inv H1) as X. pose proof (Hb x (w1 ++ a) eq_refl). cbn in X. congruence.
    - injection E as -> E. destruct (IH w2 E (Forall_inv_tail H1) (Forall_inv_tail H2) Ha Hb) as [-> ->]. auto. }
  induction 1 as [|c cs ws Hc Hw IH|w cs ws Hne Hall Hnext Hw IH]; intros ws' H'.
  - inversion H' as [| |w' cs' ws'' Hne' Ha' Hn' Hw' Eq]; [reflexivity|]. destruct w'; [congruence|discriminate].
  - inversion H' as [|c' cs' ws'' Hc' Hw' E1|w' cs' ws'' Hne' Ha' Hn' Hw' Eq]; subst.
    + apply IH. assumption.
    + destruct w' as [|x w']; [congruence|]. injection Eq as -> _. pose proof (Forall_inv Ha') as X. cbn in X. congruence.
  - inversion H' as [E|c' cs' ws'' Hc' Hw' E1|w' cs' ws'' Hne' Ha' Hn' Hw' Eq]; subst.
    + destruct w; [congruence|discriminate].
    + destruct w as [|x w]; [congruence|]. injection E1 as <- _. pose proof (Forall_inv Hall) as X. cbn in X. congruence.
    + destruct (Huniq _ _ _ _ Eq Ha' Hall Hn' Hnext) as [-> ->]. f_equal. apply IH. assumption.
Qed.

(** ** normalizer *)
Lemma normalize_char_ok has pad t : Forall char_ok (runes t) -> normalize has pad t = concat (map (fun rb => if has (fst rb) then snd rb else pad) (runes t)).
Proof.
  intros H. unfold normalize. f_equal. apply map_ext_in. intros rb Hin. rewrite Forall_forall in H. destruct (H rb Hin) as [E _]. rewrite E. reflexivity.
Qed.
Lemma normalize_enc has pad l : normalize has pad (enc l) = concat (map (fun r => if has (vr r) then encode_rune r else pad) l).
Proof.
  unfold normalize. rewrite runes_enc, map_map. f_equal. apply map_ext. intros r. cbn [fst]. rewrite encode_vr. reflexivity.
Qed.
Lemma normalize_enc_id has pad l : Forall (fun r => has (vr r) = true) l -> normalize has pad (enc l) = enc l.
Proof.
  intros H. rewrite normalize_enc. unfold enc. f_equal. apply map_ext_in. intros r Hr. rewrite Forall_forall in H. rewrite (H r Hr). reflexivity.
Qed.

(** ** the tokenizers of pkg/suggest *)
Definition prepared (lowr : Z -> Z) (s : bytes) : list Z := ttrim (map (fun rb => lowr (fst rb)) (runes s)).
Lemma prepared_text lowr s : Trim (ToLower lowr s) = enc (prepared lowr s).
Proof. rewrite ToLower_enc. apply Trim_enc. Qed.
Lemma gram_enc l n k : gram (chars (enc l)) n k = enc (firstn (Z.to_nat n) (skipn k l)).
Proof. unfold gram. rewrite chars_enc, skipn_map, firstn_map. reflexivity. Qed.
Lemma ngram_total n text : 1 <= n <= 8 -> exists ts, NGramTokenize n text = Ret ts.
Proof.
  intros Hn. destruct (Z_lt_le_dec (zlen text) n) as [H|H].
  - exists []. unfold NGramTokenize. replace (zlen text <? n) with true by lia. reflexivity.
  - rewrite tokenize_ok by lia. eauto.
Qed.
(* every token is a run of consecutive runes of the prepared text *)
Lemma ngram_enc_tokens n l ts : 1 <= n <= 8 -> NGramTokenize n (enc l) = Ret ts ->
  NoDup ts /\ forall t, In t ts -> exists k m, t = enc (firstn m (skipn k l)).
Proof.
  intros Hn E. destruct (Z_lt_le_dec (zlen (enc l)) n) as [H|H].
  - unfold NGramTokenize in E. replace (zlen (enc l) <? n) with true in E by lia. injection E as <-. split; [constructor|]. intros t [].
  - rewrite tokenize_ok in E by lia. injection E as <-. destruct (_ <? _).
    + split; [repeat constructor; auto|]. intros t [<-|[]]. exists 0%nat, (length l). cbn [skipn]. rewrite firstn_all. reflexivity.
    + split; [apply fo_NoDup|]. intros t Ht. apply (proj1 (fo_In _ _)) in Ht. apply in_map_iff in Ht. destruct Ht as (k & <- & _). exists k, (Z.to_nat n). apply gram_enc.
Qed.
Lemma ngram_enc_many n l : 1 <= n <= 8 -> n <= zlen l ->
  exists ts, NGramTokenize n (enc l) = Ret ts /\ forall t, In t ts <-> exists k, (k + Z.to_nat n <= length l)%nat /\ t = enc (firstn (Z.to_nat n) (skipn k l)).
Proof.
  intros Hn Hl. assert (zlen (chars (enc l)) = zlen l) as Hc by (rewrite chars_enc; unfold zlen; rewrite map_length; reflexivity).
  pose proof (chars_zlen_le (enc l)). rewrite tokenize_ok by lia. rewrite Hc. replace (zlen l <? n) with false by lia.
  eexists. split; [reflexivity|]. intros t. rewrite fo_In, in_map_iff. split.
  - intros (k & <- & Hk). apply in_seq in Hk. exists k. rewrite gram_enc. split; [unfold zlen in *; lia|reflexivity].
  - intros (k & Hk & ->). exists k. rewrite gram_enc. split; [reflexivity|]. apply in_seq. unfold zlen in *. lia.
Qed.
Lemma Forall_sub {A} (P : A -> Prop) k m l : Forall P l -> Forall P (firstn m (skipn k l)).
Proof. intros H. apply Forall_firstn, Forall_skipn, H. Qed.
Lemma suggest_nodup lowr d text : 1 <= t_n d <= 8 -> Forall (fun r => t_has d (vr r) = true) (prepared lowr (t_wrap0 d ++ text ++ t_wrap1 d)) ->
  exists ts, SuggestTokenize (ToLower lowr) d text = Ret ts /\ NoDup ts /\
             NGramTokenize (t_n d) (Trim (ToLower lowr (t_wrap0 d ++ text ++ t_wrap1 d))) = Ret ts.
Proof.
  intros Hn H. unfold SuggestTokenize, WrapTokenize, FilterTokenize. rewrite prepared_text.
  destruct (ngram_total (t_n d) (enc (prepared lowr (t_wrap0 d ++ text ++ t_wrap1 d))) Hn) as [ts E]. rewrite E. cbn [bind].
  destruct (ngram_enc_tokens _ _ _ Hn E) as [Hnd Hin].
  assert (NormalizerFilter (t_has d) (t_pad d) ts = ts) as ->.
  { unfold NormalizerFilter. rewrite <- (map_id ts) at 2. apply map_ext_in. intros t Ht. destruct (Hin t Ht) as (k & m & ->). apply normalize_enc_id. apply Forall_sub. exact H. }
  eauto.
Qed.
Lemma firstn_skipn_app {A} (l m : list A) n k : (k + n <= length l)%nat -> firstn n (skipn k (l ++ m)) = firstn n (skipn k l).
Proof.
  intros H. rewrite skipn_app, firstn_app, skipn_length. replace (n - (length l - k))%nat with 0%nat by lia. cbn [firstn]. apply app_nil_r.
Qed.
Lemma prefix_tokens lowr d q r : 1 <= t_n d <= 8 -> well_formed (t_wrap0 d ++ q) -> t_n d <= zlen (prepared lowr (t_wrap0 d ++ q)) ->
  exists qs es, AutocompleteTokenize (ToLower lowr) d q = Ret qs /\ SuggestTokenize (ToLower lowr) d (q ++ r) = Ret es /\ incl qs es.
Proof.
  intros Hn Hw Hl. unfold AutocompleteTokenize, SuggestTokenize, WrapTokenize, FilterTokenize. rewrite !prepared_text.
  assert (exists t, prepared lowr (t_wrap0 d ++ (q ++ r) ++ t_wrap1 d) = prepared lowr (t_wrap0 d ++ q) ++ t) as [t Et].
  { unfold prepared. rewrite app_assoc, <- app_assoc. replace (t_wrap0 d ++ (q ++ r) ++ t_wrap1 d) with ((t_wrap0 d ++ q) ++ (r ++ t_wrap1 d)) by (rewrite <- !app_assoc; reflexivity).
    rewrite runes_app by exact Hw. rewrite map_app.
    destruct (ttrim_app (map (fun rb => lowr (fst rb)) (runes (t_wrap0 d ++ q))) (map (fun rb => lowr (fst rb)) (runes (r ++ t_wrap1 d)))) as [t Ht].
    exists t. apply Ht. unfold prepared in Hl. intros E. rewrite E in Hl. cbn in Hl. lia. }
  rewrite Et, app_nil_r. set (p := prepared lowr (t_wrap0 d ++ q)) in *.
  destruct (ngram_enc_many (t_n d) p Hn Hl) as (qs & Eq & Hq).
  destruct (ngram_enc_many (t_n d) (p ++ t) Hn ltac:(rewrite zlen_app; pose proof (zlen_nonneg t); lia)) as (es & Ee & He).
  rewrite Eq, Ee. cbn [bind]. eexists _, _. split; [reflexivity|]. split; [reflexivity|].
  intros x Hx. unfold NormalizerFilter in *. apply in_map_iff in Hx. destruct Hx as (y & <- & Hy). apply in_map. apply He. apply Hq in Hy.
  destruct Hy as (k & Hk & ->). exists k. rewrite app_length. split; [lia|]. rewrite firstn_skipn_app by exact Hk. reflexivity.
Qed.

(** ** alphabets *)
Lemma zrange_In n : forall lo c, In c (zrange lo n) <-> lo <= c < lo + Z.of_nat n.
Proof. induction n as [|n IH]; intros lo c; cbn [zrange In]; [lia|]. rewrite IH. lia. Qed.
Lemma zrange_length n : forall lo, length (zrange lo n) = n.
Proof. induction n as [|n IH]; intros; cbn; auto. Qed.
Fixpoint listed (a : alphabet) : Prop :=
  match a with ASeq _ _ | ASimple _ => True | ARussian => False | AComposite l => (fix all l := match l with [] => True | x :: l' => listed x /\ all l' end) l end.
Fixpoint size_of (a : alphabet) : nat := match a with AComposite l => S (fold_right (fun x s => size_of x + s)%nat 0%nat l) | _ => 1%nat end.
Lemma size_of_in x l : In x l -> (size_of x < size_of (AComposite l))%nat.
Proof. cbn [size_of]. induction l as [|y l IH]; intros []; cbn [fold_right]; [subst; lia|]. specialize (IH H). lia. Qed.
Lemma alphabet_ind' (P : alphabet -> Prop) : (forall lo hi, P (ASeq lo hi)) -> (forall cs, P (ASimple cs)) -> P ARussian ->
  (forall l, (forall x, In x l -> P x) -> P (AComposite l)) -> forall a, P a.
Proof.
  intros H1 H2 H3 H4 a. remember (size_of a) as n eqn:En. assert (size_of a <= n)%nat as Hn by lia. clear En. revert a Hn.
  induction n as [|n IH]; intros a Hn; [destruct a; cbn in Hn; lia|].
  destruct a; auto. apply H4. intros x Hx. apply IH. pose proof (size_of_in x parts Hx). lia.
Qed.
Lemma Has_spec a c : Has a c = true <-> In c (Chars a) \/ (c = 1105 /\ Has a 1105 = true).
Proof.
  induction a as [lo hi|cs| |l IH] using alphabet_ind'; cbn [Has Chars].
  - rewrite zrange_In. split; [intros; left; lia|]. intros [H|[-> H]]; lia.
  - rewrite existsb_exists. split.
    + intros (x & Hx & E). left. replace c with x by lia. exact Hx.
    + intros [H|[-> H]]; [exists c; split; [exact H|lia]|]. rewrite existsb_exists in H. exact H.
  - rewrite zrange_In. destruct (Z.eqb_spec c 1105) as [->|E]; [cbn; intuition|]. split; [intros; left; lia|]. intros [H|[-> H]]; lia.
  - split.
    + intros H. apply existsb_exists in H. destruct H as (x & Hx & Hh). apply (IH x Hx) in Hh. destruct Hh as [Hh|[-> Hh]].
      * left. apply in_concat. exists (Chars x). split; [apply in_map; exact Hx|exact Hh].
      * right. split; [reflexivity|]. apply existsb_exists. eauto.
    + intros [H|[-> H]]; [|exact H]. apply in_concat in H. destruct H as (cs & Hcs & Hc). apply in_map_iff in Hcs. destruct Hcs as (x & <- & Hx).
      apply existsb_exists. exists x. split; [exact Hx|]. apply (IH x Hx). left. exact Hc.
Qed.
