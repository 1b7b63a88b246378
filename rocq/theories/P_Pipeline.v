(** C70 From a text to the scores of sentences: the commands ngram-count, build-lm and eval. *)
From Coq Require Import String ZifyBool Permutation Sorting.Sorted Lia.
From Verif Require Import Base BaseLemmas GoMap Float64 Text TextProofs TextProofs2 Analysis AnalysisSpec AnalysisProofs AnalysisProofs2 P_AnalysisLemmas P_Analysis LMText Scanner ScannerSpec ScannerProofs ScannerProofs2 P_Scanner
  CountTrie CountTrieSpec CountTrieProofs P_CountTrie NGram NGramSpec P_NGram Mph MphSpec MphProofs P_Mph GoogleNGram GoogleProofs TrainedSpec P_Trained LMPipeline LMPipelineSpec.
Local Open Scope Z_scope.

(** ** Tokenization *)
Lemma lm_tokens lowr has text : exists ws, text_words lowr has text ws /\ (forall ws', text_words lowr has text ws' -> ws' = ws) /\ LMTokenize lowr has text = Ret ws.
Proof.
  destruct (words_result has (Trim (ToLower lowr text))) as (rs & Hw & Hu & E).
  - rewrite prepared_text. eapply Forall_impl; [|apply enc_char_ok]. auto.
  - exists (map (fun w => concat (map snd w)) rs). split; [exists rs; auto|]. split; [|exact E]. intros ws' (rs' & H' & ->). rewrite (Hu rs' H'). reflexivity.
Qed.
Lemma tokenize_iff lowr has text ws : text_words lowr has text ws <-> LMTokenize lowr has text = Ret ws.
Proof.
  destruct (lm_tokens lowr has text) as (ws0 & H1 & H2 & E). rewrite E. split; [intros H; rewrite (H2 ws H); reflexivity|intros H; injection H as <-; exact H1].
Qed.
Lemma sentences_tokenized lowr has : forall ps ss, Forall2 (fun p s => text_words lowr has (fst p) s) (ps : list (bytes * Z)) ss -> map_res (LMTokenize lowr has) (map fst ps) = Ret ss.
Proof. induction 1 as [|p s ps ss H _ IH]; [reflexivity|]. cbn [map map_res]. apply (proj1 (tokenize_iff _ _ _ _)) in H. rewrite H. cbn [bind]. rewrite IH. reflexivity. Qed.
(* the bytes below 128 of an encoded character are the character *)
Lemma low_byte r b : In b (encode_rune r) -> b < 128 -> vr r = b.
Proof.
  intros Hin Hb. unfold encode_rune in Hin. fold (vr r) in Hin. pose proof (vr_valid r) as Hv. generalize dependent (vr r). clear r. intros r Hin Hv.
  assert (0 <= r) as Hr by (unfold valid_rune in Hv; lia).
  assert (forall a c, 128 <= a -> 0 <= c -> 128 <= Z.lor a c) as Hl.
  { intros a c Ha Hc. assert (a <= Z.lor a c); [|lia]. rewrite Z.lor_comm. apply Z.ldiff_le; [apply Z.lor_nonneg; lia|]. apply Z.bits_inj'. intros n Hn. rewrite Z.ldiff_spec, Z.lor_spec, Z.bits_0. destruct (Z.testbit c n), (Z.testbit a n); reflexivity. }
  assert (forall x, 0 <= x -> 0 <= c6 x) as Hc6 by (intros x Hx; unfold c6; apply Z.land_nonneg; lia).
  assert (forall n, 0 <= Z.shiftr r n) as Hs by (intros n; apply Z.shiftr_nonneg; exact Hr).
  destruct (r <? 128); [destruct Hin as [<-|[]]; reflexivity|]. exfalso.
  destruct (r <? 2048); [|destruct (r <? 65536)]; cbn [In] in Hin; repeat (destruct Hin as [<-|Hin]; [match type of Hb with Z.lor ?a ?c < _ => pose proof (Hl a c ltac:(lia) ltac:(auto)) end; lia|]); destruct Hin.
Qed.
Lemma words_of_in has rs ws : AnalysisSpec.words_of has rs ws -> forall w, In w ws -> w <> [] /\ forall c, In c w -> In c rs /\ has (fst c) = true.
Proof.
  induction 1 as [|c cs ws Hc _ IH|w cs ws Hne Hall Hb _ IH]; intros x Hx; [destruct Hx| |].
  - destruct (IH x Hx) as [H1 H2]. split; [exact H1|]. intros d Hd. destruct (H2 d Hd). split; [right; assumption|assumption].
  - destruct Hx as [<-|Hx].
    + split; [exact Hne|]. intros c Hc. rewrite Forall_forall in Hall. split; [apply in_app_iff; left; exact Hc|auto].
    + destruct (IH x Hx) as [H1 H2]. split; [exact H1|]. intros d Hd. destruct (H2 d Hd). split; [apply in_app_iff; right; assumption|assumption].
Qed.
Lemma words_plain lowr has text ws : has 32 = false -> has 9 = false -> has 10 = false -> text_words lowr has text ws -> forall w, In w ws -> w <> [] /\ plain w.
Proof.
  intros H32 H9 H10 (rs & Hw & ->) w Hin. apply in_map_iff in Hin. destruct Hin as (x & <- & Hx). destruct (words_of_in _ _ _ Hw x Hx) as [Hne Hc]. rewrite prepared_text, runes_enc in Hc.
  assert (forall b, In b (concat (map snd x)) -> b < 128 -> has b = true) as Hlow.
  { intros b Hb Hlt. apply in_concat in Hb. destruct Hb as (e & He & Hb). apply in_map_iff in He. destruct He as (c & <- & Hcx). destruct (Hc c Hcx) as [Hr Hh]. apply in_map_iff in Hr. destruct Hr as (r & <- & _). cbn [fst snd] in *. rewrite (low_byte r b Hb Hlt) in Hh. exact Hh. }
  split.
  - destruct x as [|c x]; [exfalso; apply Hne; reflexivity|]. cbn [map concat]. destruct (Hc c (or_introl eq_refl)) as [Hr _]. apply in_map_iff in Hr. destruct Hr as (r & <- & _). cbn [snd]. pose proof (encode_nonempty r). destruct (encode_rune r); [exfalso; congruence|discriminate].
  - repeat split; intros Hin; apply Hlow in Hin; try lia; congruence.
Qed.
Lemma sentences_unique lowr has sep text ss ss' : text_sentences lowr has sep text ss -> text_sentences lowr has sep text ss' -> ss' = ss.
Proof.
  unfold text_sentences. intros H H'. apply sentences_tokenized in H, H'. rewrite H in H'. congruence.
Qed.

(** ** Scores *)
Lemma longest_ok occ : forall n, (forall i, (1 <= i <= n)%nat -> 0 <= occ i) -> (longest occ n <= n)%nat /\ (forall i, (longest occ n < i <= n)%nat -> occ i = 0) /\ (longest occ n <> O -> 0 < occ (longest occ n)).
Proof.
  induction n as [|n IH]; intros H; [split; [reflexivity|split; [intros; lia|intros C; exfalso; apply C; reflexivity]]|]. cbn [longest]. destruct (Z.ltb_spec 0 (occ (S n))) as [Hp|Hp]; [split; [lia|split; [intros; lia|auto]]|].
  destruct IH as (H1 & H2 & H3); [intros; apply H; lia|]. split; [lia|]. split; [|exact H3]. intros i Hi. destruct (Nat.eq_dec i (S n)) as [->|]; [specialize (H (S n)); lia|apply H2; lia].
Qed.
Lemma score_backoff flog m ids c0 occ n : Score_counts m ids = Ret (c0 :: map occ (seq 1 n)) -> (forall i, (1 <= i <= n)%nat -> 0 <= occ i) ->
  Score flog m ids = Ret (backoff flog discount UnknownWordScore c0 occ n).
Proof.
  intros E Hpos. destruct (score_of_counts flog m ids c0 occ n E) as [S1 S2]. destruct (longest_ok occ n Hpos) as (L1 & L2 & L3). unfold backoff. destruct (longest occ n) as [|j] eqn:Ej; [apply S2; intros; apply L2; lia|].
  apply (S1 (S j)); [lia|apply L3; discriminate|intros; apply L2; lia].
Qed.
Lemma split_word_runs {A} (f : A -> Z) (s : list A) n : 1 <= n -> splitIntoNGrams (map f s) n = map (map f) (word_runs (Z.to_nat n) s).
Proof.
  intros Hn. unfold splitIntoNGrams, word_runs. replace (zlen (map f s)) with (zlen s) by (unfold zlen; rewrite map_length; reflexivity). destruct (Z.ltb_spec (zlen s) n) as [H|H].
  - unfold zlen in H. replace (length s + 1 - Z.to_nat n)%nat with O by lia. reflexivity.
  - rewrite map_map. replace (Z.to_nat (zlen s - n + 1)) with (length s + 1 - Z.to_nat n)%nat by (unfold zlen in *; lia). apply map_ext. intros i. rewrite skipn_map, firstn_map. reflexivity.
Qed.

(** ** C70 *)
(** A text, a configuration whose words contain no space, tab or newline and whose
    separators do not contain U+FFFD.  Counting never panics; it sees the sentences of the
    text up to the first that does not fit the scanner's buffer.  The model is built unless
    the search for a hash function goes on for ever, and then eval's score of a line is the
    left-to-right sum, over the runs of [order] words of the line (with the two symbols),
    of their back-off scores in the text.  Every reading pattern, map order and sort. *)
Theorem C70_text_to_scores_partial : forall lowr has sep first last order text sentences ord srt chunk chunk' fuel fuel' mfuel L,
  sep RuneError = false -> has 32 = false -> has 9 = false -> has 10 = false ->
  (first <> [] /\ plain first) -> (last <> [] /\ plain last) -> 1 <= order <= 255 ->
  (forall p l, Permutation l (ord p l)) -> sorts_by_size srt ->
  text_sentences lowr has sep text sentences ->
  (forall w, In w (first :: last :: concat sentences) -> zlen w <= L) -> order * (L + 1) + 21 < 65536 ->
  (exists s, In s sentences /\ s <> []) -> wrapped_words sentences < 2 ^ 28 -> Z.of_nat mfuel < 2 ^ 31 - 1 ->
  (2 * List.length text + 1 < fuel)%nat ->
  exists files, ngram_count lowr has sep first last order ord chunk fuel text = Ret files /\
  ((forall f, In f files -> (2 * List.length f + 1 < fuel')%nat) ->
   build_lm order srt chunk' fuel' mfuel files = NoFuel \/
   exists words binary, build_lm order srt chunk' fuel' mfuel files = Ret (words, binary) /\
    (zlen binary < 2 ^ 63 -> exists l, eval_load first last order words binary = Ret l /\
      forall flog line s, text_words lowr has line s ->
        eval_line lowr has flog l line = Ret (match s with [] => None | _ =>
          Some (fold_left (fun a g => fadd a (backoff flog discount UnknownWordScore (wrapped_words sentences) (fun i => occurrences_in first last sentences (firstn i g)) (Z.to_nat order)))
                          (word_runs (Z.to_nat order) (first :: s ++ [last])) (of_int 0)) end))).
Proof.
  intros lowr has sep first last order text sentences ord srt chunk chunk' fuel fuel' mfuel L Hsep H32 H9 H10 Hfi Hla Ho Hord Hsrt Hs HL HL' Hne Hsz Hmf Hfuel.
  assert (forall w, In w (first :: last :: concat sentences) -> w <> [] /\ plain w /\ zlen w <= L) as Hw.
  { intros w Hin. assert (w <> [] /\ plain w) as [Hp1 Hp2]; [|split; [exact Hp1|split; [exact Hp2|apply HL; exact Hin]]]. destruct Hin as [<-|[<-|Hin]]; [exact Hfi|exact Hla|].
    apply in_concat in Hin. destruct Hin as (s & Hin & Hws). clear - Hs Hin Hws H32 H9 H10. unfold text_sentences in Hs. induction Hs as [|p s' ps ss Hp _ IH]; [destruct Hin|]. destruct Hin as [->|Hin]; [eapply words_plain; eassumption|apply IH; exact Hin]. }
  destruct (C69_trained_model_partial first last sentences order ord srt chunk' fuel' mfuel L Hord Hsrt Ho Hw HL' Hne Hsz Hmf) as (files & words & Ef & _ & _ & _ & H). exists files. split.
  { unfold ngram_count, buildNGramsCount. rewrite (scan_sentences sep Hsep) by exact Hfuel. unfold sentences_result. cbn [fst]. rewrite (sentences_tokenized lowr has _ sentences Hs). cbn [bind]. exact Ef. }
  intros Hff. unfold build_lm. destruct (H Hff) as [[_ E]|(binary & Eb & Hl)]; [left; exact E|right]. exists words, binary. split; [exact Eb|]. intros Hbz. destruct (Hl Hbz) as (l & El & _ & _ & G1 & G2 & Go & Hc). exists l. split; [exact El|].
  set (f := fun w => match GetWordID l w with Ret i => i | _ => 0 end).
  assert (forall w, GetWordID l w = Ret (f w)) as Hf.
  { intros w. destruct (Hc [w] ltac:(discriminate)) as (ids & E & _). cbn [get_all] in E. unfold f. destruct (GetWordID l w); try discriminate. reflexivity. }
  intros flog line s Hline. unfold eval_line. rewrite (proj1 (tokenize_iff _ _ _ _) Hline). cbn [bind]. destruct s as [|w0 s0] eqn:Es; [reflexivity|]. rewrite <- Es in *. assert (zlen s =? 0 = false) as -> by (rewrite Es, zlen_cons; pose proof (zlen_nonneg s0); lia).
  unfold ScoreSentence. rewrite (get_all_ok (GetWordID l) f s) by (intros; apply Hf). cbn [bind]. unfold ScoreWordIDs.
  assert (lm_start (l_lm l) :: map f s ++ [lm_end (l_lm l)] = map f (first :: s ++ [last])) as ->.
  { cbn [map]. rewrite map_app. cbn [map]. rewrite Hf in G1, G2. injection G1 as ->. injection G2 as ->. reflexivity. }
  rewrite Go, split_word_runs by lia. set (gs := word_runs (Z.to_nat order) (first :: s ++ [last])).
  assert (Forall (fun g => length g = Z.to_nat order) gs) as Hlen.
  { apply Forall_forall. intros g Hg. unfold gs, word_runs in Hg. apply in_map_iff in Hg. destruct Hg as (i & <- & Hi). apply in_seq in Hi. rewrite firstn_length, skipn_length. lia. }
  assert (forall acc, fold_left (fun acc g => score <- acc ;; x <- Score flog (lm_model (l_lm l)) g ;; Ret (fadd score x)) (map (map f) gs) (Ret acc) =
    Ret (fold_left (fun a g => fadd a (backoff flog discount UnknownWordScore (wrapped_words sentences) (fun i => occurrences_in first last sentences (firstn i g)) (Z.to_nat order))) gs acc)) as Hsum.
  { clear - Hc Hf Hlen Ho. induction gs as [|g gs IH]; intros acc; [reflexivity|]. apply Forall_cons_iff in Hlen. destruct Hlen as [Hg Hlen]. cbn [map fold_left bind].
    destruct (Hc g) as (ids & E1 & E2); [destruct g; [cbn [length] in Hg; lia|discriminate]|]. rewrite (get_all_ok (GetWordID l) f g) in E1 by (intros; apply Hf). injection E1 as <-.
    match type of E2 with context [Nat.min _ ?x] => replace x with (Z.to_nat order) in E2 by (symmetry; exact Hg) end. rewrite Nat.min_id in E2. rewrite (score_backoff flog _ _ _ _ _ E2) by (intros; apply TrainedProofs.corpus_nonneg). cbn [bind]. apply IH. exact Hlen. }
  rewrite Hsum. reflexivity.
Qed.
Print Assumptions C70_text_to_scores_partial.
Definition text70 : bytes := bs "I, am? i!".
Definition sep70 (c : Z) : bool := (c =? 63) || (c =? 33).
Definition low70 (c : Z) : Z := if (65 <=? c) && (c <=? 90) then c + 32 else c.
Definition sents70 : list (list bytes) := [[bs "i"; bs "am"]; [bs "i"]].
Definition files70 : list bytes := match ngram_count low70 (Has English) sep70 (bs "<S>") (bs "</S>") 2 ord_rev (fun _ => 3%nat) 100 text70 with Ret f => f | _ => [] end.
Definition built70 : res (list bytes * bytes) := build_lm 2 sort_big (fun _ => 3%nat) 200 50 files70.
Example C70_nonvacuous :
  sep70 RuneError = false /\ Has English 32 = false /\ Has English 9 = false /\ Has English 10 = false
  /\ (bs "<S>" <> [] /\ plain (bs "<S>")) /\ (bs "</S>" <> [] /\ plain (bs "</S>"))
  /\ text_sentences low70 (Has English) sep70 text70 sents70
  /\ forallb (fun w => zlen w <=? 4) (bs "<S>" :: bs "</S>" :: concat sents70) = true
  /\ wrapped_words sents70 = 7 /\ (2 * List.length text70 + 1 < 100)%nat
  /\ ngram_count low70 (Has English) sep70 (bs "<S>") (bs "</S>") 2 ord_rev (fun _ => 3%nat) 100 text70 = Ret files70
  /\ forallb (fun f => (2 * List.length f + 1 <? 200)%nat) files70 = true
  /\ exists words binary l, built70 = Ret (words, binary) /\ zlen binary < 2 ^ 63 /\ eval_load (bs "<S>") (bs "</S>") 2 words binary = Ret l
     /\ text_words low70 (Has English) (bs "I am.") [bs "i"; bs "am"]
     (* with the identity for the logarithm: 2/2 + 1/2 + 1/1 *)
     /\ eval_line low70 (Has English) (fun x => x) l (bs "I am.") = Ret (Some (fdiv (of_int 5) (of_int 2)))
     /\ eval_line low70 (Has English) (fun x => x) l (bs "?") = Ret None.
Proof.
  split; [reflexivity|]. split; [reflexivity|]. split; [reflexivity|]. split; [reflexivity|].
  assert (forall w, forallb (fun c => negb ((c =? 32) || (c =? 9) || (c =? 10))) w = true -> plain w) as Hp.
  { intros w H. rewrite forallb_forall in H. repeat split; intros Hc; specialize (H _ Hc); discriminate H. }
  split; [split; [discriminate|apply Hp; reflexivity]|]. split; [split; [discriminate|apply Hp; reflexivity]|].
  split. { unfold text_sentences. let t := eval vm_compute in (while piece_fits (pieces sep70 text70)) in change (while piece_fits (pieces sep70 text70)) with t.
    repeat constructor; apply (proj2 (tokenize_iff _ _ _ _)); vm_compute; reflexivity. }
  split; [vm_compute; reflexivity|]. split; [vm_compute; reflexivity|]. split; [apply Nat.ltb_lt; vm_compute; reflexivity|]. split; [vm_compute; reflexivity|]. split; [vm_compute; reflexivity|].
  do 3 eexists. split; [vm_compute; reflexivity|]. split; [vm_compute; reflexivity|]. split; [vm_compute; reflexivity|].
  split; [apply (proj2 (tokenize_iff _ _ _ _)); vm_compute; reflexivity|]. split; vm_compute; reflexivity.
Qed.
