(** C60 Sentence splitting.  C68 Dictionary files. *)
From Coq Require Import String.
From Coq Require Import ZifyBool.
From Verif Require Import Base BaseLemmas Text TextProofs Scanner ScannerSpec ScannerProofs ScannerProofs2.
Local Open Scope Z_scope.

(** ** C60 *)
(** However the reader cuts the text into chunks: the sentences are the tokens of the
    maximal separator-free pieces of the text, in order, up to the first piece that does not
    fit the 65536 byte buffer together with the separator behind it; there the text ends for
    the caller.  Separators other than U+FFFD. *)
Theorem C60_sentences : forall tokenize sep chunk text fuel,
  sep RuneError = false -> (2 * List.length text + 1 < fuel)%nat ->
  retrieve_all tokenize sep chunk fuel text = map (fun p => tokenize (fst p)) (while piece_fits (pieces sep text)).
Proof.
  intros tokenize sep chunk text fuel Hs Hf. unfold retrieve_all. rewrite (scan_sentences sep Hs) by exact Hf. cbn [fst]. apply map_map.
Qed.
Print Assumptions C60_sentences.

(** All of them, when every piece fits. *)
Theorem C60_all_sentences_partial : forall tokenize sep chunk text fuel,
  sep RuneError = false -> (2 * List.length text + 1 < fuel)%nat ->
  (forall p w, In (p, w) (pieces sep text) -> zlen p + w <= 65536) ->
  retrieve_all tokenize sep chunk fuel text = map (fun p => tokenize (fst p)) (pieces sep text).
Proof.
  intros tokenize sep chunk text fuel Hs Hf Hp. rewrite C60_sentences by assumption. f_equal.
  induction (pieces sep text) as [|[p w] l IH]; [reflexivity|]. cbn [while]. assert (piece_fits (p, w) = true) as ->.
  { unfold piece_fits. cbn [fst snd]. specialize (Hp p w (or_introl eq_refl)). lia. }
  f_equal. apply IH. intros p' w' H. apply Hp. right. exact H.
Qed.
Print Assumptions C60_all_sentences_partial.

Definition seps0 (c : Z) : bool := (c =? 46) || (c =? 33) || (c =? 8230).     (* . ! and the ellipsis *)
Definition text0 : bytes := bs "i am sam. sam i am" ++ [226; 128; 166] ++ bs "!.eggs".
Example C60_nonvacuous :
  seps0 RuneError = false
  /\ pieces seps0 text0 = [(bs "i am sam", 1); (bs " sam i am", 3); (bs "eggs", 1)]
  /\ (forall p w, In (p, w) (pieces seps0 text0) -> zlen p + w <= 65536)
  /\ retrieve_all (fun s => [s]) seps0 (fun _ => 1%nat) 100 text0 = [[bs "i am sam"]; [bs " sam i am"]; [bs "eggs"]].
Proof.
  split; [reflexivity|]. assert (pieces seps0 text0 = [(bs "i am sam", 1); (bs " sam i am", 3); (bs "eggs", 1)]) as E by (vm_compute; reflexivity).
  split; [exact E|]. split; [rewrite E; intros p w [[= <- <-]|[[= <- <-]|[[= <- <-]|[]]]]; vm_compute; discriminate|]. vm_compute. reflexivity.
Qed.

(** Refuted as stated: a sentence of 65536 bytes is dropped together with everything behind
    it, and nobody is told; and with U+FFFD among the separators the sentences depend on the
    chunks. *)
Lemma runes_a (s : bytes) n : runes (repeat 97 n ++ s) = repeat (97, [97]) n ++ runes s.
Proof.
  induction n as [|n IH]; [reflexivity|]. change (repeat 97 (S n) ++ s) with (97 :: (repeat 97 n ++ s)). rewrite runes_cons by discriminate.
  change (decode_rune (97 :: repeat 97 n ++ s)) with (97, 1%nat). cbn [fst snd firstn skipn repeat app]. rewrite IH. reflexivity.
Qed.
Lemma cut_a sep rs n : sep 97 = false -> forall cur, cut_text sep (repeat (97, [97]) n ++ rs) cur = cut_text sep rs (cur ++ repeat 97 n).
Proof.
  intros Hs. induction n as [|n IH]; intros cur; [cbn; rewrite app_nil_r; reflexivity|]. cbn [repeat app cut_text]. rewrite Hs, IH. rewrite <- app_assoc. reflexivity.
Qed.
Theorem C60_pieces_refuted :
  (exists n : nat, forall tokenize chunk fuel,
     let text := (repeat 97 n ++ bs ". i am sam")%list in
     pieces seps0 text = [(repeat 97 n, 1); (bs " i am sam", 1)]
     /\ ((2 * List.length text + 1 < fuel)%nat -> retrieve_all tokenize seps0 chunk fuel text = []))
  /\ (exists sep text, pieces sep text = [([195; 169], 1)]
        /\ retrieve_all (fun s => [s]) sep (fun _ => 2%nat) 20 text = [[[195; 169]]]
        /\ retrieve_all (fun s => [s]) sep (fun _ => 1%nat) 20 text = []).
Proof.
  split.
  - assert (exists n, Z.of_nat n = 65536) as [n Hn] by (exists (Z.to_nat 65536); apply Z2Nat.id; lia). exists n. intros tokenize chunk fuel text.
    assert (pieces seps0 text = [(repeat 97 n, 1); (bs " i am sam", 1)]) as E.
    { unfold pieces, text. rewrite runes_a, cut_a by reflexivity. cbn [app]. change (runes (bs ". i am sam")) with [(46, [46]); (32, [32]); (105, [105]); (32, [32]); (97, [97]); (109, [109]); (32, [32]); (115, [115]); (97, [97]); (109, [109])].
      cbn [cut_text seps0 Z.eqb orb Pos.eqb app filter fst]. assert (zlen (repeat 97 n) = 65536) as Hz by (unfold zlen; rewrite repeat_length; exact Hn). rewrite Hz. cbn [Z.eqb negb zlen List.length Z.of_nat Pos.of_succ_nat Pos.succ]. reflexivity. }
    split; [exact E|]. intros Hf. rewrite C60_sentences by (reflexivity || exact Hf). rewrite E. cbn [while]. unfold piece_fits at 1. cbn [fst snd].
    assert (zlen (repeat 97 n) = 65536) as Hz by (unfold zlen; rewrite repeat_length; exact Hn). rewrite Hz. reflexivity.
  - exists (fun c => c =? RuneError), [195; 169]. split; [vm_compute; reflexivity|]. split; vm_compute; reflexivity.
Qed.
Print Assumptions C60_pieces_refuted.

(** ** C68 *)
(** The entries of a dictionary opened in memory are the lines of the file, in order, up to
    the first line of 65536 bytes or more, whatever the sizes of the reads. *)
Theorem C68_entries : forall chunk file fuel, (2 * List.length file + 1 < fuel)%nat ->
  OpenRAMDictionary chunk fuel file = map without_cr (while line_fits (raw_lines file)).
Proof. intros chunk file fuel Hf. unfold OpenRAMDictionary. rewrite scan_lines by exact Hf. reflexivity. Qed.
Print Assumptions C68_entries.

Theorem C68_all_lines_partial : forall chunk file fuel, (2 * List.length file + 1 < fuel)%nat ->
  (forall l, In l (raw_lines file) -> zlen l < 65536) ->
  OpenRAMDictionary chunk fuel file = map without_cr (raw_lines file).
Proof.
  intros chunk file fuel Hf Hl. rewrite C68_entries by exact Hf. f_equal. induction (raw_lines file) as [|l ls IH]; [reflexivity|]. cbn [while].
  assert (line_fits l = true) as -> by (unfold line_fits; specialize (Hl l (or_introl eq_refl)); lia). f_equal. apply IH. intros l' H. apply Hl. right. exact H.
Qed.
Print Assumptions C68_all_lines_partial.

(** What is written one word per line reads back. *)
Theorem C68_words_roundtrip : forall chunk words fuel,
  let file := flat_map (fun w => w ++ [10]) words in
  (2 * List.length file + 1 < fuel)%nat ->
  (forall w, In w words -> zlen w < 65536 /\ ~ In 10 w /\ (forall v, w <> v ++ [13])) ->
  OpenRAMDictionary chunk fuel file = words.
Proof.
  intros chunk words fuel file Hf Hw.
  assert (forall w t cur, ~ In 10 w -> cut_lines (w ++ t) cur = cut_lines t (cur ++ w)) as Hcut.
  { intros w. induction w as [|c w IH]; intros t cur Hn; [rewrite app_nil_r; reflexivity|]. cbn [app cut_lines]. destruct (c =? 10) eqn:E; [exfalso; apply Hn; left; lia|].
    rewrite IH by (intros H; apply Hn; right; exact H). rewrite <- app_assoc. reflexivity. }
  assert (raw_lines file = words) as E.
  { unfold file, raw_lines. clear Hf file. induction words as [|w words IH]; [reflexivity|]. cbn [flat_map]. rewrite <- app_assoc, Hcut by (apply Hw; left; reflexivity).
    cbn [app cut_lines Z.eqb Pos.eqb]. rewrite IH by (intros w' H; apply Hw; right; exact H). reflexivity. }
  rewrite C68_all_lines_partial; [|exact Hf|rewrite E; intros l H; apply Hw; exact H]. rewrite E. clear - Hw.
  induction words as [|w words IH]; [reflexivity|]. cbn [map]. rewrite IH by (intros w' H; apply Hw; right; exact H). f_equal.
  destruct (Hw w (or_introl eq_refl)) as (_ & _ & Hcr). unfold without_cr. destruct (rev w) as [|c t] eqn:Er; [reflexivity|].
  destruct (Z.eq_dec c 13) as [->|Hne]; [exfalso; apply (Hcr (rev t)); rewrite <- (rev_involutive w), Er; reflexivity|].
  destruct c as [|p|p]; try reflexivity. destruct p as [p|p|]; try reflexivity. destruct p as [p|p|]; try reflexivity. destruct p as [p|p|]; try reflexivity. destruct p; try reflexivity. congruence.
Qed.
Print Assumptions C68_words_roundtrip.
Example C68_nonvacuous :
  let words := [bs "apple"; bs ""; bs "pear juice"; bs "fig"] in
  (forall w, In w words -> zlen w < 65536 /\ ~ In 10 w /\ (forall v, w <> v ++ [13]))
  /\ OpenRAMDictionary (fun _ => 1%nat) 100 (flat_map (fun w => w ++ [10]) words) = words
  /\ OpenRAMDictionary (fun _ => 7%nat) 100 (bs "apple" ++ [13; 10; 10] ++ bs "pear") = [bs "apple"; bs ""; bs "pear"].
Proof.
  split; [|split; vm_compute; reflexivity].
  assert (forall w : bytes, last w 0 <> 13 -> forall v, w <> v ++ [13]) as Hl by (intros w H v ->; rewrite last_last in H; congruence).
  intros w [<-|[<-|[<-|[<-|[]]]]]; (split; [vm_compute; reflexivity|]; split; [|apply Hl; vm_compute; discriminate]);
    cbn; intros H; repeat (destruct H as [H|H]; [discriminate H|]); exact H.
Qed.

(** Refuted for every line: a line of 65536 bytes ends the dictionary, and no error is
    returned. *)
Theorem C68_all_lines_refuted : exists n : nat, forall chunk fuel,
  let file := (repeat 97 n ++ [10] ++ bs "pear")%list in
  raw_lines file = [repeat 97 n; bs "pear"]
  /\ ((2 * List.length file + 1 < fuel)%nat -> OpenRAMDictionary chunk fuel file = []).
Proof.
  assert (exists n, Z.of_nat n = 65536) as [n Hn] by (exists (Z.to_nat 65536); apply Z2Nat.id; lia). exists n. intros chunk fuel file.
  assert (raw_lines file = [repeat 97 n; bs "pear"]) as E.
  { unfold file, raw_lines. assert (forall k t cur, cut_lines (repeat 97 k ++ t) cur = cut_lines t (cur ++ repeat 97 k)) as H.
    { induction k as [|k IH]; intros t cur; [cbn; rewrite app_nil_r; reflexivity|]. cbn [repeat app cut_lines Z.eqb Pos.eqb]. rewrite IH, <- app_assoc. reflexivity. }
    rewrite H. reflexivity. }
  split; [exact E|]. intros Hf. rewrite C68_entries by exact Hf. rewrite E. cbn [while]. unfold line_fits at 1.
  assert (zlen (repeat 97 n) = 65536) as -> by (unfold zlen; rewrite repeat_length; exact Hn). reflexivity.
Qed.
Print Assumptions C68_all_lines_refuted.
