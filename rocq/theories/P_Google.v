(** C59 Google n-gram files round trip. *)
From Coq Require Import String ZifyBool.
From Verif Require Import Base BaseLemmas GoMap CountTrie CountTrieSpec CountTrieProofs P_CountTrie Scanner ScannerSpec Decimal Merger NGram NGramSpec P_NGram GoogleNGram GoogleProofs.
Local Open Scope Z_scope.

(** N-grams of 1 to [order] words; words without space, tab and newline; counts that are
    uint32; lines of fewer than 65536 bytes. *)
Definition writable (order : Z) (es : list (list bytes * Z)) : Prop :=
  forall g c, In (g, c) es -> 1 <= zlen g <= order /\ (forall w, In w g -> plain w) /\ is_u32 c /\ zlen (Join g ++ 9 :: dec c) < 65536.
Lemma writable_ok order es : writable order es -> Forall entry_ok es.
Proof.
  intros H. apply Forall_forall. intros [g c] Hin. destruct (H g c Hin) as (H1 & H2 & H3 & H4). split; [intros E; cbn [fst] in E; subst g; change (zlen (@nil bytes)) with 0 in H1; lia|].
  split; [apply Forall_forall; exact H2|]. split; assumption.
Qed.
Lemma writable_orders order es k : writable order es -> Forall entry_ok (of_order k es).
Proof. intros H. apply writable_ok in H. rewrite Forall_forall in *. intros e He. apply filter_In in He. apply H, He. Qed.
(** The n-grams of k words, in the order written, as word numbers. *)
Definition lines_of (id : bytes -> Z) (k : nat) (es : list (list bytes * Z)) : list (list Z * Z) :=
  map (fun e => (map id (fst e), snd e)) (filter (fun e => (List.length (fst e) =? k)%nat) es).

(** Each of the files written holds the n-grams of its length, one per line; reading scans
    and parses each line to that n-gram and count, however the reads return. *)
Theorem C59_lines : forall order es get id, 0 <= order -> writable order es ->
  (forall g c w, In (g, c) es -> In w g -> get w = Ret (id w)) ->
  exists files, feed write_ngram es (repeat [] (Z.to_nat order)) = (Ret tt, files) /\ zlen files = order
  /\ forall k file, nth_error files k = Some file -> forall chunk fuel, (2 * List.length file + 1 < fuel)%nat ->
     exists lines, scan_all ScanLines chunk fuel (NewScanner file) = (lines, Ret tt)
     /\ map (parse_line get) lines = map Ret (lines_of id (S k) es).
Proof.
  intros order es get id Ho Hw Hg. exists (map file_of (by_order (Z.to_nat order) es)). split.
  { apply write_files. intros g c Hin. destruct (Hw g c Hin) as (H1 & _). unfold zlen in H1. lia. }
  split. { unfold zlen, by_order. rewrite !map_length, seq_length. lia. }
  intros k file E chunk fuel Hf. unfold by_order in E. rewrite map_map in E. rewrite nth_error_map in E.
  destruct (nth_error (seq 1 (Z.to_nat order)) k) as [k'|] eqn:Ek; [|discriminate]. cbn [option_map] in E. injection E as <-.
  assert (k' = S k) as ->. { pose proof Ek as Ek2. apply nth_error_nth with (d := O) in Ek2. rewrite seq_nth in Ek2; [lia|]. rewrite <- (seq_length (Z.to_nat order) 1). apply nth_error_Some. rewrite Ek. discriminate. }
  exists (map (fun e => body (fst e) (snd e)) (of_order (S k) es)). split; [apply file_scan; [apply (writable_orders _ _ _ Hw)|exact Hf]|].
  unfold lines_of. rewrite !map_map. apply map_ext_in. intros e He. apply parse_body.
  - pose proof (writable_orders _ _ (S k) Hw) as Hok. rewrite Forall_forall in Hok. apply Hok, He.
  - intros w Hiw. apply filter_In in He. destruct e as [g c]. apply (Hg g c w); [apply He|exact Hiw].
Qed.
Print Assumptions C59_lines.

(** The model read is the one built from the written n-grams and counts. *)
Theorem C59_model : forall order es get id, 1 <= order -> writable order es ->
  (forall g c w, In (g, c) es -> In w g -> get w = Ret (id w)) ->
  exists files, feed write_ngram es (repeat [] (Z.to_nat order)) = (Ret tt, files)
  /\ forall chunk fuel, (forall f, In f files -> (2 * List.length f + 1 < fuel)%nat) ->
     ReadNGrams get chunk fuel order files
     = (ixs <- read_vectors [] (map (fun k => lines_of id k es) (seq 1 (Z.to_nat order))) ;; Ret (NewNGramModel ixs)).
Proof.
  intros order es get id Ho Hw Hg. exists (map file_of (by_order (Z.to_nat order) es)). split.
  { apply write_files. intros g c Hin. destruct (Hw g c Hin) as (H1 & _). unfold zlen in H1. lia. }
  intros chunk fuel Hf. unfold ReadNGrams. assert (order =? 0 = false) as -> by lia.
  replace (Z.to_nat order) with (List.length (by_order (Z.to_nat order) es)) at 1 by (unfold by_order; rewrite map_length, seq_length; reflexivity).
  rewrite <- (app_nil_r (map file_of _)). rewrite (read_files_ok get id).
  - unfold by_order. rewrite map_map. reflexivity.
  - apply Forall_forall. intros x Hx. unfold by_order in Hx. apply in_map_iff in Hx. destruct Hx as (k & <- & _). apply (writable_orders _ _ _ Hw).
  - intros x g c w Hx Hin Hiw. unfold by_order in Hx. apply in_map_iff in Hx. destruct Hx as (k & <- & _). apply filter_In in Hin. apply (Hg g c w); [apply Hin|exact Hiw].
  - intros x Hx. apply Hf. apply in_map. exact Hx.
Qed.
Print Assumptions C59_model.

(** A count trie written and read back: when the trie holds sentences of at most [order]
    words, with their sums below 2^32, the files hold exactly its sentences and sums. *)
Theorem C59_trie_partial : forall puts ord order get id, (forall p l, Permutation l (ord p l)) ->
  zlen (nodup (list_eq_dec Z.eq_dec) (flat_map fst puts)) < 2 ^ 32 -> (exists p, In p puts /\ fst p <> []) -> 1 <= order ->
  (forall s, 0 <= put_total puts s < 2 ^ 32) -> put_total puts [] = 0 ->
  (forall s, 0 < put_total puts s -> zlen s <= order /\ (forall w, In w s -> plain w /\ get w = Ret (id w)) /\ zlen (Join s ++ 9 :: dec (put_total puts s)) < 65536) ->
  exists es files, WriteNGrams ord order (put_all puts) = Ret files
  /\ NoDup (map fst es) /\ (forall s c, In (s, c) es <-> c = put_total puts s /\ 0 < c)
  /\ forall chunk fuel, (forall f, In f files -> (2 * List.length f + 1 < fuel)%nat) ->
     ReadNGrams get chunk fuel order files
     = (ixs <- read_vectors [] (map (fun k => lines_of id k es) (seq 1 (Z.to_nat order))) ;; Ret (NewNGramModel ixs)).
Proof.
  intros puts ord order get id Hord Hd Hne Ho Hs H0 Hp. destruct (C46_walk_sums puts ord Hord Hd Hne Hs) as (es & E1 & E2 & E3).
  assert (writable order es) as Hw.
  { intros g c Hin. apply E2 in Hin. destruct Hin as [-> Hc]. destruct (Hp g Hc) as (P1 & P2 & P3). split; [split; [|exact P1]|].
    - destruct g; [lia|]. rewrite zlen_cons. pose proof (zlen_nonneg g). lia.
    - split; [intros w Hin; apply P2, Hin|]. split; [unfold is_u32; apply Hs|exact P3]. }
  destruct (C59_model order es get id Ho Hw) as (files & F1 & F2).
  { intros g c w Hin Hiw. apply E2 in Hin. destruct Hin as [-> Hc]. apply (Hp g Hc). exact Hiw. }
  exists es, files. split; [|split; [exact E1|split; [exact E2|exact F2]]]. unfold WriteNGrams. rewrite E3, F1. reflexivity.
Qed.
Print Assumptions C59_trie_partial.

Definition puts1 : list (list bytes * Z) := [([bs "i"], 2); ([bs "i"; bs "am"], 2); ([bs "am"], 1); ([bs "am"], 1); ([bs "i"; bs "am"; bs "sam"], 1)].
Definition get1 (w : bytes) : res Z := if beqb w (bs "i") then Ret 1 else if beqb w (bs "am") then Ret 2 else Ret 3.
Example C59_nonvacuous :
  WriteNGrams ord_rev 3 (put_all puts1) = Ret [bs "am" ++ [9; 50; 10] ++ bs "i" ++ [9; 50; 10]; bs "i am" ++ [9; 50; 10]; bs "i am sam" ++ [9; 49; 10]]%list
  /\ (forall s, 0 < put_total puts1 s -> zlen s <= 3 /\ (forall w, In w s -> plain w /\ get1 w = Ret (if beqb w (bs "i") then 1 else if beqb w (bs "am") then 2 else 3)) /\ zlen (Join s ++ 9 :: dec (put_total puts1 s)) < 65536)
  /\ read_vectors [] [[([2], 2); ([1], 2)]; [([1; 2], 2)]; [([1; 2; 3], 1)]] <> NoFuel
  /\ ReadNGrams get1 (fun _ => 5%nat) 100 3 [bs "am" ++ [9; 50; 10] ++ bs "i" ++ [9; 50; 10]; bs "i am" ++ [9; 50; 10]; bs "i am sam" ++ [9; 49; 10]]%list
     = (ixs <- read_vectors [] [[([2], 2); ([1], 2)]; [([1; 2], 2)]; [([1; 2; 3], 1)]] ;; Ret (NewNGramModel ixs)).
Proof.
  split; [vm_compute; reflexivity|]. split; [|split; [vm_compute; discriminate|vm_compute; reflexivity]].
  intros s Hs. assert (In s (map fst puts1)) as Hin.
  { destruct (in_dec (list_eq_dec (list_eq_dec Z.eq_dec)) s (map fst puts1)) as [H|H]; [exact H|]. exfalso. assert (put_total puts1 s = 0) as E; [|lia].
    clear Hs. induction puts1 as [|p l IH]; [reflexivity|]. cbn [put_total fold_right map In] in *. fold (put_total l s). rewrite IH by tauto. destruct (sent_eqb (fst p) s) eqn:E; [apply sent_eqb_ok in E; tauto|reflexivity]. }
  cbn [map In puts1 fst] in Hin.
  assert (forall w, In w [bs "i"; bs "am"; bs "sam"] -> plain w) as Hpl.
  { intros w [<-|[<-|[<-|[]]]]; repeat split; cbn; intros H; repeat (destruct H as [H|H]; [discriminate H|]); exact H. }
  assert (forall g, (g = [bs "i"] \/ g = [bs "am"] \/ g = [bs "i"; bs "am"] \/ g = [bs "i"; bs "am"; bs "sam"]) -> zlen g <= 3 /\ (forall w, In w g -> plain w /\ get1 w = Ret (if beqb w (bs "i") then 1 else if beqb w (bs "am") then 2 else 3)) /\ zlen (Join g ++ 9 :: dec (put_total puts1 g)) < 65536) as G.
  { intros g [-> | [-> | [-> | ->]]]; (split; [vm_compute; discriminate|]); (split; [|vm_compute; reflexivity]); intros w Hw; (split; [apply Hpl; cbn [In] in *; tauto|]); unfold get1; destruct (beqb w (bs "i")); try reflexivity; destruct (beqb w (bs "am")); reflexivity. }
  apply G. destruct Hin as [<-|[<-|[<-|[<-|[<-|[]]]]]]; tauto.
Qed.

Lemma one_put s ord S (cb : S -> list bytes -> Z -> option err * S) st : (forall p l, Permutation l (ord p l)) -> s <> [] -> zlen (nodup (list_eq_dec Z.eq_dec) s) < 2 ^ 32 ->
  Walk ord cb (put_all [(s, 1)]) st = feed cb [(s, 1)] st.
Proof.
  intros Hord Hs Hd. assert (forall t, put_total [(s, 1)] t = if sent_eqb s t then 1 else 0) as Ht by (intros t; cbn [put_total fold_right fst snd]; destruct (sent_eqb s t); reflexivity).
  destruct (C46_walk_sums [(s, 1)] ord Hord) as (calls & H1 & H2 & H3).
  - cbn [flat_map fst]. rewrite app_nil_r. exact Hd.
  - exists (s, 1). split; [left; reflexivity|exact Hs].
  - intros t. rewrite Ht. destruct (sent_eqb s t); lia.
  - rewrite H3. f_equal. assert (In (s, 1) calls) as Hin. { apply H2. rewrite Ht. assert (sent_eqb s s = true) as -> by (apply sent_eqb_ok; reflexivity). lia. }
    assert (forall e, In e calls -> e = (s, 1)) as Hall.
    { intros [t c] He. apply H2 in He. rewrite Ht in He. destruct (sent_eqb s t) eqn:E; [|lia]. apply sent_eqb_ok in E. subst t. destruct He as [-> _]. reflexivity. }
    destruct calls as [|a [|b calls]]; [destruct Hin|rewrite (Hall a (or_introl eq_refl)); reflexivity|]. exfalso.
    rewrite (Hall a (or_introl eq_refl)), (Hall b (or_intror (or_introl eq_refl))) in H1. cbn [map fst] in H1. inversion H1 as [|? ? Hn _]; subst. apply Hn. left. reflexivity.
Qed.
Lemma write_one s ord order : (forall p l, Permutation l (ord p l)) -> s <> [] -> zlen (nodup (list_eq_dec Z.eq_dec) s) < 2 ^ 32 ->
  WriteNGrams ord order (put_all [(s, 1)]) = match write_ngram (repeat [] (Z.to_nat order)) s 1 with (None, o) => Ret o | (Some e, _) => Fail e end.
Proof. intros. unfold WriteNGrams. rewrite one_put by assumption. cbn [feed]. destruct (write_ngram _ s 1) as [[e|] o]; reflexivity. Qed.
Lemma read_one get chunk fuel file : ReadNGrams get chunk fuel 1 [file]
  = (ixs <- (tree <- (let '(lines, e) := scan_all ScanLines chunk fuel (NewScanner file) in t <- read_lines get [] [] lines ;; _ <- e ;; Ret t) ;; Ret [CreatePackedArray tree]) ;; Ret (NewNGramModel ixs)).
Proof. reflexivity. Qed.
Ltac comp t := let v := eval vm_compute in t in change t with v.
(** Outside of that: a word with a space comes back as two words; one with a tab makes the
    file unreadable; a line without a tab panics; n-grams longer than the order make the
    writer fail. *)
Theorem C59_any_word_refuted : forall get chunk ord, (forall p l, Permutation l (ord p l)) -> (forall w, exists i, get w = Ret i) ->
  (exists file, WriteNGrams ord 1 (put_all [([bs "new york"], 1)]) = Ret [file]
     /\ (forall i j, get (bs "new") = Ret i -> get (bs "york") = Ret j -> parse_line get (removelast file) = Ret ([i; j], 1))
     /\ exists e, ReadNGrams get chunk 100 1 [file] = Fail e)
  /\ (exists file, WriteNGrams ord 1 (put_all [([[97; 9; 98]], 1)]) = Ret [file] /\ exists e, ReadNGrams get chunk 100 1 [file] = Fail e)
  /\ ReadNGrams get chunk 100 1 [bs "word 5"] = Panic
  /\ (exists e, WriteNGrams ord 1 (put_all [([bs "a"; bs "b"], 1)]) = Fail e).
Proof.
  intros get chunk ord Hord Hget. split; [|split; [|split]].
  - exists (bs "new york" ++ [9; 49; 10])%list. split; [rewrite write_one; [reflexivity|exact Hord|discriminate|vm_compute; reflexivity]|].
    destruct (Hget (bs "new")) as [i Ei]. destruct (Hget (bs "york")) as [j Ej]. split.
    { intros i' j' Ei' Ej'. change (removelast (bs "new york" ++ [9; 49; 10])%list) with (bs "new york" ++ [9; 49])%list. unfold parse_line. comp (index_tab (bs "new york" ++ [9; 49])%list). cbv iota beta.
      comp (Split (firstn 8 (bs "new york" ++ [9; 49])%list)). comp (ParseUint32 (skipn 9 (bs "new york" ++ [9; 49])%list)). cbn [get_all]. change [110; 101; 119] with (bs "new"). change [121; 111; 114; 107] with (bs "york"). rewrite Ei', Ej'. reflexivity. }
    exists (ErrOther 30). rewrite read_one.
    rewrite ScannerProofs2.scan_lines by (vm_compute; lia). comp (ScannerProofs2.lines_result (bs "new york" ++ [9; 49; 10])%list).
    cbn [read_lines]. unfold parse_line. match goal with |- context[index_tab ?x] => comp (index_tab x) end. cbv iota beta.
    match goal with |- context[Split ?x] => comp (Split x) end. match goal with |- context[ParseUint32 ?x] => comp (ParseUint32 x) end. cbn [get_all]. change [110; 101; 119] with (bs "new"). change [121; 111; 114; 107] with (bs "york"). rewrite Ei, Ej. reflexivity.
  - exists [97; 9; 98; 9; 49; 10]. split; [rewrite write_one; [reflexivity|exact Hord|discriminate|vm_compute; reflexivity]|].
    destruct (Hget [97]) as [i Ei]. exists (ErrOther 60). rewrite read_one.
    rewrite ScannerProofs2.scan_lines by (vm_compute; lia). comp (ScannerProofs2.lines_result [97; 9; 98; 9; 49; 10]).
    cbn [read_lines]. unfold parse_line. match goal with |- context[index_tab ?x] => comp (index_tab x) end. cbv iota beta.
    match goal with |- context[Split ?x] => comp (Split x) end. match goal with |- context[ParseUint32 ?x] => comp (ParseUint32 x) end. cbn [get_all]. rewrite Ei. reflexivity.
  - rewrite read_one.
    rewrite ScannerProofs2.scan_lines by (vm_compute; lia). reflexivity.
  - exists (ErrOther 22). rewrite write_one; [reflexivity|exact Hord|discriminate|vm_compute; reflexivity].
Qed.
Print Assumptions C59_any_word_refuted.
