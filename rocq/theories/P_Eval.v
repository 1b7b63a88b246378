(** C89: the eval commands. *)
From Coq Require Import String ZifyBool Reals Lra Lia.
From Verif Require Import Base BaseLemmas GoMap Store StoreSpec Postings PostingsSpec PostingsDrive P_PostingsLemmas Merger MergerSpec P_MergerLemmas Index IndexSpec P_IndexLemmas Text TextProofs TextProofs2 Analysis AnalysisSpec
  Float64 Metric MetricSpec FloatProofs MetricFloat TopK Suggest SuggestSpec P_Suggest NGram GoogleNGram LMText LMPipeline LMPipelineSpec P_Pipeline Spell Scanner ScannerSpec ScannerProofs2 Http HttpSpec P_Http Handlers NGramIndex NGramIndexSpec NGramIndexProofs P_NGramIndex Eval EvalSpec.
Local Open Scope Z_scope.
Local Notation length := List.length.

Section Walk.
Context {Q A : Type} (asks : bytes -> option Q) (ask : nat -> Q -> option (res A)).
(* the session over the lines *)
Fixpoint walk (i : nat) (lines : list bytes) (last : res unit) : list (event A) * option (res unit) :=
  match lines with
  | [] => ([], Some last)
  | t :: ls =>
      match asks t with
      | None => let '(o, r) := walk i ls last in (Prompt :: o, r)
      | Some q =>
          match ask i q with
          | Some (Ret a) => let '(o, r) := walk (S i) ls last in (Answer a :: Prompt :: o, r)
          | Some (Fail e) => ([], Some (Fail e))
          | Some Panic => ([], Some Panic)
          | Some NoFuel => ([], Some NoFuel)
          | None => ([], None)
          end
      end
  end.
Lemma session_walk prep chunk fuel : (forall l, prep l = Ret (asks l)) -> forall i s, snd (scan_all ScanLines chunk fuel s) <> NoFuel -> session prep ask chunk fuel i s = walk i (fst (scan_all ScanLines chunk fuel s)) (snd (scan_all ScanLines chunk fuel s)).
Proof.
  intros Hprep. induction fuel as [|f IH]; intros i s H; [exfalso; apply H; reflexivity|]. cbn [session scan_all] in *. destruct (step ScanLines chunk s) as [t s'|s1| | |] eqn:Est; try reflexivity.
  - destruct (scan_all ScanLines chunk f s') as [ts r] eqn:E. cbn [fst snd] in *. cbn [walk]. rewrite Hprep. destruct (asks t) as [q|].
    + destruct (ask i q) as [[a|e| |]|]; try reflexivity. rewrite IH by (rewrite E; exact H). rewrite E. reflexivity.
    + rewrite IH by (rewrite E; exact H). rewrite E. reflexivity.
  - apply IH. exact H.
Qed.
Lemma walk_spec lines last : forall i o r, walk i lines last = (o, r) ->
  exists n, length (answers o) = n /\ (n <= length (questions asks lines))%nat /\
  (forall j a, nth_error (answers o) j = Some a -> exists q, nth_error (questions asks lines) j = Some q /\ ask (i + j) q = Some (Ret a)) /\
  (n = length (questions asks lines) -> r = Some last /\ prompts o = length lines) /\
  ((n < length (questions asks lines))%nat -> exists q, nth_error (questions asks lines) n = Some q /\
     match ask (i + n)%nat q with Some (Ret _) => False | Some (Fail e) => r = Some (Fail e) | Some Panic => r = Some Panic | Some NoFuel => r = Some NoFuel | None => r = None end).
Proof.
  induction lines as [|t ls IH]; intros i o r E; cbn [walk questions] in *.
  - injection E as <- <-. exists 0%nat. cbn. split; [reflexivity|]. split; [lia|]. split; [intros [|j] a Hj; discriminate|]. split; [split; reflexivity|lia].
  - destruct (asks t) as [q|].
    + destruct (ask i q) as [[a|e| |]|] eqn:Ea.
      * destruct (walk (S i) ls last) as [o' r'] eqn:E'. injection E as <- <-. destruct (IH _ _ _ E') as (n & Hn & H1 & H2 & H3 & H4). exists (S n). cbn [answers length]. split; [lia|]. split; [lia|].
        split; [|split].
        -- intros [|j] x Hj; cbn [nth_error] in *; [injection Hj as <-; exists q; split; [reflexivity|rewrite Nat.add_0_r; exact Ea]|]. destruct (H2 j x Hj) as (q' & Q1 & Q2). exists q'. split; [exact Q1|]. replace (i + S j)%nat with (S i + j)%nat by lia. exact Q2.
        -- intros Hl. destruct (H3 ltac:(lia)) as [R P]. split; [exact R|]. unfold prompts in *. cbn [filter length]. lia.
        -- intros Hl. destruct (H4 ltac:(lia)) as (q' & Q1 & Q2). exists q'. split; [exact Q1|]. replace (i + S n)%nat with (S i + n)%nat by lia. exact Q2.
      * injection E as <- <-. exists 0%nat. split; [reflexivity|]. split; [lia|]. split; [intros [|j] x Hj; discriminate|]. split; [cbn; lia|]. intros _. exists q. split; [reflexivity|]. rewrite Nat.add_0_r, Ea. reflexivity.
      * injection E as <- <-. exists 0%nat. split; [reflexivity|]. split; [lia|]. split; [intros [|j] x Hj; discriminate|]. split; [cbn; lia|]. intros _. exists q. split; [reflexivity|]. rewrite Nat.add_0_r, Ea. reflexivity.
      * injection E as <- <-. exists 0%nat. split; [reflexivity|]. split; [lia|]. split; [intros [|j] x Hj; discriminate|]. split; [cbn; lia|]. intros _. exists q. split; [reflexivity|]. rewrite Nat.add_0_r, Ea. reflexivity.
      * injection E as <- <-. exists 0%nat. split; [reflexivity|]. split; [lia|]. split; [intros [|j] x Hj; discriminate|]. split; [cbn; lia|]. intros _. exists q. split; [reflexivity|]. rewrite Nat.add_0_r, Ea. reflexivity.
    + destruct (walk i ls last) as [o' r'] eqn:E'. injection E as <- <-. destruct (IH _ _ _ E') as (n & Hn & H1 & H2 & H3 & H4). exists n. cbn [answers]. split; [exact Hn|]. split; [exact H1|]. split; [exact H2|]. split; [|exact H4].
      intros Hl. destruct (H3 Hl) as [R P]. split; [exact R|]. unfold prompts in *. cbn [filter length]. lia.
Qed.
(* more input never changes what was printed before *)
Lemma walk_app l1 l2 last last' : forall i, exists o, fst (walk i (l1 ++ l2) last') = fst (walk i l1 last) ++ o.
Proof.
  induction l1 as [|t l1 IH]; intros i; [exists (fst (walk i l2 last')); reflexivity|]. cbn [app walk]. destruct (asks t) as [q|].
  - destruct (ask i q) as [[a|e| |]|]; try (exists []; reflexivity). destruct (IH (S i)) as [o Ho]. exists o. destruct (walk (S i) (l1 ++ l2) last'), (walk (S i) l1 last). cbn [fst] in *. rewrite Ho. reflexivity.
  - destruct (IH i) as [o Ho]. exists o. destruct (walk i (l1 ++ l2) last'), (walk i l1 last). cbn [fst] in *. rewrite Ho. reflexivity.
Qed.
End Walk.

(** ** C89 *)
(** Every session: the questions of the lines are answered one after the other, each by the
    call made for it; the session ends with success when all are answered, with an error
    behind the last line that comes in when a longer line follows, and otherwise as the first
    call that gave no answer. *)
Theorem C89_session : forall (Q A : Type) prep (asks : bytes -> option Q) (ask : nat -> Q -> option (res A)) chunk fuel stdin o r,
  (forall l, prep l = Ret (asks l)) -> (2 * length stdin + 1 < fuel)%nat -> evaluate prep ask chunk fuel stdin = (o, r) ->
  let qs := questions asks (lines_in stdin) in
  (length (answers o) <= length qs)%nat /\
  (forall i a, nth_error (answers o) i = Some a -> exists q, nth_error qs i = Some q /\ ask i q = Some (Ret a)) /\
  (length (answers o) = length qs -> r = Some (if forallb line_fits (raw_lines stdin) then Ret tt else Fail ErrTooLong) /\ prompts o = S (length (lines_in stdin))) /\
  ((length (answers o) < length qs)%nat -> exists q, nth_error qs (length (answers o)) = Some q /\
     match ask (length (answers o)) q with Some (Ret _) => False | Some (Fail e) => r = Some (Fail e) | Some Panic => r = Some Panic | Some NoFuel => r = Some NoFuel | None => r = None end).
Proof.
  intros Q A prep asks ask chunk fuel stdin o r Hp Hf E qs. unfold evaluate in E. destruct (session prep ask chunk fuel 0 (NewScanner stdin)) as [o' r'] eqn:Es. injection E as <- <-.
  rewrite (session_walk asks ask prep chunk fuel Hp) in Es by (rewrite scan_lines by exact Hf; unfold lines_result; cbn [snd]; destruct (forallb _ _); discriminate). rewrite scan_lines in Es by exact Hf. unfold lines_result in Es. cbn [fst snd] in Es. fold (lines_in stdin) in Es.
  destruct (walk_spec asks ask _ _ _ _ _ Es) as (n & Hn & H1 & H2 & H3 & H4). cbn [answers]. rewrite Hn. fold qs in H1, H2, H3, H4. split; [exact H1|]. split; [exact H2|]. split; [|exact H4].
  intros Hl. destruct (H3 Hl) as [R P]. split; [exact R|]. unfold prompts in *. cbn [filter length]. lia.
Qed.
Print Assumptions C89_session.

(* lines of a text and of what follows it *)
Lemma cut_app a : forall b cur, cut_lines (a ++ 10 :: b) cur = cut_lines (a ++ [10]) cur ++ cut_lines b [].
Proof. induction a as [|c a IH]; intros b cur; cbn [app cut_lines]; [reflexivity|]. destruct (c =? 10); [rewrite IH; reflexivity|apply IH]. Qed.
Lemma while_app {A} (f : A -> bool) l1 l2 : exists l, while f (l1 ++ l2) = while f l1 ++ l.
Proof. induction l1 as [|x l1 [l IH]]; [exists (while f l2); reflexivity|]. cbn [app while]. destruct (f x); [exists l; rewrite IH; reflexivity|exists []; reflexivity]. Qed.
(** What was printed for the lines so far does not depend on what is typed later. *)
Theorem C89_interactive : forall (Q A : Type) prep (asks : bytes -> option Q) (ask : nat -> Q -> option (res A)) chunk chunk' fuel before after,
  (forall l, prep l = Ret (asks l)) -> (2 * length (before ++ 10%Z :: after) + 1 < fuel)%nat ->
  exists o, fst (evaluate prep ask chunk fuel (before ++ 10 :: after)) = fst (evaluate prep ask chunk' fuel (before ++ [10])) ++ o.
Proof.
  intros Q A prep asks ask chunk chunk' fuel before after Hp Hf. assert (2 * length (before ++ [10%Z]) + 1 < fuel)%nat as Hf' by (rewrite app_length in *; cbn [length] in *; lia). unfold evaluate.
  assert (forall c text, (2 * length text + 1 < fuel)%nat -> session prep ask c fuel 0 (NewScanner text) = walk asks ask 0 (lines_in text) (if forallb line_fits (raw_lines text) then Ret tt else Fail ErrTooLong)) as Hs.
  { intros c text Ht. rewrite (session_walk asks ask prep c fuel Hp) by (rewrite scan_lines by exact Ht; unfold lines_result; cbn [snd]; destruct (forallb _ _); discriminate). rewrite scan_lines by exact Ht. reflexivity. }
  rewrite !Hs by assumption. assert (exists l, lines_in (before ++ 10 :: after) = lines_in (before ++ [10]) ++ l) as [l ->].
  { unfold lines_in, raw_lines. rewrite cut_app. destruct (while_app line_fits (cut_lines (before ++ [10]) []) (cut_lines after [])) as [l ->]. rewrite map_app. eexists. reflexivity. }
  destruct (walk_app asks ask (lines_in (before ++ [10])) l (if forallb line_fits (raw_lines (before ++ [10])) then Ret tt else Fail ErrTooLong) (if forallb line_fits (raw_lines (before ++ 10 :: after)) then Ret tt else Fail ErrTooLong) 0%nat) as [o Ho]. exists o.
  destruct (walk asks ask 0 (lines_in (before ++ [10]) ++ l) _), (walk asks ask 0 (lines_in (before ++ [10])) _). cbn [fst] in *. rewrite Ho. reflexivity.
Qed.
Print Assumptions C89_interactive.

(** ** The question of a line: the line without white space around it *)
Lemma is_space r : IsSpace r = true <-> In r white_space.
Proof.
  unfold white_space, IsSpace. cbn [In]. split; intros H.
  - assert (9 <= r <= 13 \/ r = 32 \/ r = 133 \/ r = 160 \/ r = 5760 \/ 8192 <= r <= 8202 \/ r = 8232 \/ r = 8233 \/ r = 8239 \/ r = 8287 \/ r = 12288) as H' by lia. clear H. intuition lia.
  - lia.
Qed.
Lemma drop_space_spec l : exists a m, l = a ++ m /\ drop_space l = m /\ (forall x, In x a -> In (fst x) white_space) /\ forall x t, m = x :: t -> ~ In (fst x) white_space.
Proof.
  induction l as [|[r b] l (a & m & -> & E & H1 & H2)]; [exists [], []; repeat split; [intros x []|discriminate]|]. cbn [drop_space]. destruct (IsSpace r) eqn:Er.
  - exists ((r, b) :: a), m. split; [reflexivity|]. split; [exact E|]. split; [|exact H2]. intros x [<-|Hx]; [apply is_space; exact Er|apply H1; exact Hx].
  - exists [], ((r, b) :: a ++ m). split; [reflexivity|]. split; [reflexivity|]. split; [intros x []|]. intros x t Ex. injection Ex as <- _. intros Hi. apply is_space in Hi. cbn [fst] in Hi. congruence.
Qed.
Theorem C89_trimmed : forall s, trimmed s (TrimSpace s).
Proof.
  intros s. destruct (drop_space_spec (runes s)) as (a & m & E1 & E2 & H1 & H2). destruct (drop_space_spec (rev m)) as (b & n & E3 & E4 & H3 & H4).
  exists a, (rev n), (rev b). apply (f_equal (@rev _)) in E3. rewrite rev_involutive, rev_app_distr in E3. split; [rewrite E1, E3; reflexivity|]. split; [unfold TrimSpace; rewrite E2, E4; reflexivity|]. split; [|split].
  - intros x Hx. apply in_app_iff in Hx. destruct Hx as [Hx|Hx]; [apply H1; exact Hx|apply H3; apply in_rev; exact Hx].
  - intros x l El. apply (H2 x (l ++ rev b)). rewrite E3, El. reflexivity.
  - intros x l El. apply (f_equal (@rev _)) in El. rewrite rev_involutive, rev_app_distr in El. exact (H4 x (rev l) El).
Qed.
Print Assumptions C89_trimmed.

(** ** The service of suggest eval: the last description with the name *)
Section Configure.
Context {D : Type} (name_of : D -> bytes) (load : D -> res loaded).
Lemma add_named_ok dict : forall ds service s', add_named name_of load dict ds service = Ret s' ->
  (forall d, In d ds -> name_of d = dict -> exists l, load d = Ret l) /\
  ((forall d, In d ds -> name_of d <> dict) /\ s' = service \/
   exists ds1 d ds2 l, ds = ds1 ++ d :: ds2 /\ name_of d = dict /\ (forall x, In x ds2 -> name_of x <> dict) /\ load d = Ret l /\ mget beqb s' dict = Some l /\ ((forall k, In k (map fst service) -> k = dict) -> forall k, In k (map fst s') -> k = dict) /\ (NoDup (map fst service) -> NoDup (map fst s'))).
Proof.
  induction ds as [|d ds IH]; intros service s' E; cbn [add_named] in E.
  - injection E as <-. split; [intros d []|]. left. split; [intros d []|reflexivity].
  - destruct (beqb (name_of d) dict) eqn:Eb; cbn [negb] in E.
    + apply beqb_ok in Eb. destruct (load d) as [l|e| |] eqn:El; try discriminate E. cbn [bind] in E. destruct (IH _ _ E) as [H1 H2]. split; [intros x [<-|Hx] Hn; [exists l; exact El|apply H1; assumption]|]. right.
      destruct H2 as [[Hno ->]|(ds1 & x & ds2 & lx & -> & Hn & Hno & Hl & Hg & Hk & Hnd)].
      * exists [], d, ds, l. split; [reflexivity|]. split; [exact Eb|]. split; [exact Hno|]. split; [exact El|]. rewrite Eb. split; [rewrite (mget_mset _ beqb_ok), (eqb_refl _ beqb_ok); reflexivity|]. split.
        -- intros Hs k Hk. apply (mset_keys_in _ beqb_ok) in Hk. destruct Hk as [Hk|Hk]; [apply Hs; exact Hk|exact Hk].
        -- apply (mset_nodup _ beqb_ok).
      * exists (d :: ds1), x, ds2, lx. split; [reflexivity|]. split; [exact Hn|]. split; [exact Hno|]. split; [exact Hl|]. split; [exact Hg|]. split.
        -- intros Hs. apply Hk. intros k Hin. apply (mset_keys_in _ beqb_ok) in Hin. destruct Hin as [Hin|Hin]; [apply Hs; exact Hin|rewrite Hin; exact Eb].
        -- intros Hs. apply Hnd. apply (mset_nodup _ beqb_ok). exact Hs.
    + assert (name_of d <> dict) as Hne by (intros X; rewrite X, (eqb_refl _ beqb_ok) in Eb; discriminate Eb). destruct (IH _ _ E) as [H1 H2]. split; [intros x [<-|Hx] Hn; [contradiction|apply H1; assumption]|].
      destruct H2 as [[Hno ->]|(ds1 & x & ds2 & lx & -> & R)]; [left; split; [intros x [<-|Hx]; [exact Hne|apply Hno; exact Hx]|reflexivity]|right]. exists (d :: ds1), x, ds2, lx. split; [reflexivity|exact R].
Qed.
Lemma add_named_total dict : forall ds service, (forall d, In d ds -> name_of d = dict -> exists l, load d = Ret l) -> exists s', add_named name_of load dict ds service = Ret s'.
Proof.
  induction ds as [|d ds IH]; intros service H; cbn [add_named]; [eexists; reflexivity|]. destruct (beqb (name_of d) dict) eqn:Eb; cbn [negb].
  - apply beqb_ok in Eb. destruct (H d (or_introl eq_refl) Eb) as [l ->]. cbn [bind]. apply IH. intros x Hx. apply H. right. exact Hx.
  - apply IH. intros x Hx. apply H. right. exact Hx.
Qed.
Theorem C89_configured : forall dict ds,
  (forall service, configureService name_of load dict (Ret ds) = Ret service ->
     exists ds1 d ds2 l, ds = ds1 ++ d :: ds2 /\ name_of d = dict /\ (forall x, In x ds2 -> name_of x <> dict) /\ load d = Ret l /\ service = [(dict, l)]) /\
  ((exists service, configureService name_of load dict (Ret ds) = Ret service) <->
     (exists d, In d ds /\ name_of d = dict) /\ forall d, In d ds -> name_of d = dict -> exists l, load d = Ret l).
Proof.
  intros dict ds.
  assert (forall s', add_named name_of load dict ds [] = Ret s' -> (s' = [] /\ forall d, In d ds -> name_of d <> dict) \/
     exists ds1 d ds2 l, ds = ds1 ++ d :: ds2 /\ name_of d = dict /\ (forall x, In x ds2 -> name_of x <> dict) /\ load d = Ret l /\ s' = [(dict, l)]) as Hone.
  { intros s' E. destruct (add_named_ok _ _ _ _ E) as [_ [[Hno ->]|(ds1 & d & ds2 & l & -> & Hn & Hno & Hl & Hg & Hk & Hnd)]]; [left; split; [reflexivity|exact Hno]|right].
    exists ds1, d, ds2, l. split; [reflexivity|]. split; [exact Hn|]. split; [exact Hno|]. split; [exact Hl|]. specialize (Hk ltac:(intros k [])). specialize (Hnd ltac:(constructor)).
    destruct s' as [|[k v] [|[k' v'] s']]; [discriminate Hg| |].
    - pose proof (Hk k (or_introl eq_refl)) as ->. cbn [mget] in Hg. rewrite (eqb_refl _ beqb_ok) in Hg. injection Hg as ->. reflexivity.
    - exfalso. pose proof (Hk k (or_introl eq_refl)) as ->. pose proof (Hk k' (or_intror (or_introl eq_refl))) as ->. inversion_clear Hnd. apply H. left. reflexivity. }
  split.
  - intros service E. cbn [configureService] in E. destruct (add_named name_of load dict ds []) as [s'|e| |] eqn:Ea; try discriminate E. cbn [bind] in E. destruct (Hone _ eq_refl) as [[-> _]|(ds1 & d & ds2 & l & H1 & H2 & H3 & H4 & ->)]; [discriminate E|].
    cbn in E. injection E as <-. exists ds1, d, ds2, l. auto.
  - split.
    + intros [service E]. cbn [configureService] in E. destruct (add_named name_of load dict ds []) as [s'|e| |] eqn:Ea; try discriminate E. destruct (add_named_ok _ _ _ _ Ea) as [Hl _]. split; [|exact Hl].
      destruct (Hone _ eq_refl) as [[-> _]|(ds1 & d & ds2 & l & -> & H2 & _)]; [discriminate E|]. exists d. split; [apply in_app_iff; right; left; reflexivity|exact H2].
    + intros [(d & Hd & Hn) Hl]. destruct (add_named_total dict ds [] Hl) as [s' Ea]. cbn [configureService]. rewrite Ea. cbn [bind]. destruct (Hone _ Ea) as [[_ Hno]|(ds1 & d' & ds2 & l & _ & _ & _ & _ & ->)]; [exfalso; exact (Hno d Hd Hn)|]. eexists. reflexivity.
Qed.
End Configure.
Print Assumptions C89_configured.

(** ** The three commands *)
Lemma suggest_prep_asks line : suggest_prep line = Ret (asks_suggest line).
Proof. unfold suggest_prep, asks_suggest. cbv zeta. destruct (TrimSpace line) as [|c t]; [reflexivity|]. rewrite zlen_cons. pose proof (zlen_nonneg t). destruct (1 + zlen t =? 0) eqn:E; [lia|reflexivity]. Qed.
Lemma spell_prep_asks line : spell_prep line = Ret (asks_spell line).
Proof. unfold spell_prep, asks_spell. destruct line as [|c t]; [reflexivity|]. rewrite zlen_cons. pose proof (zlen_nonneg t). destruct (1 + zlen t =? 0) eqn:E; [lia|reflexivity]. Qed.
(** suggest eval: for queries in the reach of C71, over a dictionary and an index as there, the
    answer to the i-th question are the entries C71 promises for it; the session ends only at
    the end of the input, or before a line of 65536 bytes, or while a search is running. *)
Theorem C89_suggest_partial : forall rb srt g ord file lowr chunk fuel D (name_of : D -> bytes) load dict ds topK alpha scheds stdin o r d words ix,
  roaring_ok rb -> roaring_written rb -> gob_ok g -> order_ok ord -> sorter_ok srt -> (2 * length stdin + 1 < fuel)%nat ->
  configureService name_of load dict (Ret ds) = Ret [(dict, mkLoaded ix words d)] -> dictionary_ok lowr d words -> index_built rb g ord file lowr d words ix ->
  alpha_ok alpha -> 1 <= topK ->
  let qs := questions asks_suggest (lines_in stdin) in
  (forall query, In query qs -> let q := entry_grams lowr d query in NoDup q /\ 1 <= zlen q <= 65535 /\ exists w, In w words /\ MinY Cosine alpha (zlen q) <= zlen (entry_grams lowr d w)) ->
  suggest_eval rb srt lowr chunk fuel name_of load dict (Ret ds) topK alpha scheds stdin = (o, r) ->
  (length (answers o) <= length qs)%nat /\
  (forall i items, nth_error (answers o) i = Some items -> exists query, nth_error qs i = Some query /\
     let q := entry_grams lowr d query in
     let score := fun i => gram_score lowr d Cosine q (entry_at words i) in
     let sim := fun i => gram_similarity lowr d Cosine q (entry_at words i) in
     exists ids, items = map (fun i => (score i, entry_at words i)) ids /\
       zlen ids <= topK /\ NoDup ids /\ (forall i, In i ids -> 0 <= i < zlen words) /\ best_first score ids /\
       (forall i, In i ids -> (sim i >= val alpha * (1 - / 2 ^ 46))%R) /\
       (forall i, 0 <= i < zlen words -> 1 <= zlen (entry_grams lowr d (entry_at words i)) -> (sim i >= val alpha * (1 + / 2 ^ 46))%R ->
          In i ids \/ (zlen ids = topK /\ forall j, In j ids -> (sim i <= val (score j) * (1 + / 2 ^ 46) + / 2 ^ 50)%R))) /\
  (length (answers o) = length qs -> r = Some (if forallb line_fits (raw_lines stdin) then Ret tt else Fail ErrTooLong)) /\
  ((length (answers o) < length qs)%nat -> r = None).
Proof.
  intros rb srt g ord file lowr chunk fuel D name_of load dict ds topK alpha scheds stdin o r d words ix Hrb Hrw Hg Ho Hsrt Hf Hc Hdict Hb Ha Hk qs Hqs E. unfold suggest_eval in E. rewrite Hc in E.
  destruct (C89_session _ _ _ asks_suggest _ chunk fuel stdin o r suggest_prep_asks Hf E) as (H1 & H2 & H3 & H4). fold qs in H1, H2, H3, H4.
  assert (forall i query, suggest_ask rb srt lowr [(dict, mkLoaded ix words d)] dict topK alpha scheds i query = ServiceSuggest rb srt ix words (ToLower lowr) d query alpha Cosine topK (scheds i)) as Hask.
  { intros i query. unfold suggest_ask, NewSearchConfig. destruct (topK <=? 0) eqn:E0; [lia|]. destruct Ha as [Hfin Hv]. assert (fle alpha (S754_zero false) || flt (of_int 1) alpha = false) as ->.
    { apply config_test; [apply Hfin|]. right. split; [exact Hfin|]. lra. }
    unfold SvcSuggest. cbn [mget]. rewrite (eqb_refl _ beqb_ok). reflexivity. }
  split; [exact H1|]. split; [|split].
  - intros i items Hi. destruct (H2 i items Hi) as (query & Q1 & Q2). exists query. split; [exact Q1|]. intros q score sim. rewrite Hask in Q2. destruct (Hqs query (nth_error_In _ _ Q1)) as (N & L & W).
    destruct (C71_suggest_partial rb srt g ord file lowr d words ix query Cosine alpha topK Hrb Hrw Hg Ho Hsrt Hdict Hb N L ltac:(discriminate) Ha Hk W (scheds i) _ Q2) as (ids & Ei & R1 & R2 & R3 & R4 & R5 & R6).
    injection Ei as Ei. exists ids. split; [exact Ei|]. split; [exact R1|]. split; [exact R2|]. split; [exact R3|]. split; [exact R4|]. split; [exact R5|]. intros j J1 J2 J3. apply R6; [exact J1|exact J2|discriminate|exact J3].
  - intros Hl. apply H3. exact Hl.
  - intros Hl. destruct (H4 Hl) as (query & Q1 & Q2). rewrite Hask in Q2. destruct (Hqs query (nth_error_In _ _ Q1)) as (N & L & W).
    destruct (ServiceSuggest rb srt ix words (ToLower lowr) d query alpha Cosine topK (scheds (length (answers o)))) as [res|] eqn:Es; [|exact Q2].
    destruct (C71_suggest_partial rb srt g ord file lowr d words ix query Cosine alpha topK Hrb Hrw Hg Ho Hsrt Hdict Hb N L ltac:(discriminate) Ha Hk W _ _ Es) as (ids & -> & _). destruct Q2.
Qed.
Print Assumptions C89_suggest_partial.
(** spellchecker eval: the answer to the i-th line that is not empty is Predict's, with 5 and
    one half. *)
Theorem C89_spell : forall rb srt chunk fuel flog stable sp scheds scheds' stdin o r, (2 * length stdin + 1 < fuel)%nat -> spell_eval rb srt chunk fuel flog stable sp scheds scheds' stdin = (o, r) ->
  let qs := questions asks_spell (lines_in stdin) in
  let predict i q := Predict flog rb srt stable (scheds i) (scheds' i) sp q 5 f_half in
  (length (answers o) <= length qs)%nat /\
  (forall i ws, nth_error (answers o) i = Some ws -> exists q, nth_error qs i = Some q /\ predict i q = Some (Ret ws)) /\
  (length (answers o) = length qs -> r = Some (if forallb line_fits (raw_lines stdin) then Ret tt else Fail ErrTooLong)) /\
  ((length (answers o) < length qs)%nat -> exists q, nth_error qs (length (answers o)) = Some q /\ forall ws, predict (length (answers o)) q <> Some (Ret ws)).
Proof.
  intros rb srt chunk fuel flog stable sp scheds scheds' stdin o r Hf E qs predict. destruct (C89_session _ _ _ asks_spell _ chunk fuel stdin o r spell_prep_asks Hf E) as (H1 & H2 & H3 & H4).
  split; [exact H1|]. split; [exact H2|]. split; [intros Hl; apply H3; exact Hl|]. intros Hl. destruct (H4 Hl) as (q & Q1 & Q2). exists q. split; [exact Q1|]. intros ws Hw. cbv beta in Q2. unfold predict in Hw. rewrite Hw in Q2. exact Q2.
Qed.
Print Assumptions C89_spell.
(** language-model eval: the sentences of the lines, without the empty ones, each with its
    score; the session ends early only if a score cannot be computed. *)
Theorem C89_lm : forall lowr chunk fuel flog has l stdin sentences o r, (2 * length stdin + 1 < fuel)%nat -> Forall2 (text_words lowr has) (lines_in stdin) sentences ->
  lm_eval lowr chunk fuel flog has l stdin = (o, r) ->
  let qs := filter (fun s => match s with [] => false | _ => true end) sentences in
  (length (answers o) <= length qs)%nat /\
  (forall i a, nth_error (answers o) i = Some a -> nth_error qs i = Some (fst a) /\ ScoreSentence flog l (fst a) = Ret (snd a)) /\
  (length (answers o) = length qs -> r = Some (if forallb line_fits (raw_lines stdin) then Ret tt else Fail ErrTooLong)) /\
  ((length (answers o) < length qs)%nat -> exists s, nth_error qs (length (answers o)) = Some s /\ forall x, ScoreSentence flog l s <> Ret x).
Proof.
  intros lowr chunk fuel flog has l stdin sentences o r Hf Hs E qs.
  set (asks := fun line => match LMTokenize lowr has line with Ret [] => None | Ret s => Some s | _ => None end).
  assert (forall line, lm_prep lowr has line = Ret (asks line)) as Hp.
  { intros line. unfold lm_prep, asks. destruct (lm_tokens lowr has line) as (ws & _ & _ & ->). cbn [bind]. destruct ws as [|w ws]; [reflexivity|]. rewrite zlen_cons. pose proof (zlen_nonneg ws). destruct (1 + zlen ws =? 0) eqn:E0; [lia|reflexivity]. }
  assert (questions asks (lines_in stdin) = qs) as Hq.
  { unfold qs. clear - Hs. induction Hs as [|line s ls ss H _ IH]; [reflexivity|]. cbn [questions filter]. unfold asks at 1. rewrite (proj1 (tokenize_iff _ _ _ _) H). destruct s; [exact IH|]. rewrite IH. reflexivity. }
  destruct (C89_session _ _ _ asks _ chunk fuel stdin o r Hp Hf E) as (H1 & H2 & H3 & H4). rewrite Hq in *. split; [exact H1|]. split; [|split].
  - intros i a Hi. destruct (H2 i a Hi) as (q & Q1 & Q2). cbv beta in Q2. destruct (ScoreSentence flog l q) as [x|e| |] eqn:Ex; try discriminate Q2. injection Q2 as <-. split; [exact Q1|exact Ex].
  - intros Hl. apply H3. exact Hl.
  - intros Hl. destruct (H4 Hl) as (q & Q1 & Q2). exists q. split; [exact Q1|]. intros x Hx. cbv beta in Q2. rewrite Hx in Q2. exact Q2.
Qed.
Print Assumptions C89_lm.

(** ** Concrete sessions *)
Definition stdin89 : bytes := bs "  aBc " ++ [13; 10] ++ bs " " ++ [194; 160; 10; 10] ++ bs "ab".
Definition load89 (_ : unit) : res loaded := Ret (mkLoaded demo71_index demo71_words demo71_conf).
Definition eval89 (scheds : nat -> list choice) (stdin : bytes) := suggest_eval rb4 (fun l => l) demo71_low (fun _ => 3%nat) 200 (fun _ => bs "x") load89 (bs "x") (Ret [tt]) 2 quarter scheds stdin.
Definition scheds89 (i : nat) : list choice := match i with O => demo71_sched (bs "aBc") | _ => demo71_sched (bs "ab") end.
Example C89_nonvacuous : (2 * length stdin89 + 1 < 200)%nat /\ configureService (fun _ => bs "x") load89 (bs "x") (Ret [tt]) = Ret [(bs "x", mkLoaded demo71_index demo71_words demo71_conf)] /\
  questions asks_suggest (lines_in stdin89) = [bs "aBc"; bs "ab"] /\
  (forall query, In query [bs "aBc"; bs "ab"] -> let q := entry_grams demo71_low demo71_conf query in NoDup q /\ 1 <= zlen q <= 65535 /\ exists w, In w demo71_words /\ MinY Cosine quarter (zlen q) <= zlen (entry_grams demo71_low demo71_conf w)) /\
  let '(o, r) := eval89 scheds89 stdin89 in prompts o = 5%nat /\ map (map snd) (answers o) = [[bs "Abc"; bs "ab"]; [bs "ab"; bs "Abc"]] /\ r = Some (Ret tt).
Proof.
  split; [vm_compute; lia|]. split; [reflexivity|]. split; [vm_compute; reflexivity|]. split.
  - intros query [<-|[<-|[]]]; cbv zeta; (split; [match goal with |- NoDup ?t => let v := eval vm_compute in t in change t with v end; repeat apply NoDup_cons; try apply NoDup_nil; cbn; intuition discriminate|]);
    (split; [vm_compute; split; discriminate|]); exists (bs "Abc"); (split; [right; left; reflexivity|vm_compute; discriminate]).
  - assert (let '(o, r) := eval89 scheds89 stdin89 in (prompts o, map (map snd) (answers o), r) = (5%nat, [[bs "Abc"; bs "ab"]; [bs "ab"; bs "Abc"]], Some (Ret tt))) as H by (vm_compute; reflexivity).
    destruct (eval89 scheds89 stdin89) as [o r]. injection H as H1 H2 H3. split; [exact H1|]. split; [exact H2|exact H3].
Qed.
