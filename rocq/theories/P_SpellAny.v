(** C105 (pkg/spellchecker): Predict for words that repeat n-grams - entries of the dictionary and
    last words of the query - and for last words without n-grams, under every pair of schedules. *)
From Coq Require Import String ZifyBool Permutation Sorted Reals Lra Lia.
From Verif Require Import Base BaseLemmas GoMap Store StoreSpec Postings PostingsSpec PostingsDrive P_PostingsLemmas Merger MergerSpec MergerAnySpec MergerAny P_MergerLemmas Index IndexSpec IndexProofs P_IndexLemmas SearchAny
  Float64 Metric MetricSpec FloatProofs MetricFloat MetricFloat2 MetricScore TopK TopKSpec TopKProofs Suggest SuggestSpec SuggestProofs P_SuggestLemmas P_Suggest SuggestAnySpec SuggestAny P_Repeated AutocompleteSpec AutocompleteProofs AutocompleteAnySpec AutocompleteAny
  NGram P_NGram GoogleNGram Spell SpellSpec SpellProofs SpellAny P_Spell P_FullAnswer P_Index.
Local Open Scope Z_scope.
Local Notation length := List.length.

(** The spellchecker's parts as in [parts_ok], over entries whose n-grams may repeat. *)
Record parts_any (flog : f64 -> f64) (rb : roaring) (srt : list iter -> list iter) (stable : (cand -> f64) -> list cand -> list cand)
    (sp : spellchecker) (docs : list (Z * list term)) (next : option scorerNext) : Prop := {
  pa_docs : docs_any docs; pa_index : index_any rb (sp_index sp) docs; pa_srt : sorter_ok srt; pa_stable : stable_ok stable;
  pa_score : forall doc, In doc docs -> newScorer flog next (fst doc) = Ret (sc_of flog next (fst doc)) /\ sc_of flog next (fst doc) <> S754_nan;
  pa_value : forall doc, In doc docs -> exists b, sp_value sp (fst doc) = Ret b }.
(** The query: a context and a last word, with its n-grams; if the word has n-grams at all, the
    longest entry could be similar enough to it. *)
Record query_every (sp : spellchecker) (query : bytes) (topK : Z) (similarity : f64) (seq : list bytes) (word : bytes) (next : option scorerNext) (terms tokens : list term) : Prop := {
  qe_split : sp_tokenize sp query = Ret (seq ++ [word]);
  qe_next : scorer_next (sp_get sp) (sp_model sp) seq = Ret next;
  qe_terms : sp_complete sp word = Ret terms; qe_small : zlen terms < 2 ^ 32;
  qe_tokens : sp_suggest sp word = Ret tokens; qe_limit : 1 <= topK;
  qe_query : tokens = [] \/ query_any (sp_index sp) tokens Cosine similarity topK /\ searchable (sp_index sp) tokens Cosine similarity }.

Definition fuzzy_every (docs : list (Z * list term)) (tokens : list term) (alpha : f64) (k : Z) (l : list cand) : Prop :=
  zlen l <= k /\ ((forall doc, In doc docs -> NoDup (snd doc)) -> NoDup (map Key l)) /\
  (forall c, In c l -> exists doc, In doc docs /\ Key c = fst doc /\ exists t, In t tokens /\ In t (snd doc)) /\
  (forall doc, In doc docs -> tokens <> [] -> 1 <= zlen (snd doc) -> overlap_of tokens (snd doc) <= zlen (snd doc) ->
     (sim_of Cosine tokens doc >= val alpha * (1 + / 2 ^ 46))%R -> In (fst doc) (map Key l) \/ zlen l = k).

Lemma once_each (l : list cand) : (forall x, (key_times x l <= 1)%nat) -> NoDup (map Key l).
Proof.
  induction l as [|c l IH]; intros H; [constructor|]. cbn [map]. constructor.
  - intros Hin. apply in_map_iff in Hin. destruct Hin as (c' & E & Hc). specialize (H (Key c)). unfold key_times in H. cbn [filter] in H. rewrite Z.eqb_refl in H. cbn [length] in H.
    assert (In c' (filter (fun c0 => Key c0 =? Key c) l)) as Hf by (apply filter_In; split; [exact Hc|lia]). destruct (filter _ l); [destruct Hf|cbn [length] in H; lia].
  - apply IH. intros x. specialize (H x). unfold key_times in *. cbn [filter] in H. destruct (Key c =? x); cbn [length] in H; lia.
Qed.
Lemma overlap_share (tokens ts : list term) : 1 <= overlap_of tokens ts -> exists t, In t tokens /\ In t ts.
Proof.
  unfold overlap_of. intros H. destruct (filter (fun t => existsb (beqb t) ts) tokens) as [|t l] eqn:E; [cbn in H; lia|]. exists t.
  assert (In t (filter (fun t => existsb (beqb t) ts) tokens)) as Hi by (rewrite E; left; reflexivity). apply filter_In in Hi. destruct Hi as [H1 H2]. split; [exact H1|]. apply (mem_In' t ts). exact H2.
Qed.

Section C.
Context (flog : f64 -> f64) (rb : roaring) (srt : list iter -> list iter) (stable : (cand -> f64) -> list cand -> list cand).
Context (sp : spellchecker) (docs : list (Z * list term)) (query : bytes) (topK : Z) (alpha : f64) (seq : list bytes) (word : bytes) (next : option scorerNext) (terms tokens : list term).
Context (HP : parts_any flog rb srt stable sp docs next) (HQ : query_every sp query topK alpha seq word next terms tokens).
Notation sc := (sc_of flog next).
Definition of_list (X : list Z) (l : list cand) : Prop := listed_every terms docs X /\ best_k topK (map (cc sc) X) l.
Lemma completed_any sched r : completed rb srt sched sp terms (newScorer flog next) topK = Some r -> exists X l, r = Ret l /\ of_list X l.
Proof.
  unfold completed. intros H. destruct HP, HQ. pose proof (zlen_nonneg terms).
  destruct (lrun rb srt (sp_index sp) terms (newScorer flog next) topK sched (lstart terms topK)) as [p|] eqn:E; [|discriminate].
  pose proof (completed_every rb srt (sp_index sp) docs terms (newScorer flog next) sc topK pa_docs0 pa_index0 pa_srt0 ltac:(lia) qe_limit0 pa_score0 sched p E) as Hc.
  destruct p as [s|r'|]; [discriminate| |destruct Hc]. injection H as <-. destruct Hc as (X & l & H1 & -> & H2). exists X, l. split; [reflexivity|split; assumption].
Qed.
Lemma suggested_any sched r : suggested rb srt sched sp tokens alpha topK = Some r -> exists l, r = Ret l /\ fuzzy_every docs tokens alpha topK l.
Proof.
  unfold suggested. intros H. destruct HP, HQ. destruct qe_query0 as [->|[Hq Hse]].
  - exists []. assert (r = Ret []) as -> by (destruct sched as [|c sched]; cbn in H; [injection H as <-; reflexivity|destruct c; discriminate H]).
    split; [reflexivity|]. split; [rewrite zlen_nil; lia|]. split; [intros _; constructor|]. split; [intros c []|]. intros doc _ Hne. contradiction.
  - destruct (run rb srt (sp_index sp) tokens Cosine alpha topK sched (start (sp_index sp) tokens Cosine alpha topK)) as [[s|r'|]|] eqn:E; try discriminate.
    + injection H as <-. destruct (any_returns rb srt (sp_index sp) docs tokens Cosine alpha topK Hq pa_docs0 pa_index0 pa_srt0 sched r' Hse E) as (l & -> & Hg). exists l. split; [reflexivity|].
      pose proof Hg as (sims & L & Hs & Hco & Hb). pose proof Hco as (G1 & G2 & G3). pose proof Hb as (Hl & _ & rest & Hp & _).
      assert (forall c, In c l -> In c L) as Hsub by (intros c Hc; apply (Permutation_in _ (Permutation_sym Hp)), in_app_iff; left; exact Hc).
      split; [unfold zlen; lia|]. split; [|split].
      * intros Hd. apply once_each. intros x. destruct (in_dec Z.eq_dec x (map Key l)) as [Hin|Hni].
        -- apply in_map_iff in Hin. destruct Hin as (c & <- & Hc). destruct (G2 c (Hsub c Hc)) as (doc & m & Hdoc & -> & _). cbn [Key].
           eapply copies_in_result; try eassumption. intros t. rewrite token_times_one by (apply Hd; exact Hdoc). destruct (existsb _ _); lia.
        -- rewrite key_times_none; [lia|]. intros c Hc E'. apply Hni. rewrite <- E'. apply in_map. exact Hc.
      * intros c Hc. destruct (G2 c (Hsub c Hc)) as (doc & m & Hdoc & -> & _ & Hm & _). exists doc. split; [exact Hdoc|]. split; [reflexivity|]. apply overlap_share. lia.
      * intros doc Hdoc _ H1 Hov Hsim. replace (/ 2 ^ 46)%R with delta in Hsim by (unfold delta; lra).
        destruct (full_complete rb (sp_index sp) docs tokens Cosine alpha topK Hq pa_index0 l doc Hg Hdoc H1 ltac:(discriminate) Hov Hsim) as [Hc|[Hc _]]; [left|right; exact Hc]. change (fst doc) with (Key (cand_of Cosine tokens doc)). apply in_map. exact Hc.
    + destruct (C94_suggest_returns rb srt (sp_index sp) docs tokens Cosine alpha topK sched Crashed Hq Hse pa_docs0 pa_index0 pa_srt0 E) as [(l & El)|(s & c & p' & Es & _)]; discriminate.
Qed.
Lemma of_list_in X l c : of_list X l -> In c l -> exists doc, In doc docs /\ has_all terms doc = true /\ c = cc sc (fst doc).
Proof.
  intros ((_ & HX & _) & (_ & _ & rest & Hp & _)) Hc. assert (In c (map (cc sc) X)) as Hi by (apply (Permutation_in _ (Permutation_sym Hp)), in_app_iff; left; exact Hc).
  apply in_map_iff in Hi. destruct Hi as (x & <- & Hx). apply HX in Hx. destruct Hx as (_ & ts & Hd & Ha & _). exists (x, ts). auto.
Qed.
Lemma shape_any sched sched' r : Predict flog rb srt stable sched sched' sp query topK alpha = Some r ->
  exists X comp fuzzy vs, of_list X comp /\ (topK <= zlen comp -> fuzzy = []) /\ (zlen comp < topK -> fuzzy_every docs tokens alpha topK fuzzy) /\
    (forall c, In c (merge comp fuzzy) -> exists doc, In doc docs /\ Key c = fst doc /\ (has_all terms doc = true \/ exists t, In t tokens /\ In t (snd doc))) /\
    r = Ret vs /\ map (sp_value sp) (map Key (firstn (Z.to_nat (topK + 1)) (ordered flog stable next (merge comp fuzzy)))) = map Ret vs
    /\ Permutation (merge comp fuzzy) (ordered flog stable next (merge comp fuzzy))
    /\ (next <> None -> StronglySorted (fun a b => flt (sc (Key a)) (sc (Key b)) = false) (ordered flog stable next (merge comp fuzzy))).
Proof.
  intros H. unfold Predict in H. pose proof (qe_limit _ _ _ _ _ _ _ _ _ HQ) as Hk. destruct HQ. rewrite qe_split0, rev_app_distr in H. cbn [rev app] in H. rewrite rev_involutive, qe_next0, qe_terms0 in H.
  destruct (completed rb srt sched sp terms (newScorer flog next) topK) as [rc|] eqn:Ec; [|discriminate]. destruct (completed_any _ _ Ec) as (X & comp & -> & Hb).
  assert (forall fuzzy, (topK <= zlen comp -> fuzzy = []) -> (zlen comp < topK -> fuzzy_every docs tokens alpha topK fuzzy) -> Some (finish_prediction flog stable sp next topK (merge comp fuzzy)) = Some r ->
    exists X comp fuzzy vs, of_list X comp /\ (topK <= zlen comp -> fuzzy = []) /\ (zlen comp < topK -> fuzzy_every docs tokens alpha topK fuzzy) /\
    (forall c, In c (merge comp fuzzy) -> exists doc, In doc docs /\ Key c = fst doc /\ (has_all terms doc = true \/ exists t, In t tokens /\ In t (snd doc))) /\
    r = Ret vs /\ map (sp_value sp) (map Key (firstn (Z.to_nat (topK + 1)) (ordered flog stable next (merge comp fuzzy)))) = map Ret vs
    /\ Permutation (merge comp fuzzy) (ordered flog stable next (merge comp fuzzy))
    /\ (next <> None -> StronglySorted (fun a b => flt (sc (Key a)) (sc (Key b)) = false) (ordered flog stable next (merge comp fuzzy)))) as Hfin.
  { intros fuzzy F1 F2 E. injection E as <-.
    assert (forall c, In c (merge comp fuzzy) -> exists doc, In doc docs /\ Key c = fst doc /\ (has_all terms doc = true \/ exists t, In t tokens /\ In t (snd doc))) as Hin.
    { intros c Hc. destruct (merge_app fuzzy comp) as (t & Et & Ht). rewrite Et in Hc. apply in_app_iff in Hc. destruct Hc as [Hc|Hc].
      - destruct (of_list_in X comp c Hb Hc) as (doc & Hd & Ha & ->). exists doc. auto.
      - apply Ht in Hc. destruct (Z_lt_le_dec (zlen comp) topK) as [Hl|Hl]; [|rewrite (F1 Hl) in Hc; destruct Hc]. destruct (F2 Hl) as (_ & _ & H3 & _). destruct (H3 c Hc) as (doc & Hd & E & Hs). exists doc. auto. }
    destruct (finish_ok flog stable sp next topK (pa_stable _ _ _ _ _ _ _ HP) Hk (merge comp fuzzy)) as ((vs & Ev & Em) & Hp & Hs).
    - intros c Hc. destruct (Hin c Hc) as (doc & Hd & -> & _). exact (pa_score _ _ _ _ _ _ _ HP doc Hd).
    - intros c Hc. destruct (Hin c Hc) as (doc & Hd & -> & _). exact (pa_value _ _ _ _ _ _ _ HP doc Hd).
    - exists X, comp, fuzzy, vs. split; [exact Hb|]. split; [exact F1|]. split; [exact F2|]. split; [exact Hin|]. split; [exact Ev|]. split; [exact Em|]. split; [exact Hp|exact Hs]. }
  destruct (Z.ltb_spec (zlen comp) topK) as [Hlt|Hge].
  - rewrite qe_tokens0 in H. destruct (suggested rb srt sched' sp tokens alpha topK) as [rf|] eqn:Ef; [|discriminate]. destruct (suggested_any _ _ Ef) as (fuzzy & -> & Hf).
    apply (Hfin fuzzy); [lia|auto|exact H].
  - apply (Hfin []); [reflexivity|lia|exact H].
Qed.
End C.

Lemma merge_times : forall b a x n, (1 <= n)%nat -> (key_times x a <= n)%nat -> (key_times x (merge a b) <= n)%nat.
Proof.
  induction b as [|y b IH]; intros a x n Hn Ha; [exact Ha|]. cbn [merge]. apply IH; [exact Hn|]. destruct (existsb (fun z => Key z =? Key y) a) eqn:E; [exact Ha|].
  rewrite key_times_app. destruct (Z.eq_dec (Key y) x) as [Ey|Ey].
  - rewrite key_times_none; [unfold key_times; cbn [filter]; destruct (Key y =? x); cbn; lia|]. intros c Hc E'. assert (existsb (fun z => Key z =? Key y) a = true) as C by (apply existsb_exists; exists c; split; [exact Hc|lia]). congruence.
  - unfold key_times at 2. cbn [filter]. replace (Key y =? x) with false by lia. cbn [length]. lia.
Qed.
Lemma key_times_perm x a b : Permutation a b -> key_times x a = key_times x b.
Proof. intros H. unfold key_times. induction H as [|c a b H IH|c c' a|a b c H1 IH1 H2 IH2]; cbn [filter]; [reflexivity|destruct (Key c =? x); cbn [length]; congruence|destruct (Key c =? x), (Key c' =? x); reflexivity|congruence]. Qed.
Lemma key_times_keys x (l : list cand) : key_times x l = times x (map Key l).
Proof. unfold key_times, times. induction l as [|c l IH]; [reflexivity|]. cbn [filter map count_occ]. destruct (Z.eq_dec (Key c) x) as [E|E]; [replace (Key c =? x) with true by lia|replace (Key c =? x) with false by lia]; cbn [length]; congruence. Qed.

(** What a call returns: no error; at most limit + 1 words, each of the dictionary and with all
    n-grams of the last word's beginning, or one n-gram of the last word; descending in the
    next-word score if the context is known; no word more often than it repeats an n-gram.
    Every entry with all these n-grams, and at least as many, is there unless limit answers
    with no smaller score are; with fewer than limit such entries and answers, and entries whose n-grams are
    distinct, every clearly similar entry is there. *)
Theorem C105_prediction : forall flog rb srt stable sp docs query topK alpha seq word next terms tokens sched sched' r,
  parts_any flog rb srt stable sp docs next -> query_every sp query topK alpha seq word next terms tokens ->
  Predict flog rb srt stable sched sched' sp query topK alpha = Some r ->
  let sc := sc_of flog next in
  exists ids vs, r = Ret vs /\ map (sp_value sp) ids = map Ret vs /\ zlen ids <= topK + 1 /\
    (forall x, In x ids -> exists ts, In (x, ts) docs /\ ((forall t, In t terms -> In t ts) \/ exists t, In t tokens /\ In t ts)) /\
    (next <> None -> StronglySorted (fun x y => flt (sc x) (sc y) = false) ids) /\
    (forall x ts m, In (x, ts) docs -> (1 <= m)%nat -> (forall t, token_times t ts <= m)%nat -> (times x ids <= m)%nat) /\
    (forall x ts, In (x, ts) docs -> terms <> [] -> (forall t, In t terms -> In t ts) -> zlen terms <= zlen ts ->
       In x ids \/ (topK <= zlen ids /\ forall y, In y ids -> flt (sc y) (sc x) = false)) /\
    ((forall doc, In doc docs -> NoDup (snd doc)) -> zlen ids < topK ->
       forall x ts, In (x, ts) docs -> tokens <> [] -> 1 <= zlen ts -> overlap_of tokens ts <= zlen ts -> (sim_of Cosine tokens (x, ts) >= val alpha * (1 + / 2 ^ 46))%R -> In x ids).
Proof.
  intros flog rb srt stable sp docs query topK alpha seq word next terms tokens sched sched' r HP HQ Hr sc. pose proof (qe_limit _ _ _ _ _ _ _ _ _ HQ) as Hk.
  destruct (shape_any flog rb srt stable sp docs query topK alpha seq word next terms tokens HP HQ sched sched' r Hr) as (X & comp & fuzzy & vs & HX & F1 & F2 & Hin & Er & Em & Hp & Hs). fold sc in Hs.
  set (o := ordered flog stable next (merge comp fuzzy)) in *. set (N := Z.to_nat (topK + 1)) in *. exists (map Key (firstn N o)), vs. split; [exact Er|]. split; [exact Em|].
  assert (In_o : forall x, In x (map Key o) <-> In x (map Key comp) \/ In x (map Key fuzzy)).
  { intros x. rewrite <- merge_keys. split; apply Permutation_in; apply Permutation_map; [apply Permutation_sym|]; exact Hp. }
  assert (Hcut : forall x, In x (map Key o) -> In x (map Key (firstn N o)) \/ (In x (map Key (skipn N o)) /\ zlen (map Key (firstn N o)) = topK + 1)).
  { intros x Hx. rewrite <- (firstn_skipn N o), map_app in Hx. apply in_app_iff in Hx. destruct Hx as [Hx|Hx]; [left; exact Hx|right]. split; [exact Hx|].
    unfold zlen. rewrite map_length, firstn_length. assert (length (skipn N o) <> O) as Hne by (destruct (skipn N o); [destruct Hx|discriminate]). rewrite skipn_length in Hne. unfold N in *. lia. }
  assert (Hall : forall doc, has_all terms doc = true <-> forall t, In t terms -> In t (snd doc)).
  { intros doc. unfold has_all. rewrite forallb_forall. split; intros H t Ht; specialize (H t Ht); apply mem_In'; exact H. }
  assert (Hzo : zlen (map Key o) = zlen (merge comp fuzzy)) by (unfold zlen; rewrite map_length, <- (Permutation_length Hp); reflexivity).
  pose proof HX as ((HXs & HXi & HXt) & Hb). pose proof Hb as (Hbl & Hbs & rest & Hbp & Hbr).
  split; [unfold zlen; rewrite map_length, firstn_length; unfold N; lia|]. split; [|split; [|split; [|split]]].
  - intros x Hx. apply in_map_iff in Hx. destruct Hx as (c & <- & Hc). assert (In c (merge comp fuzzy)) as Hc' by (apply (Permutation_in _ (Permutation_sym Hp)); rewrite <- (firstn_skipn N o); apply in_app_iff; left; exact Hc).
    destruct (Hin c Hc') as ([x ts] & Hd & -> & Hor). exists ts. split; [exact Hd|]. cbn [fst]. destruct Hor as [Ha|Ha]; [left; apply (proj1 (Hall (x, ts))); exact Ha|right; exact Ha].
  - intros Hnn. specialize (Hs Hnn). apply (sorted_firstn _ N) in Hs. clear - Hs. induction Hs as [|c l _ IH Hc]; cbn [map]; constructor; [exact IH|]. rewrite Forall_map. exact Hc.
  - intros x ts m Hd Hm Ht. rewrite <- key_times_keys. assert (key_times x (merge comp fuzzy) <= m)%nat as Hmt.
    { apply merge_times; [exact Hm|]. specialize (HXt x ts m Hd Ht). assert (key_times x (comp ++ rest) = times x X) as E.
      { rewrite <- (key_times_perm x _ _ Hbp), key_times_keys, map_map. cbn [cc Key]. rewrite map_id. reflexivity. }
      rewrite key_times_app in E. lia. }
    rewrite (key_times_perm x _ _ Hp), <- (firstn_skipn N o), key_times_app in Hmt. lia.
  - intros x ts Hd Hne Ht Hle. assert (In (cc sc x) (map (cc sc) X)) as Hx.
    { apply in_map. apply HXi. split; [exact Hne|]. exists ts. split; [exact Hd|]. split; [apply Hall; exact Ht|exact Hle]. }
    assert (Hsx : sc x <> S754_nan) by exact (proj2 (pa_score _ _ _ _ _ _ _ HP (x, ts) Hd)).
    apply (Permutation_in _ Hbp) in Hx. apply in_app_iff in Hx. destruct Hx as [Hx|Hx].
    + assert (In x (map Key o)) as Hxo by (apply In_o; left; apply in_map_iff; eexists; split; [|exact Hx]; reflexivity). destruct (Hcut x Hxo) as [H|[H Hz]]; [left; exact H|right]. split; [lia|].
      intros y Hy. destruct next as [nx|] eqn:En; [|unfold sc, sc_of, newScorer; apply flt_irrefl; discriminate].
      apply in_map_iff in H, Hy. destruct H as (cx & <- & Hcx), Hy as (cy & <- & Hcy). exact (sorted_split _ N o cy cx (Hs ltac:(discriminate)) Hcy Hcx).
    + right. assert (zlen comp = topK) as Hz.
      { unfold zlen in *. pose proof (Permutation_length Hbp) as Hpl. rewrite app_length in Hpl. destruct rest; [destruct Hx|]. cbn [length] in Hpl. lia. }
      assert (fuzzy = []) as Ef0 by (apply F1; lia). subst fuzzy. change (merge comp []) with comp in *. assert (firstn N o = o) as Efo by (apply firstn_all2; unfold N; unfold zlen in *; rewrite map_length in Hzo; lia).
      rewrite Efo. split; [lia|]. intros y Hy. apply In_o in Hy. destruct Hy as [Hy|[]]. apply in_map_iff in Hy. destruct Hy as (c & <- & Hc). pose proof (Hbr c _ Hc Hx) as Hw.
      destruct (of_list_in flog docs topK next terms X comp c HX Hc) as (doc & Hdd & _ & ->). unfold cc at 1. cbn [Key]. unfold worse in Hw. cbn [cc Sc] in Hw. fold sc in Hw. destruct (flt (sc (fst doc)) (sc x)) eqn:El; [|reflexivity]. exfalso. apply Hw. left. reflexivity.
  - intros Hd Hfew x ts Hdoc Hne Hl Hov Hsim.
    assert ((zlen (map Key (firstn N o)) < topK)%Z -> firstn N o = o) as Hno.
    { intros H. apply firstn_all2. unfold zlen in H. rewrite map_length, firstn_length in H. unfold N in *. lia. }
    specialize (Hno Hfew). rewrite Hno in *. assert (zlen comp < topK) as Hlt.
    { destruct (merge_app fuzzy comp) as (t & Et & _). rewrite Et in Hzo. unfold zlen in *. rewrite map_length in *. rewrite app_length in Hzo. lia. }
    destruct (F2 Hlt) as (_ & Hfn & _ & Hfc). specialize (Hfn Hd). destruct (Hfc (x, ts) Hdoc Hne Hl Hov Hsim) as [Hf|Hf]; [apply In_o; right; exact Hf|exfalso].
    assert (zlen fuzzy <= zlen (map Key o)) as Hto; [|lia].
    unfold zlen. apply inj_le. rewrite <- (map_length Key fuzzy). apply NoDup_incl_length; [exact Hfn|]. intros y Hy. apply In_o. right. exact Hy.
Qed.
Print Assumptions C105_prediction.

(** A text without words is answered with no words, whatever the index and the model. *)
Theorem C105_no_words : forall flog rb srt stable sp query topK alpha sched sched',
  sp_tokenize sp query = Ret [] -> Predict flog rb srt stable sched sched' sp query topK alpha = Some (Ret []).
Proof. intros flog rb srt stable sp query topK alpha sched sched' H. unfold Predict. rewrite H. reflexivity. Qed.
Print Assumptions C105_no_words.
(** Both searches stop after a bounded number of steps on every schedule, never block, and the
    call then returns words. *)
Theorem C105_returns : forall flog rb srt stable sp docs query topK alpha seq word next terms tokens,
  parts_any flog rb srt stable sp docs next -> query_every sp query topK alpha seq word next terms tokens ->
  let ix := sp_index sp in let score := newScorer flog next in
  (forall sched p, lrun rb srt ix terms score topK sched (lstart terms topK) = Some p ->
     zlen sched <= 5 * Z.max 0 (zlen ix - zlen terms) + 2 /\ ((exists l, p = LFinished (Ret l)) \/ exists c p', lexec rb srt ix terms score topK c p = Some p')) /\
  (forall sched p, run rb srt ix tokens Cosine alpha topK sched (start ix tokens Cosine alpha topK) = Some p ->
     (tokens = [] -> sched = []) /\ (tokens <> [] -> zlen sched <= 20 * Z.max 0 (Z.max (zlen tokens - bMin tokens Cosine alpha + 1) (bMax ix tokens Cosine alpha - zlen tokens)) + 7) /\
     ((exists l, p = Finished (Ret l)) \/ exists c p', exec rb srt ix tokens Cosine alpha topK c p = Some p')) /\
  (forall sched sched' r r', lrun rb srt ix terms score topK sched (lstart terms topK) = Some (LFinished r) ->
     run rb srt ix tokens Cosine alpha topK sched' (start ix tokens Cosine alpha topK) = Some (Finished r') ->
     exists vs, Predict flog rb srt stable sched sched' sp query topK alpha = Some (Ret vs)).
Proof.
  intros flog rb srt stable sp docs query topK alpha seq word next terms tokens HP HQ ix score. destruct HP, HQ. split; [|split].
  - intros sched p Hr. pose proof (zlen_nonneg terms) as H0. split.
    + apply lrun_bounded in Hr. pose proof (lmu_nonneg ix score topK p). unfold lstart in Hr. destruct (NewTopKQueue topK); cbn [lmu l_prod l_ws wsum fold_right] in Hr; lia.
    + pose proof (completed_every rb srt ix docs terms score (sc_of flog next) topK pa_docs0 pa_index0 pa_srt0 ltac:(lia) qe_limit0 pa_score0 sched p Hr) as HG.
      destruct p as [s|r|]; [right|left|destruct HG].
      * apply lprogress. apply (lrun_lock rb srt ix terms score topK sched _ _) in Hr; [exact Hr|]. unfold lstart. destruct (NewTopKQueue topK); try exact I. reflexivity.
      * destruct HG as (X & l & _ & -> & _). eauto.
  - intros sched p Hr. destruct qe_query0 as [Et|[Hq Hse]].
    + rewrite Et in Hr |- *. assert (sched = [] /\ p = Finished (Ret [])) as [-> ->] by (destruct sched as [|c sched]; cbn in Hr; [injection Hr as <-; split; reflexivity|destruct c; discriminate Hr]).
      split; [reflexivity|]. split; [contradiction|]. left. eauto.
    + assert (tokens <> []) as Hne by (pose proof (proj1 (proj2 Hq)) as H1; intros E; rewrite E in H1; rewrite zlen_nil in H1; lia).
      split; [contradiction|]. split; [intros _; exact (C42_terminates_partial _ _ _ _ _ _ _ _ _ Hq Hr)|].
      destruct (C94_suggest_returns rb srt ix docs tokens Cosine alpha topK sched p Hq Hse pa_docs0 pa_index0 pa_srt0 Hr) as [H|(s & c & p' & -> & E)]; [left; exact H|right; eauto].
  - intros sched sched' r r' H1 H2.
    assert (Predict flog rb srt stable sched sched' sp query topK alpha <> None) as Hnn.
    { unfold Predict. rewrite qe_split0, rev_app_distr. cbn [rev app]. rewrite rev_involutive, qe_next0, qe_terms0. unfold completed. fold ix score. rewrite H1. destruct r as [comp| | |]; try discriminate. destruct (zlen comp <? topK); [|discriminate].
      rewrite qe_tokens0. unfold suggested. fold ix. rewrite H2. destruct r'; discriminate. }
    destruct (Predict flog rb srt stable sched sched' sp query topK alpha) as [res0|] eqn:E; [|congruence].
    destruct (C105_prediction flog rb srt stable sp docs query topK alpha seq word next terms tokens sched sched' res0) as (ids & vs & -> & _); [split; assumption|split; assumption|exact E|eauto].
Qed.
Print Assumptions C105_returns.

(** The hypotheses are met, by entries and a last word that repeat an n-gram; and the words can
    repeat, too: one entry fills the whole answer, another with the same n-grams is left out. *)
Definition demo105_docs : list (Z * list term) := [(0, [bs "a"; bs "a"; bs "b"]); (1, [bs "a"; bs "c"]); (2, [bs "a"; bs "b"; bs "c"])].
Definition demo105_value (x : Z) : res bytes := if x =? 0 then Ret (bs "aab") else if x =? 1 then Ret (bs "ac") else if x =? 2 then Ret (bs "abc") else Fail (ErrOther 1).
Definition demo105_sp : spellchecker := mkSpell (build demo105_docs) letters letters (fun _ => Ret 1) demo61_lm demo61_tokenize demo105_value.
Definition demo105 (q : bytes) (k : Z) : option (res (list bytes)) :=
  let t := map (fun b => [b]) q in let score := newScorer (fun x => x) None in
  Predict (fun x => x) rb4 (fun l => l) isort
    (lauto 100 (build demo105_docs) t score k (lstart t k)) (sauto 300 (build demo105_docs) t quarter k (start (build demo105_docs) t Cosine quarter k)) demo105_sp q k quarter.
Theorem C105_once_refuted : demo105 (bs "a") 2 = Some (Ret [bs "aab"; bs "aab"]) /\
  forall i, 0 <= i < 3 -> exists ts, In (i, ts) demo105_docs /\ In (bs "a") ts.
Proof.
  split; [vm_compute; reflexivity|]. intros i Hi. assert (i = 0 \/ i = 1 \/ i = 2) as [->|[->| ->]] by lia; eexists; (split; [cbn; auto|left; reflexivity]).
Qed.
Print Assumptions C105_once_refuted.
Lemma demo105_any : docs_any demo105_docs.
Proof.
  split; [repeat apply SSorted_cons; try apply SSorted_nil; repeat apply Forall_cons; try apply Forall_nil; reflexivity|]. split; [repeat apply Forall_cons; try apply Forall_nil; unfold is_u32; cbn [fst]; lia|].
  intros c t. assert (zlen (occurrences demo105_docs c t) <= Z.of_nat 3 * zlen demo105_docs) as H; [|change (zlen demo105_docs) with 3 in H; lia].
  apply occurrences_short. intros d [<-|[<-|[<-|[]]]]; cbn; lia.
Qed.
Example C105_nonvacuous : let t := [bs "a"; bs "a"] in
  parts_any (fun x => x) rb4 (fun l => l) isort demo105_sp demo105_docs None /\ query_every demo105_sp (bs "aa") 3 quarter [] (bs "aa") None t t /\ ~ NoDup t /\
  demo105 (bs "aa") 3 = Some (Ret [bs "aab"; bs "aab"; bs "ac"]).
Proof.
  assert (zlen (build demo105_docs) = 4) as Hn by (vm_compute; reflexivity). cbn zeta. split; [|split; [|split]].
  - split.
    + exact demo105_any.
    + cbn [sp_index demo105_sp]. apply build_any; [exact demo105_any|discriminate|repeat (apply Forall_cons; [reflexivity|]); apply Forall_nil|vm_compute; reflexivity].
    + exact sorter_id.
    + exact isort_ok.
    + intros doc Hin. split; [reflexivity|discriminate].
    + intros doc [<-|[<-|[<-|[]]]]; eexists; reflexivity.
  - split; try reflexivity; try lia. right. unfold query_any, searchable. cbn [sp_index demo105_sp]. rewrite Hn. split; [|vm_compute; reflexivity]. split; [exact alpha_quarter|]. repeat split; try discriminate.
  - intros H. inversion_clear H. apply H0. left. reflexivity.
  - vm_compute. reflexivity.
Qed.
