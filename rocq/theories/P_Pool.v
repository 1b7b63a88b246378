(** C90: searches share pooled posting-list objects and candidate buffers, and their
    answers do not depend on it. *)
From Coq Require Import String ZifyBool Permutation Sorted.
From Verif Require Import Base BaseLemmas GoMap Store Postings Merger MergerSpec Index IndexSpec
  P_IndexLemmas P_Index P_PostingsLemmas P_MergerLemmas Pool PoolProofs PoolProofs2 PoolProofs3.
Local Open Scope Z_scope.

(** One search request: the index searched, the terms, the threshold, and the collector
    with its state at the start. *)
Record request (St : Type) := mkReq {
  q_collect : St -> Z -> option err * St; q_index : inverted; q_terms : list term; q_T : Z; q_state : St }.
Arguments mkReq {St}. Arguments q_collect {St}. Arguments q_index {St}. Arguments q_terms {St}.
Arguments q_T {St}. Arguments q_state {St}.
(* the goroutine that serves it with pooled objects *)
Definition serve {St} rb torn grow order (q : request St) : prog (res unit * St) :=
  search_p rb torn grow order (q_collect q) (q_index q) (q_terms q) (q_T q) (q_state q).

(** C90: however many searches run, in whatever order their accesses to memory
    interleave, whichever used objects the pools hand out, and whatever the garbage
    collector drops from the pools: a search that has ended returned exactly what the
    same search returns alone, on fresh objects. *)
Theorem C90_pooled_search_answers : forall {St} rb torn grow order (reqs : list (request St)) w i q out,
  fair_order order ->
  steps (boot (map (serve rb torn grow order) reqs)) w ->
  nth_error reqs i = Some q -> nth_error (w_run w) i = Some (Done out) ->
  out = Search rb (CPMerge (q_collect q) (srt_of order)) (q_index q) (q_terms q) (q_T q) (q_state q).
Proof.
  intros St rb torn grow order reqs w i q out Ho S Hq Hout.
  set (Qs := map (fun (q : request St) out =>
     out = Search rb (CPMerge (q_collect q) (srt_of order)) (q_index q) (q_terms q) (q_T q) (q_state q)) reqs).
  refine (pools_safe Qs (map (serve rb torn grow order) reqs) w _ S i (fun out => out = Search rb (CPMerge (q_collect q) (srt_of order)) (q_index q) (q_terms q) (q_T q) (q_state q)) out _ Hout).
  - unfold Qs. clear - Ho. induction reqs as [|q reqs IH]; cbn; constructor; [|exact IH].
    unfold serve. apply search_wp. exact Ho.
  - unfold Qs. rewrite nth_error_map, Hq. reflexivity.
Qed.
Print Assumptions C90_pooled_search_answers.

(** No search is ever held up by the pools (each one that has not ended can take its
    next step, and never touches an object it does not hold), and from every reachable
    state all the searches can be run to their end. *)
Theorem C90_searches_go_on : forall {St} rb torn grow order (reqs : list (request St)) w,
  fair_order order ->
  steps (boot (map (serve rb torn grow order) reqs)) w ->
  (forall i p, nth_error (w_run w) i = Some p -> (forall out, p <> Done out) ->
     exists h' f' p', command (w_heap w) (w_free w) p h' f' p') /\
  exists w', steps w w' /\ forall p, In p (w_run w') -> exists out, p = Done out.
Proof.
  intros St rb torn grow order reqs w Ho S.
  set (Qs := map (fun (q : request St) out =>
     out = Search rb (CPMerge (q_collect q) (srt_of order)) (q_index q) (q_terms q) (q_T q) (q_state q)) reqs).
  destruct (pools_live Qs (map (serve rb torn grow order) reqs) w) as (L1 & w' & S' & L2).
  - unfold Qs. clear - Ho. induction reqs as [|q reqs IH]; cbn; constructor; [|exact IH].
    unfold serve. apply search_wp. exact Ho.
  - exact S.
  - split.
    + intros i p Hp Hn. apply (L1 i p Hp). destruct p; try reflexivity. exfalso. now apply (Hn a).
    + exists w'. split; [exact S'|]. intros p Hp. specialize (L2 p Hp).
      destruct p; try discriminate. now eexists.
Qed.
Print Assumptions C90_searches_go_on.

(** In terms of the documents (with C26): a search served with pooled objects hands its
    collector exactly the documents of the searched size that contain at least T of the
    terms, in the order of their ids, with the number of terms they contain. *)
Theorem C90_pooled_search_documents :
  forall {St} rb torn grow order (reqs : list (request St)) w i q out ix c docs,
  fair_order order ->
  steps (boot (map (serve rb torn grow order) reqs)) w ->
  nth_error reqs i = Some q -> nth_error (w_run w) i = Some (Done out) ->
  docs_ok docs -> IndicesGet ix c = Some (q_index q) ->
  (forall t, index_holds rb ix c t (posting_of docs c t)) -> zlen (q_terms q) <= 65535 -> 1 <= q_T q ->
  exists cs, StronglySorted (fun a b => fst a < fst b) cs /\
    (forall x n, In (x, n) cs <->
       q_T q <= n /\ exists ts, In (x, ts) docs /\ zlen ts = c /\
         n = zlen (filter (fun t => existsb (beqb t) ts) (q_terms q))) /\
    exists e, (e = feed (q_collect q) cs (q_state q) \/ e = wrapped (feed (q_collect q) cs (q_state q))) /\
      out = wrapped e.
Proof.
  intros St rb torn grow order reqs w i q out ix c docs Ho S Hq Hout Hd Hi Hx Hl HT.
  pose proof (C90_pooled_search_answers _ _ _ _ _ _ _ _ _ Ho S Hq Hout) as E.
  destruct (C26_search_documents (q_collect q) (srt_of order) rb ix c (q_index q) docs (q_terms q) (q_T q) (q_state q))
    as (cs & Hs & Hcs & e & He & HE); auto.
  { intros l. apply Permutation_sym, srt_of_perm. exact Ho. }
  exists cs. split; [exact Hs|]. split; [exact Hcs|]. exists e. split; [exact He|]. congruence.
Qed.
Print Assumptions C90_pooled_search_documents.

(** *** A concrete run *)
(* a scheduler that runs one goroutine to its end and reuses whenever it can; it also
   counts the reused objects *)
Fixpoint drive {A} (p : prog A) (h : addr -> option cell) (f : pool -> list addr) (next reused : nat)
  : option ((addr -> option cell) * (pool -> list addr) * nat * nat * A) :=
  match p with
  | Done a => Some (h, f, next, reused, a)
  | Get q k => match f q with
               | a :: l => drive (k a) h (free_set f q l) next (S reused)
               | [] => drive (k next) (heap_set h next (fresh q)) f (S next) reused
               end
  | Put q a k => drive k h (free_set f q (a :: f q)) next reused
  | Load a k => match h a with Some c => drive (k c) h f next reused | None => None end
  | Save a c k => match h a with Some _ => drive k (heap_set h a c) f next reused | None => None end
  | New c k => drive (k next) (heap_set h next c) f (S next) reused
  end.
Lemma drive_steps {A} : forall (p : prog A) before after h f next reused h' f' next' reused' a,
  (forall x, (next <= x)%nat -> h x = None) ->
  drive p h f next reused = Some (h', f', next', reused', a) ->
  steps (mkWorld h f (before ++ p :: after)) (mkWorld h' f' (before ++ Done a :: after)) /\
  (forall x, (next' <= x)%nat -> h' x = None).
Proof.
  induction p as [a0|q k IH|q a0 k IH|a0 k IH|a0 c k IH|c k IH];
    intros before after h f next reused h' f' next' reused' a Hn D; cbn [drive] in D.
  - injection D as <- <- <- <- <-. split; [constructor|exact Hn].
  - destruct (f q) as [|x l] eqn:Ef.
    + apply (IH next before after) in D.
      * destruct D as (S & N). split; [|exact N].
        eapply steps_trans; [eapply steps_one; [apply steps_refl|apply step_run; apply (do_fresh _ _ _ _ next); apply Hn; lia]|exact S].
      * intros y Hy. rewrite heap_set_other by lia. apply Hn. lia.
    + apply (IH x before after) in D; [|exact Hn]. destruct D as (S & N). split; [|exact N].
      eapply steps_trans; [|exact S].
      eapply steps_one; [apply steps_refl|apply step_run]. apply (do_reuse h f q k [] x l). exact Ef.
  - apply (IH before after) in D; [|exact Hn]. destruct D as (S & N). split; [|exact N].
    eapply steps_trans; [eapply steps_one; [apply steps_refl|apply step_run, do_put]|exact S].
  - destruct (h a0) as [c|] eqn:E; [|discriminate]. apply (IH c before after) in D; [|exact Hn].
    destruct D as (S & N). split; [|exact N].
    eapply steps_trans; [eapply steps_one; [apply steps_refl|apply step_run; eapply do_load; exact E]|exact S].
  - destruct (h a0) as [c0|] eqn:E; [|discriminate]. apply (IH before after) in D.
    + destruct D as (S & N). split; [|exact N].
      eapply steps_trans; [eapply steps_one; [apply steps_refl|apply step_run; eapply do_save; exact E]|exact S].
    + intros y Hy. destruct (Nat.eq_dec y a0) as [-> |Hne]; [|rewrite heap_set_other by exact Hne; now apply Hn].
      rewrite (Hn a0 Hy) in E. discriminate.
  - apply (IH next before after) in D.
    + destruct D as (S & N). split; [|exact N].
      eapply steps_trans; [eapply steps_one; [apply steps_refl|apply step_run; apply (do_new _ _ _ _ next); apply Hn; lia]|exact S].
    + intros y Hy. rewrite heap_set_other by lia. apply Hn. lia.
Qed.

Definition demo_order (lens : list Z) : list nat := seq 0 (List.length lens).
Definition demo_req (ix : list (option inverted)) (terms : list term) (T : Z) : option (request (list Z)) :=
  match IndicesGet ix 2 with
  | Some iv => Some (mkReq simple_collect iv terms T [])
  | None => None
  end.
Definition torn0 (old : list Z) (b : bytes) : list Z := old.
(* the second search gets two of the three posting lists and both buffers of the first
   one, as it left them *)
Example C90_nonvacuous_order : fair_order demo_order.
Proof. intros lens. apply Permutation_refl. Qed.
Example C90_nonvacuous :
  (match demo_index 100 with
   | Ret ix =>
       match demo_req ix [bs "ab"; bs "zz"; bs "bc"; bs "cd"] 2, demo_req ix [bs "cd"; bs "bc"] 1 with
       | Some q1, Some q2 =>
           match drive (serve rb4 torn0 (fun n => n) demo_order q1) (fun _ => None) (fun _ => []) 0 0 with
           | Some (h1, f1, n1, r1, out1) =>
               match drive (serve rb4 torn0 (fun n => n) demo_order q2) h1 f1 n1 r1 with
               | Some (h2, f2, n2, r2, out2) => Some (n1, r1, out1, n2, r2, out2)
               | None => None
               end
           | None => None
           end
       | _, _ => None
       end
   | _ => None
   end) =
  Some (5%nat, 0%nat, (Ret tt, [NewMergeCandidate 1 2; NewMergeCandidate 5 2; NewMergeCandidate 4294967295 2]),
        5%nat, 4%nat, (Ret tt, [NewMergeCandidate 1 1; NewMergeCandidate 5 2; NewMergeCandidate 4294967295 1])).
Proof. vm_compute. reflexivity. Qed.
