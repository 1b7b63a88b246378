(** Model of pkg/suggest/suggester.go and of the fuzzy collector of collector.go:
    the workers of one Suggest call as a state machine.  Definitions only.

    The scheduler picks which goroutine moves ([choice]); [exec] gives the effect of the
    move, or None when that goroutine is blocked or does not exist.  A panic in a
    goroutine ends the process.  Out-of-memory is not modelled. *)
From Verif Require Import Base GoMap Store Postings Merger Index Float64 Metric Heap TopK.
Local Open Scope Z_scope.

(* collector.go:124-128: Add the item with its score (scorer.go:29-31); never an error.
   The state is the local queue. *)
Definition fuzzy_collect (d : metric) (sizeA sizeB : Z) (s : res queue) (item : Z) : option err * res queue :=
  (None, q <- s ;; Add q (Merger.Position item) (Score d (Merger.Overlap item) sizeA sizeB)).

Inductive wst :=
| WRecv                      (* at "range sizeCh" *)
| WSize (sizeB : Z)          (* received, about to load the similarity *)
| WSearch (sizeB threshold : Z)
| WLock (sizeB : Z) (q : queue)   (* searched; waits for the lock *)
| WMerge (sizeB : Z) (q : queue)  (* holds the lock; about to Collect *)
| WStore                     (* holds the lock; about to raise the similarity *)
| WUnlock                    (* holds the lock *)
| WExit                      (* returned nil *)
| WFail (e : err).           (* returned an error *)
Inductive pst :=
| PLoop (i j : Z)            (* at the loop condition *)
| PSendI (i j : Z)           (* at "if i >= bMin" *)
| PSendJ (i j : Z)           (* at "if j <= bMax" *)
| PWait.                     (* channel closed, in workerPool.Wait *)
Record st := mkSt { s_ch : list Z; s_prod : pst; s_ws : list wst; s_glob : queue; s_sim : f64; s_locked : bool }.
Inductive proc := Running (s : st) | Finished (r : res (list cand)) | Crashed.
Inductive choice := CProd | CWork (i : nat).

(* the largest channel capacity of ints makechan accepts on amd64 *)
Definition max_chan : Z := (2 ^ 48 - 96) / 8.

Section Suggest.
Context (rb : roaring) (srt : list iter -> list iter).
Context (ix : list (option inverted)) (tokens : list term) (d : metric) (alpha : f64) (k : Z).

(* suggester.go:53-62 *)
Definition sizeA : Z := zlen tokens.
Definition bMin : Z := MinY d alpha sizeA.
Definition bMax : Z := let b := MaxY d alpha sizeA in if zlen ix <=? b then zlen ix - 1 else b.
Definition chan_cap : Z := wrapi64 (wrapi64 (bMax - bMin) + 1).
(* :46-71 up to the start of the workers; collector.go:136-141 *)
Definition start : proc :=
  if zlen tokens =? 0 then Finished (Ret [])
  else if (chan_cap <? 0) || (max_chan <? chan_cap) then Crashed
  else match NewTopKQueue k with
       | Ret g => Running (mkSt [] (PLoop sizeA (sizeA + 1)) (repeat WRecv (Z.to_nat (Z.min 5 chan_cap))) g alpha false)
       | _ => Crashed
       end.

(* :86-91: a new collector (collector.go:158-162), and the search *)
Definition worker_search (sizeB threshold : Z) (iv : inverted) : res queue :=
  match Search rb (CPMerge (fuzzy_collect d sizeA sizeB) srt) iv tokens threshold (NewTopKQueue k) with
  | (Ret _, r) => r
  | (Fail e, Ret _) => Fail (ErrWrapped e)
  | (Fail _, _) => Panic
  | (Panic, _) => Panic
  | (NoFuel, _) => NoFuel
  end.

Definition set_w (s : st) (i : nat) (w : wst) : st := mkSt (s_ch s) (s_prod s) (set_nth_opt i w (s_ws s)) (s_glob s) (s_sim s) (s_locked s).
(* collector.go:185-191 *)
Definition ManagerLowestScore (g : queue) : res f64 := if negb (IsFull g) then Ret f_neg_inf else GetLowestScore g.

Definition exec_worker (s : st) (i : nat) (w : wst) : option proc :=
  match w with
  | WRecv =>                                          (* :72 *)
      match s_ch s with
      | b :: ch => Some (Running (mkSt ch (s_prod s) (set_nth_opt i (WSize b) (s_ws s)) (s_glob s) (s_sim s) (s_locked s)))
      | [] => match s_prod s with PWait => Some (Running (set_w s i WExit)) | _ => None end
      end
  | WSize b =>                                        (* :73-84 *)
      let T := Threshold d (s_sim s) sizeA b in
      if (T =? 0) || (b <? T) || (sizeA <? T) then Some (Running (set_w s i WRecv))
      else match IndicesGet ix b with
           | None => Some (Running (set_w s i WRecv))
           | Some _ => Some (Running (set_w s i (WSearch b T)))
           end
  | WSearch b T =>                                    (* :86-91 *)
      match IndicesGet ix b with
      | None => Some Crashed
      | Some iv =>
          match worker_search b T iv with
          | Ret q => Some (Running (set_w s i (WLock b q)))
          | Fail e => Some (Running (set_w s i (WFail e)))
          | _ => Some Crashed
          end
      end
  | WLock b q =>                                      (* :93 *)
      if s_locked s then None
      else Some (Running (mkSt (s_ch s) (s_prod s) (set_nth_opt i (WMerge b q) (s_ws s)) (s_glob s) (s_sim s) true))
  | WMerge b q =>                                     (* :95-99, collector.go:165-177 *)
      match Merge (s_glob s) q with
      | Ret g => Some (Running (mkSt (s_ch s) (s_prod s) (set_nth_opt i WStore (s_ws s)) g (s_sim s) (s_locked s)))
      | _ => Some Crashed
      end
  | WStore =>                                         (* :101-103; only the lock holder stores *)
      match ManagerLowestScore (s_glob s) with
      | Ret l => Some (Running (mkSt (s_ch s) (s_prod s) (set_nth_opt i WUnlock (s_ws s)) (s_glob s) (if flt (s_sim s) l then l else s_sim s) (s_locked s)))
      | _ => Some Crashed
      end
  | WUnlock =>                                        (* :105 *)
      Some (Running (mkSt (s_ch s) (s_prod s) (set_nth_opt i WRecv (s_ws s)) (s_glob s) (s_sim s) false))
  | WExit | WFail _ => None
  end.
Definition gone (w : wst) : bool := match w with WExit | WFail _ => true | _ => false end.
(* errgroup: Wait returns the error of a worker that returned one (whichever was first) *)
Fixpoint first_error (ws : list wst) : option err :=
  match ws with
  | [] => None
  | WFail e :: _ => Some e
  | _ :: t => first_error t
  end.
(* a send waits while the channel is full (with capacity 0 there are no workers, hence
   never a receiver) *)
Definition send (s : st) (b : Z) (p : pst) : option proc :=
  if zlen (s_ch s) <? chan_cap then Some (Running (mkSt (s_ch s ++ [b]) p (s_ws s) (s_glob s) (s_sim s) (s_locked s))) else None.
Definition goto (s : st) (p : pst) : option proc := Some (Running (mkSt (s_ch s) p (s_ws s) (s_glob s) (s_sim s) (s_locked s))).
Definition exec_prod (s : st) : option proc :=
  match s_prod s with
  | PLoop i j => if (bMin <=? i) || (j <=? bMax) then goto s (PSendI i j) else goto s PWait   (* :113, :124 *)
  | PSendI i j => if bMin <=? i then send s i (PSendJ i j) else goto s (PSendJ i j)           (* :114-116 *)
  | PSendJ i j => let next := PLoop (wrapi64 (i - 1)) (wrapi64 (j + 1)) in
                  if j <=? bMax then send s j next else goto s next                           (* :118-120 *)
  | PWait => if forallb gone (s_ws s)                                                         (* :126-130 *)
             then Some (Finished (match first_error (s_ws s) with Some e => Fail e | None => Ret (fst (GetCandidates (s_glob s))) end))
             else None
  end.
Definition exec (c : choice) (p : proc) : option proc :=
  match p with
  | Running s =>
      match c with
      | CProd => exec_prod s
      | CWork i => match nth_error (s_ws s) i with Some w => exec_worker s i w | None => None end
      end
  | _ => None
  end.
(* a schedule: the goroutine that moves next, again and again *)
Fixpoint run (sched : list choice) (p : proc) : option proc :=
  match sched with
  | [] => Some p
  | c :: t => match exec c p with Some p' => run t p' | None => None end
  end.
End Suggest.
