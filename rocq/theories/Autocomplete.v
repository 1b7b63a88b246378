(** Model of pkg/suggest/autocomplete.go and of the first-k collector of collector.go:
    the goroutines of one Autocomplete call as a state machine.  Definitions only.
    As in Suggest.v the scheduler picks the goroutine that moves. *)
From Verif Require Import Base GoMap Store Postings Merger Index Float64 Heap TopK Suggest.
Local Open Scope Z_scope.

(* -x for a float64 *)
Definition fneg (x : f64) : f64 := SFopp x.
(* collector.go:54-61; the state is c.items *)
Definition firstk_collect (limit : Z) (items : list Z) (item : Z) : option err * list Z :=
  if limit =? zlen items then (Some ErrCollectionTerminated, items) else (None, items ++ [item]).
(* collector.go:96-110 Collect of one collector: the items are added to the queue *)
Fixpoint manager_collect (q : queue) (items : list Z) : res queue :=
  match items with
  | [] => Ret q
  | c :: t => q' <- Add q (Merger.Position c) (fneg (of_int (Merger.Position c))) ;; manager_collect q' t
  end.

Inductive awst :=
| ASearch (size : Z)               (* started *)
| ALock (size : Z) (items : list Z)    (* searched; waits for the lock *)
| ACollect (size : Z) (items : list Z) (* holds the lock *)
| AUnlock (size : Z)               (* holds the lock, collected *)
| ADone (size : Z)                 (* returned nil *)
| AFail (size : Z) (e : err).      (* returned an error *)
Inductive apst := ALoop (size : Z) | AWait.
Record ast := mkA { a_prod : apst; a_ws : list awst; a_q : queue; a_locked : bool }.
Inductive aproc := ARunning (s : ast) | AFinished (r : res (list cand)) | ACrashed.
Inductive achoice := AProd | AWork (i : nat).

Section Autocomplete.
Context (rb : roaring) (srt : list iter -> list iter).
Context (ix : list (option inverted)) (terms : list term) (limit : Z).

(* autocomplete.go:41-45; collector.go:76-80: NewTopKQueue panics for a negative limit *)
Definition astart : aproc :=
  match NewTopKQueue limit with
  | Ret q => ARunning (mkA (ALoop (zlen terms)) [] q false)
  | _ => ACrashed
  end.
(* :57-59 *)
Definition asearch (iv : inverted) : res (list Z) :=
  match Search rb (CPMerge (firstk_collect limit) srt) iv terms (zlen terms) [] with
  | (Ret _, items) => Ret items
  | (Fail e, _) => Fail (ErrWrapped e)
  | (Panic, _) => Panic
  | (NoFuel, _) => NoFuel
  end.
Definition aset (s : ast) (i : nat) (w : awst) : ast := mkA (a_prod s) (set_nth_opt i w (a_ws s)) (a_q s) (a_locked s).
Definition aexec_worker (s : ast) (i : nat) (w : awst) : option aproc :=
  match w with
  | ASearch b =>
      match IndicesGet ix b with
      | None => Some ACrashed
      | Some iv =>
          match asearch iv with
          | Ret items => Some (ARunning (aset s i (ALock b items)))
          | Fail e => Some (ARunning (aset s i (AFail b e)))
          | _ => Some ACrashed
          end
      end
  | ALock b items =>                                        (* :61 *)
      if a_locked s then None else Some (ARunning (mkA (a_prod s) (set_nth_opt i (ACollect b items) (a_ws s)) (a_q s) true))
  | ACollect b items =>                                     (* :64-66 *)
      match manager_collect (a_q s) items with
      | Ret q => Some (ARunning (mkA (a_prod s) (set_nth_opt i (AUnlock b) (a_ws s)) q (a_locked s)))
      | _ => Some ACrashed
      end
  | AUnlock b => Some (ARunning (mkA (a_prod s) (set_nth_opt i (ADone b) (a_ws s)) (a_q s) false))   (* :62, :68 *)
  | ADone _ | AFail _ _ => None
  end.
Definition agone (w : awst) : bool := match w with ADone _ | AFail _ _ => true | _ => false end.
Fixpoint afirst_error (ws : list awst) : option err :=
  match ws with
  | [] => None
  | AFail _ e :: _ => Some e
  | _ :: t => afirst_error t
  end.
Definition aexec_prod (s : ast) : option aproc :=
  match a_prod s with
  | ALoop b =>                                              (* autocomplete.go:47-56 *)
      if b <? zlen ix then
        Some (ARunning (mkA (ALoop (b + 1)) (match IndicesGet ix b with None => a_ws s | Some _ => a_ws s ++ [ASearch b] end) (a_q s) (a_locked s)))
      else Some (ARunning (mkA AWait (a_ws s) (a_q s) (a_locked s)))
  | AWait =>                                                (* :72-76 *)
      if forallb agone (a_ws s)
      then Some (AFinished (match afirst_error (a_ws s) with Some e => Fail e | None => Ret (fst (GetCandidates (a_q s))) end))
      else None
  end.
Definition aexec (c : achoice) (p : aproc) : option aproc :=
  match p with
  | ARunning s =>
      match c with
      | AProd => aexec_prod s
      | AWork i => match nth_error (a_ws s) i with Some w => aexec_worker s i w | None => None end
      end
  | _ => None
  end.
Fixpoint arun (sched : list achoice) (p : aproc) : option aproc :=
  match sched with
  | [] => Some p
  | c :: t => match aexec c p with Some p' => arun t p' | None => None end
  end.
End Autocomplete.
