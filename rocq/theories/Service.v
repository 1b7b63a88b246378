(** Model of pkg/suggest/service.go: the service shared by the goroutines that answer
    queries, the ones that (re)load indexes, and the external indexer that rewrites the
    files of an index.  Definitions only.

    One move = one step of one goroutine; the scheduler picks the goroutine. *)
From Verif Require Import Base GoMap.
Local Open Scope Z_scope.

Notation name := bytes.
Inductive driver := RAM | Disc.
(* what the service holds: a RAM index/dictionary is built from the source read once
   (service.go:44-58, generation [g] of the source); a disc one is a memory map of a file
   (fs_directory.go:40-52, helpers.go:14-22), so it shows whatever the file holds when it
   is read *)
Inductive handle := Snapshot (g : Z) | Mapped.
(* a map value, tagged with the goroutine that installed it *)
Record entry := mkEntry { e_by : nat; e_val : handle }.

(* the goroutines *)
Inductive thread :=
(* AddIndexByDescription; service.go:35-91 *)
| TAdd (n : name) (d : driver)
(* Suggest/Autocomplete; service.go:105-173 *)
| TQuery (n : name)
(* GetDictionaries; service.go:94-102 *)
| TList
(* the indexer process rewrites the dictionary file, then the index file, in place, from
   generation [g] of the source; cmd/suggest/cmd/indexer.go:99-174 *)
| TBuild (n : name) (g : Z).

(* what a query got from the maps, and what it then read through it *)
Definition got := (option entry * option entry)%type.
Inductive pc :=
| AOpenDict | AOpenIndex (dv : handle) | ALock (dv iv : handle) | AWait (dv iv : handle)
| AWriteIndex (dv iv : handle) | AWritingIndex (dv iv : handle)
| AWriteDict (dv iv : handle) | AWritingDict (dv iv : handle) | AUnlock | ADone | AFail
| QLock | QReadIndex | QReadDict (i : option entry) | QUnlock (r : got)
| QUseIndex (i d : entry) | QUseDict (i d : entry) (gi : Z) | QDone (r : got) (c : option (Z * Z))
| LLen | LIter | LDone
| BDict | BIndex | BDone.
Definition start_pc (t : thread) : pc :=
  match t with TAdd _ _ => AOpenDict | TQuery _ => QLock | TList => LLen | TBuild _ _ => BDict end.

Record svc := mkSvc {
  s_index : list (name * entry);      (* s.indexes *)
  s_dict : list (name * entry);       (* s.dictionaries *)
  s_windex : bool; s_wdict : bool;    (* the run time's "a write is in progress" flag of the maps *)
  s_writer : option nat;              (* the goroutine that announced itself as writer *)
  s_readers : list nat;               (* the goroutines that hold the read lock *)
  s_fdict : list (name * Z);          (* generation held by the dictionary file *)
  s_findex : list (name * Z);         (* generation held by the index files *)
  s_src : list (name * Z);            (* generation held by the source file *)
  s_pcs : list pc;
  (* ghost: the index and dictionary installed so far, oldest first *)
  s_hist : list (name * (entry * entry))
}.
Inductive sys := Live (s : svc) | Thrown.   (* Thrown: fatal error: concurrent map ... *)

Definition set_pcs (s : svc) (p : list pc) : svc := mkSvc (s_index s) (s_dict s) (s_windex s) (s_wdict s) (s_writer s) (s_readers s) (s_fdict s) (s_findex s) (s_src s) p (s_hist s).
Definition set_lock (s : svc) (w : option nat) (r : list nat) : svc := mkSvc (s_index s) (s_dict s) (s_windex s) (s_wdict s) w r (s_fdict s) (s_findex s) (s_src s) (s_pcs s) (s_hist s).
Definition set_index (s : svc) (m : list (name * entry)) (f : bool) : svc := mkSvc m (s_dict s) f (s_wdict s) (s_writer s) (s_readers s) (s_fdict s) (s_findex s) (s_src s) (s_pcs s) (s_hist s).
Definition set_dict (s : svc) (m : list (name * entry)) (f : bool) : svc := mkSvc (s_index s) m (s_windex s) f (s_writer s) (s_readers s) (s_fdict s) (s_findex s) (s_src s) (s_pcs s) (s_hist s).
Definition set_files (s : svc) (d i : list (name * Z)) : svc := mkSvc (s_index s) (s_dict s) (s_windex s) (s_wdict s) (s_writer s) (s_readers s) d i (s_src s) (s_pcs s) (s_hist s).
Definition log_install (s : svc) (n : name) (i d : entry) : svc := mkSvc (s_index s) (s_dict s) (s_windex s) (s_wdict s) (s_writer s) (s_readers s) (s_fdict s) (s_findex s) (s_src s) (s_pcs s) (s_hist s ++ [(n, (i, d))]).

Fixpoint set_at {A} (i : nat) (x : A) (l : list A) : list A :=
  match l, i with
  | [], _ => []
  | _ :: t, O => x :: t
  | y :: t, S j => y :: set_at j x t
  end.
Definition jump (s : svc) (i : nat) (p : pc) : option sys := Some (Live (set_pcs s (set_at i p (s_pcs s)))).

Definition read_handle (files : list (name * Z)) (n : name) (h : handle) : Z :=
  match h with Snapshot g => g | Mapped => match mget beqb files n with Some g => g | None => 0 end end.

(* sync.RWMutex.  Lock: the writers' own mutex, announce (no new reader gets in), wait
   until the readers inside have left.  RLock: waits while a writer is announced.
   (Go also lets the readers that waited in before the next writer; the model allows
   either order, so it has every schedule Go has.) *)
Definition step (t : thread) (i : nat) (p : pc) (s : svc) : option sys :=
  match t, p with
  (* service.go:44-58 and :61-75: open the dictionary, then build/open the index *)
  | TAdd n RAM, AOpenDict => match mget beqb (s_src s) n with Some g => jump s i (AOpenIndex (Snapshot g)) | None => jump s i AFail end
  | TAdd n Disc, AOpenDict => match mget beqb (s_fdict s) n with Some _ => jump s i (AOpenIndex Mapped) | None => jump s i AFail end
  | TAdd n RAM, AOpenIndex dv => jump s i (ALock dv dv)                  (* ngram_index_builder.go: built from dict *)
  | TAdd n Disc, AOpenIndex dv => match mget beqb (s_findex s) n with Some _ => jump s i (ALock dv Mapped) | None => jump s i AFail end
  (* :85 s.Lock() *)
  | TAdd _ _, ALock dv iv => match s_writer s with Some _ => None | None => jump (set_lock s (Some i) (s_readers s)) i (AWait dv iv) end
  | TAdd _ _, AWait dv iv => match s_readers s with _ :: _ => None | [] => jump s i (AWriteIndex dv iv) end
  (* :86 s.indexes[name] = nGramIndex *)
  | TAdd _ _, AWriteIndex dv iv => if s_windex s then Some Thrown else jump (set_index s (s_index s) true) i (AWritingIndex dv iv)
  | TAdd n _, AWritingIndex dv iv => jump (set_index s (mset beqb (s_index s) n (mkEntry i iv)) false) i (AWriteDict dv iv)
  (* :87 s.dictionaries[name] = dict *)
  | TAdd _ _, AWriteDict dv iv => if s_wdict s then Some Thrown else jump (set_dict s (s_dict s) true) i (AWritingDict dv iv)
  | TAdd n _, AWritingDict dv iv => jump (log_install (set_dict s (mset beqb (s_dict s) n (mkEntry i dv)) false) n (mkEntry i iv) (mkEntry i dv)) i AUnlock
  (* :88 s.Unlock() *)
  | TAdd _ _, AUnlock => jump (set_lock s None (s_readers s)) i ADone
  (* :106 and :143 s.RLock() *)
  | TQuery _, QLock => match s_writer s with Some _ => None | None => jump (set_lock s (s_writer s) (i :: s_readers s)) i QReadIndex end
  (* :107 *)
  | TQuery n, QReadIndex => if s_windex s then Some Thrown else jump s i (QReadDict (mget beqb (s_index s) n))
  (* :108 *)
  | TQuery n, QReadDict e => if s_wdict s then Some Thrown else jump s i (QUnlock (e, mget beqb (s_dict s) n))
  (* :109, :111-113 *)
  | TQuery _, QUnlock r =>
      let s' := set_lock s (s_writer s) (remove Nat.eq_dec i (s_readers s)) in
      match r with
      | (Some e, Some d) => jump s' i (QUseIndex e d)
      | _ => jump s' i (QDone r None)
      end
  (* :115-120: the index answers *)
  | TQuery n, QUseIndex e d => jump s i (QUseDict e d (read_handle (s_findex s) n (e_val e)))
  (* :126-138: the dictionary gives the strings *)
  | TQuery n, QUseDict e d gi => jump s i (QDone (Some e, Some d) (Some (gi, read_handle (s_fdict s) n (e_val d))))
  (* :94-102: no lock *)
  | TList, LLen => jump s i LIter
  | TList, LIter => if s_wdict s then Some Thrown else jump s i LDone
  (* indexer.go:111-131: dictionary.BuildCDBDictionary, then suggest.Index *)
  | TBuild n g, BDict => jump (set_files s (mset beqb (s_fdict s) n g) (s_findex s)) i BIndex
  | TBuild n g, BIndex => jump (set_files s (s_fdict s) (mset beqb (s_findex s) n g)) i BDone
  | _, _ => None
  end.

Definition move (ts : list thread) (i : nat) (y : sys) : option sys :=
  match y with
  | Thrown => None
  | Live s => match nth_error ts i, nth_error (s_pcs s) i with
              | Some t, Some p => step t i p s
              | _, _ => None
              end
  end.
Fixpoint moves (ts : list thread) (sched : list nat) (y : sys) : option sys :=
  match sched with
  | [] => Some y
  | i :: r => match move ts i y with Some y' => moves ts r y' | None => None end
  end.
(* NewService (service.go:27-32), with files already on the disc *)
Definition init (ts : list thread) (fdict findex src : list (name * Z)) : sys :=
  Live (mkSvc [] [] false false None [] fdict findex src (map start_pc ts) []).
