(** Model of the life of the search server: internal/suggest/api/app.go:41-87 (Run), :90-107
    (writePIDFile), :127-145 (listenToSystemSignals) and internal/http/http_server.go:25-48.
    Definitions only.

    Four goroutines: main, the one that waits for signals, the one that waits for the end of the
    context and calls Shutdown, and one per request.  What os/signal and net/http do is taken
    from their documentation: a signal nobody was notified of has its default action (SIGHUP,
    SIGINT and SIGTERM end the process); Notify never blocks, a signal that finds its channel
    full is dropped; Shutdown first closes the listener, upon which ListenAndServe returns
    ErrServerClosed at once, and then waits for the requests; when main returns the process
    ends.  Not modelled: failures to write the PID file or to listen, time-outs. *)
From Verif Require Import Base.

Inductive main_at :=
| AtPid          (* app.go:42, about to write the PID file *)
| AtConfigure    (* app.go:51 *)
| AtGo           (* app.go:55-68, about to start the goroutine for signals *)
| AtServer       (* app.go:70-87, http_server.go:26-39: up to the go statement *)
| AtListen       (* http_server.go:41, about to listen *)
| Serving.       (* inside ListenAndServe *)
Inductive signals_at :=
| NotStarted
| AtNotifyHup    (* :131 *)
| AtNotifyTerm   (* :132 *)
| AtSelect       (* :134-135 *)
| Reindexing.    (* :138, inside reindexFn *)
Inductive exit := Killed | ReturnedNil | ReturnedError.
Inductive signal := Hup | Term.   (* Term: SIGTERM or os.Interrupt *)
Record state := mkState {
  s_main : main_at; s_signals : signals_at;
  s_hup : bool; s_term : bool;             (* the two channels of capacity one *)
  s_cancelled : bool;                      (* the context *)
  s_watching : bool;                       (* http_server.go:34-40 was started *)
  s_shutdown : bool;                       (* Shutdown was called: the listener is closed *)
  s_inflight : list nat; s_answered : list nat;
  s_pid : bool;                            (* the PID file exists *)
  s_exit : option exit }.
Definition start : state := mkState AtPid NotStarted false false false false false [] [] false None.

Inductive event :=
| Sig (x : signal)       (* somebody sends a signal *)
| Main (ok : bool)       (* the next step of main; [ok]: whether the first reindex job succeeds *)
| Listen                 (* the signals goroutine calls Notify or ends a reindex run *)
| TakeHup | TakeTerm     (* its select *)
| Watch                  (* the other goroutine sees the end of the context and calls Shutdown *)
| Accept (r : nat)       (* a request comes in and its handler starts *)
| Answer (r : nat).      (* a handler ends *)

Fixpoint without (r : nat) (l : list nat) : list nat :=
  match l with [] => [] | x :: t => if Nat.eqb r x then t else x :: without r t end.

Definition set_main (s : state) (m : main_at) := mkState m (s_signals s) (s_hup s) (s_term s) (s_cancelled s) (s_watching s) (s_shutdown s) (s_inflight s) (s_answered s) (s_pid s) (s_exit s).
Definition set_signals (s : state) (g : signals_at) := mkState (s_main s) g (s_hup s) (s_term s) (s_cancelled s) (s_watching s) (s_shutdown s) (s_inflight s) (s_answered s) (s_pid s) (s_exit s).
Definition leave (s : state) (e : exit) := mkState (s_main s) (s_signals s) (s_hup s) (s_term s) (s_cancelled s) (s_watching s) (s_shutdown s) (s_inflight s) (s_answered s) (s_pid s) (Some e).

(* os/signal: delivery *)
Definition deliver (x : signal) (s : state) : state :=
  match x with
  | Hup => match s_signals s with
           | NotStarted | AtNotifyHup => leave s Killed
           | _ => mkState (s_main s) (s_signals s) true (s_term s) (s_cancelled s) (s_watching s) (s_shutdown s) (s_inflight s) (s_answered s) (s_pid s) (s_exit s)
           end
  | Term => match s_signals s with
            | AtSelect | Reindexing => mkState (s_main s) (s_signals s) (s_hup s) true (s_cancelled s) (s_watching s) (s_shutdown s) (s_inflight s) (s_answered s) (s_pid s) (s_exit s)
            | _ => leave s Killed
            end
  end.
(* one step of main *)
Definition main_step (ok : bool) (s : state) : option state :=
  match s_main s with
  | AtPid => Some (mkState AtConfigure (s_signals s) (s_hup s) (s_term s) (s_cancelled s) (s_watching s) (s_shutdown s) (s_inflight s) (s_answered s) true (s_exit s))
  | AtConfigure => if ok then Some (set_main s AtGo) else Some (leave s ReturnedError)
  | AtGo => Some (set_signals (set_main s AtServer) AtNotifyHup)
  | AtServer => Some (mkState AtListen (s_signals s) (s_hup s) (s_term s) (s_cancelled s) true (s_shutdown s) (s_inflight s) (s_answered s) (s_pid s) (s_exit s))
  | AtListen => if s_shutdown s then Some (leave s ReturnedNil) else Some (set_main s Serving)
  | Serving => if s_shutdown s then Some (leave s ReturnedNil) else None   (* http_server.go:42-45 *)
  end.
Definition exec (e : event) (s : state) : option state :=
  match s_exit s with
  | Some _ => None
  | None =>
    match e with
    | Sig x => Some (deliver x s)
    | Main ok => main_step ok s
    | Listen => match s_signals s with
                | AtNotifyHup => Some (set_signals s AtNotifyTerm)
                | AtNotifyTerm => Some (set_signals s AtSelect)
                | Reindexing => Some (set_signals s AtSelect)
                | _ => None
                end
    | TakeHup => match s_signals s with
                 | AtSelect => if s_hup s then Some (mkState (s_main s) Reindexing false (s_term s) (s_cancelled s) (s_watching s) (s_shutdown s) (s_inflight s) (s_answered s) (s_pid s) None) else None
                 | _ => None
                 end
    | TakeTerm => match s_signals s with
                  | AtSelect => if s_term s then Some (mkState (s_main s) AtSelect (s_hup s) false true (s_watching s) (s_shutdown s) (s_inflight s) (s_answered s) (s_pid s) None) else None
                  | _ => None
                  end
    | Watch => if s_watching s && s_cancelled s && negb (s_shutdown s)
               then Some (mkState (s_main s) (s_signals s) (s_hup s) (s_term s) (s_cancelled s) (s_watching s) true (s_inflight s) (s_answered s) (s_pid s) None) else None
    | Accept r => match s_main s with
                  | Serving => if s_shutdown s then None else Some (mkState (s_main s) (s_signals s) (s_hup s) (s_term s) (s_cancelled s) (s_watching s) (s_shutdown s) (r :: s_inflight s) (s_answered s) (s_pid s) None)
                  | _ => None
                  end
    | Answer r => if existsb (Nat.eqb r) (s_inflight s)
                  then Some (mkState (s_main s) (s_signals s) (s_hup s) (s_term s) (s_cancelled s) (s_watching s) (s_shutdown s) (without r (s_inflight s)) (r :: s_answered s) (s_pid s) None) else None
    end
  end.
Fixpoint runs (evs : list event) (s : state) : option state :=
  match evs with [] => Some s | e :: r => match exec e s with Some s' => runs r s' | None => None end end.
