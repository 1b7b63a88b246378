(** Model of the reindex job of the search service: internal/suggest/api/app.go:47-51 and
    :110-124 (configureService), which runs at start-up, on every POST to /internal/reindex/
    (reindex_handler.go:12) and on every SIGHUP (app.go:127-145), with nothing that keeps two
    runs apart.  Definitions only.

    AddIndexByDescription is taken in two steps: opening and building (service.go:35-83), which
    reads the files as they are at that moment, and the installation under the name
    (service.go:85-88), one step as C44 proves it to look.  The files are rewritten by others at any time. *)
From Verif Require Import Base GoMap.
Local Open Scope Z_scope.

Notation name := bytes.
(* the outside: the configuration file (None: unreadable or not a list of descriptions, in
   which ReadConfigs fails; config.go:83-112) as its list of names, and for every name the
   version of its dictionary and index (None: opening or building fails).  Versions count
   the changes of the outside. *)
Record world := mkWorld { w_now : Z; w_config : option (list name); w_files : list (name * option Z) }.
Definition version (w : world) (n : name) : option Z := match mget beqb (w_files w) n with Some v => v | None => None end.

(* a run of the job *)
Inductive job :=
| JRead                                        (* app.go:111 *)
| JOpen (todo : list name)                     (* app.go:117, at the next description *)
| JInstall (n : name) (v : Z) (todo : list name)
| JDone | JFailed.
Definition ended (j : job) : bool := match j with JDone | JFailed => true | _ => false end.

Record state := mkState { s_world : world; s_served : list (name * Z); s_jobs : list job }.

Inductive event :=
| EConfig (c : option (list name))             (* somebody changes the configuration file *)
| EFiles (n : name) (good : bool)              (* the indexer or the user changes the files of a name *)
| EStart                                       (* start-up, POST /internal/reindex/, SIGHUP *)
| EJob (i : nat).                              (* the next step of a run *)

Fixpoint set_job (i : nat) (x : job) (l : list job) : list job :=
  match l, i with [], _ => [] | _ :: t, O => x :: t | y :: t, S k => y :: set_job k x t end.

(* one step of a run: the job afterwards and what is served afterwards *)
Definition job_step (w : world) (served : list (name * Z)) (j : job) : option (job * list (name * Z)) :=
  match j with
  (* :111-115 *)
  | JRead => match w_config w with Some c => Some (JOpen c, served) | None => Some (JFailed, served) end
  (* :117-124 *)
  | JOpen [] => Some (JDone, served)
  | JOpen (n :: todo) =>
      match version w n with
      | Some v => Some (JInstall n v todo, served)
      | None => Some (JFailed, served)           (* :118-120: the names already done stay *)
      end
  | JInstall n v todo => Some (JOpen todo, mset beqb served n v)
  | JDone | JFailed => None
  end.
Definition exec (e : event) (s : state) : option state :=
  match e with
  | EConfig c => Some (mkState (mkWorld (w_now (s_world s) + 1) c (w_files (s_world s))) (s_served s) (s_jobs s))
  | EFiles n good =>
      let now := w_now (s_world s) + 1 in
      Some (mkState (mkWorld now (w_config (s_world s)) (mset beqb (w_files (s_world s)) n (if good then Some now else None))) (s_served s) (s_jobs s))
  | EStart => Some (mkState (s_world s) (s_served s) (s_jobs s ++ [JRead]))
  | EJob i =>
      match nth_error (s_jobs s) i with
      | Some j => match job_step (s_world s) (s_served s) j with
                  | Some (j', served') => Some (mkState (s_world s) served' (set_job i j' (s_jobs s)))
                  | None => None
                  end
      | None => None
      end
  end.
Fixpoint runs (evs : list event) (s : state) : option state :=
  match evs with [] => Some s | e :: r => match exec e s with Some s' => runs r s' | None => None end end.
(* NewService (service.go:27-32): nothing is served; [files]: whose files can be opened *)
Definition initial (c : option (list name)) (files : list (name * bool)) : state :=
  mkState (mkWorld 0 c (map (fun f : name * bool => (fst f, if snd f then Some 0 else @None Z)) files)) [] [].
