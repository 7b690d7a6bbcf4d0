(** Model of the run protocol: model.py run, run_single, thread handling and logging. *)
From Verif Require Import Common.
Open Scope nat_scope.

Inductive exn := RuntimeErr | IndexErr | StepErr.
Inductive method := MRun | MSingle.

Section Run.
(** Dates, the rest of the model ("world": state variables, outputs), and the effect of one time step
    given the number of threads in force; a step may fail, leaving a partially updated world. *)
Context {D W : Type}.
Variable step : nat -> D -> W -> W * bool.
Variable dates : list D.
(** self._numba_threads *)
Variable cfg_threads : option nat.

(** _run_method, date_idx, date, numba's global thread count, and everything else *)
Record mstate := MS { s_method : option method; s_idx : option nat; s_date : option D;
                      s_threads : nat; s_world : W }.
(** model.py:255 self.date_idx == len(self.dates) - 1 *)
Definition finished (s : mstate) : bool :=
  match s_idx s with None => false | Some i => S i =? length dates end.
(** model.py:238-285 run_single. The thread count is set before the checks and only restored at the
    end of a successful step. *)
Definition run_single (s : mstate) : mstate * option exn :=
  let meth := match s_method s with None => Some MSingle | m => m end in
  let thr := match cfg_threads with Some t => t | None => s_threads s end in
  if finished s
  then (MS meth (s_idx s) (s_date s) thr (s_world s), Some RuntimeErr)
  else
    let i := match s_idx s with None => 0 | Some i => S i end in
    match nth_error dates i with
    | None => (MS meth (Some i) (s_date s) thr (s_world s), Some IndexErr)
    | Some d =>
        let (w, ok) := step thr d (s_world s) in
        if ok
        then (MS meth (Some i) (Some d)
                 (match cfg_threads with Some _ => s_threads s | None => thr end) w, None)
        else (MS meth (Some i) (Some d) thr w, Some StepErr)
    end.
(** n calls in a row, stopped by the first exception *)
Fixpoint repeat_single (n : nat) (s : mstate) : mstate * option exn :=
  match n with
  | O => (s, None)
  | S n' => match run_single s with
            | (s', None) => repeat_single n' s'
            | r => r
            end
  end.
(** model.py:211-236 run *)
Definition run (s : mstate) : mstate * option exn :=
  match s_method s with
  | Some _ => (s, Some RuntimeErr)
  | None => repeat_single (length dates)
              (MS (Some MRun) (s_idx s) (s_date s) (s_threads s) (s_world s))
  end.
(** The state after initialisation *)
Definition fresh (threads : nat) (w : W) : mstate := MS None None None threads w.
Inductive call := CRun | CSingle.
Definition do_call (s : mstate) (c : call) : mstate :=
  match c with CRun => fst (run s) | CSingle => fst (run_single s) end.
Definition history (s : mstate) (cs : list call) : mstate := fold_left do_call cs s.
End Run.
Arguments mstate : clear implicits.
Arguments MS {D W}. Arguments s_method {D W}. Arguments s_idx {D W}. Arguments s_date {D W}.
Arguments s_threads {D W}. Arguments s_world {D W}.

(** model.py:457-491 _resolve_numba_threads. [available] is numba.config.NUMBA_NUM_THREADS, [env]
    whether the environment variable is set. *)
Inductive threads_cfg := TDefault | TAuto | TInt (n : nat).
Definition resolve_threads (c : threads_cfg) (env : bool) (rows cols available : nat) : option nat :=
  match c with
  | TDefault => None
  | TAuto =>
      if env then None
      else
        let pixels := rows * cols in
        let t := if pixels <? 100 then 1 else if pixels <? 100 * 100 then 2 else 4 in
        Some (min t available)
  | TInt n => Some (min n available)
  end.

(** * Logging *)
(** Handlers of the package logger: the built-in one (flag _openamundsen_default_handler), null
    handlers, and handlers of the host application. *)
Inductive handler := HDefault | HNull | HHost (id : nat).
Record logger := LG { handlers : list handler; level : nat }.
Definition is_default (h : handler) : bool := match h with HDefault => true | _ => false end.
Definition is_null (h : handler) : bool := match h with HNull => true | _ => false end.
Definition NOTSET : nat := 0.
(** model.py:389-421 configure_logger *)
Definition configure_logger (enable : bool) (log_level : nat) (l : logger) : logger :=
  let hs := filter (fun h => negb (is_default h)) (handlers l) in
  let host := negb (match filter (fun h => negb (is_null h)) hs with [] => true | _ => false end) in
  if host then LG hs (level l)
  else if enable then LG (hs ++ [HDefault]) log_level
  else LG hs NOTSET.
(** model.py:423-434 _ensure_logger_configured: [configured] is _logger_configured_pid *)
Definition ensure_logger (enable : bool) (log_level : nat) (pid : nat) (st : option nat * logger)
  : option nat * logger :=
  let (configured, l) := st in
  if match configured with Some p => p =? pid | None => false end then st
  else (Some pid, configure_logger enable log_level l).
