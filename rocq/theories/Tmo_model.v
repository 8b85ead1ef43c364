(** Model of the timeout executor, postbound/postgres.py 3476-3875.

    The worker process and the main process communicate through a pipe only.  Time is counted in abstract units from the start of
    the worker.  The behaviour of the worker's environment (database server, operating system) is given step by step: each step
    takes some time and succeeds, raises an exception, kills the worker, or never ends.  The main process may notice that the
    query is ready with an arbitrary delay.  Not modelled: the query cache (see Cache_model), opening the watchdog connection and
    failures of the cancellation request itself. *)
From Coq Require Import List Bool Arith.
From Verif Require Import PyBase.
Import ListNotations.

Section Timeout.
  Context {err res_ : Type}.

  (** Events 3476-3513 *)
  Inductive event :=
  | Connected (pid : nat) | WorkerError (e : err) | Ready | Finished
  | Result (r : res_) (exec_time : nat).
  Inductive result_event := Success (r : res_) (exec_time : nat) | TimedOut (duration : nat) | Failure (e : err).

  (** One step of the worker; exceptions may be impossible to send. *)
  Inductive step (A : Type) := Done (d : nat) (x : A) | Fails (d : nat) (e : err) (sendable : bool) | Dies (d : nat) | Never.
  Arguments Done {A}. Arguments Fails {A}. Arguments Dies {A}. Arguments Never {A}.
  Record env := mkenv { e_connect : step nat; e_prepare : step unit; e_execute : step unit; e_fetch : step res_; e_close : step unit }.

  (** _timeout_query_worker 3605-3700: events with the time at which they are sent, and the time at which the process is gone. *)
  Definition finish (t : nat) (connected : bool) (v : env) : option nat :=
    if connected then match e_close v with Done d _ | Fails d _ _ | Dies d => Some (t + d) | Never => None end else Some t.
  Definition failing {A} (s : step A) (t : nat) (connected : bool) (v : env) : list (nat * event) * option nat :=
    match s with
    | Done _ _ => ([], None)
    | Fails d e true => ([(t + d, WorkerError e)], finish (t + d) connected v)
    | Fails d e false => ([], finish (t + d) connected v)
    | Dies d => ([], Some (t + d))
    | Never => ([], None)
    end.
  Definition worker (v : env) : list (nat * event) * option nat :=
    match e_connect v with
    | Done t1 pid =>
        let '(es, gone) :=
          match e_prepare v with
          | Done d2 _ =>
              let t2 := t1 + d2 in
              let '(es, gone) :=
                match e_execute v with
                | Done d3 _ =>
                    let t3 := t2 + d3 in
                    let '(es, gone) :=
                      match e_fetch v with
                      | Done d4 r => ([(t3 + d4, Result r d3)], finish (t3 + d4) true v)
                      | s => failing s t3 true v
                      end in
                    ((t3, Finished) :: es, gone)
                | s => failing s t2 true v
                end in
              ((t2, Ready) :: es, gone)
          | s => failing s t1 true v
          end in
        ((t1, Connected pid) :: es, gone)
    | s => failing s 0 false v
    end.

  (** What the main process does: cancel requests for backends, in order, and the outcome of the state machine.  The main process
      keeps its own end of the pipe open, hence recv() without a further event blocks forever. *)
  Inductive ctl := Ended (r : result_event) | Unexpected | Blocked.
  Definition pipe : Type := list (nat * event).
  (** _timeout_worker_await_result 3577-3588 *)
  Definition await_result (p : pipe) (pid : nat) : list nat * ctl :=
    match p with
    | [] => ([], Blocked)
    | (_, Result r t) :: _ => ([], Ended (Success r t))
    | (_, WorkerError e) :: _ => ([pid], Ended (Failure e))
    | _ => ([], Unexpected)
    end.
  (** _timeout_worker_run_query 3551-3574, _timeout_worker_timeout 3591-3595; [now] is the time at which poll() is called. *)
  Definition run_query (p : pipe) (timeout now pid : nat) : list nat * ctl :=
    match p with
    | (t, ev) :: p =>
        if t <=? now + timeout
        then match ev with
             | Finished => await_result p pid
             | WorkerError e => ([pid], Ended (Failure e))
             | _ => ([], Unexpected)
             end
        else ([pid], Ended (TimedOut timeout))
    | [] => ([pid], Ended (TimedOut timeout))
    end.
  (** _timeout_worker_prep 3531-3548 *)
  Definition prep (p : pipe) (timeout delay pid : nat) : list nat * ctl :=
    match p with
    | [] => ([], Blocked)
    | (t, Ready) :: p => run_query p timeout (t + delay) pid
    | (_, WorkerError e) :: _ => ([pid], Ended (Failure e))
    | _ => ([], Unexpected)
    end.
  (** _timeout_worker_ctl 3516-3528 *)
  Definition worker_ctl (p : pipe) (timeout delay : nat) : list nat * ctl :=
    match p with
    | [] => ([], Blocked)
    | (_, Connected pid) :: p => prep p timeout delay pid
    | (_, WorkerError e) :: _ => ([], Ended (Failure e))
    | _ => ([], Unexpected)
    end.

  Inductive outcome := Returned (r : res_) | Raised (e : err) | RaisedTimeout | RaisedState | Hangs.
  (** The recorded runtime: [None] is not a number. *)
  Record run := mkrun { r_outcome : outcome; r_runtime : option (option nat); r_cancelled : list nat; r_terminated : bool }.
  (** TimeoutQueryExecutor.execute_query 3733-3840: join() waits for a worker that was not terminated. *)
  Definition execute_query (v : env) (timeout delay : nat) : run :=
    let '(p, gone) := worker v in
    let '(cancelled, c) := worker_ctl p timeout delay in
    match c with
    | Blocked => mkrun Hangs None cancelled false
    | Unexpected => mkrun RaisedState None cancelled false
    | Ended (TimedOut d) => mkrun RaisedTimeout (Some (Some d)) cancelled true
    | Ended r =>
        match gone with
        | None => mkrun Hangs None cancelled false
        | Some _ =>
            match r with
            | Success x t => mkrun (Returned x) (Some (Some t)) cancelled false
            | Failure e => mkrun (Raised e) (Some None) cancelled false
            | TimedOut d => mkrun RaisedTimeout (Some (Some d)) cancelled true
            end
        end
    end.
End Timeout.
Arguments event : clear implicits. Arguments step : clear implicits. Arguments env : clear implicits. Arguments run : clear implicits. Arguments outcome : clear implicits.
Arguments Done {err A}. Arguments Fails {err A}. Arguments Dies {err A}. Arguments Never {err A}.
