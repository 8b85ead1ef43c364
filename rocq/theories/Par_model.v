(** Model of the parallel query executor, postbound/postgres.py 3280-3473.

    Futures are numbered in the order of submission.  What the execution of each future leads to is given; [order] is the order in which
    as_completed() yields them, it ends early if draining times out. *)
From Coq Require Import List Bool Arith.
From Verif Require Import PyBase.
Import ListNotations.

Section Parallel.
  Context {Q R : Type} `{EqD Q}.
  (** Result of a query on the server: rows, cancelled by the statement timeout, or an exception (also for statements without
      a result, 3324). *)
  Inductive fate := Rows (r : R) | Cancelled | Error (e : exn).
  Context (fates : nat -> Q -> fate).
  (** _parallel_query_worker 3288-3327: yields the query along with its result *)
  Definition worker (i : nat) (q : Q) : res (Q * option R) :=
    match fates i q with Rows r => Ok (q, Some r) | Cancelled => Ok (q, None) | Error e => Raise e end.

  Record pool := mkp { p_tasks : list Q; p_results : list (Q * option R) }.
  Definition start : pool := mkp [] [].
  (** queue_query 3393-3411 *)
  Definition queue_query (p : pool) (q : Q) : pool := mkp (p_tasks p ++ [q]) (p_results p).
  (** drain_queue 3413-3446: the callback receives the query and what the worker returned. *)
  Fixpoint drain (p : pool) (order : list nat) (calls : list (Q * (Q * option R))) : pool * list (Q * (Q * option R)) * option exn :=
    match order with
    | [] => (p, calls, None)
    | i :: order =>
        match nth_error (p_tasks p) i with
        | None => drain p order calls
        | Some q =>
            match worker i q with
            | Raise e => (p, calls, Some e)
            | Ok r => drain (mkp (p_tasks p) (p_results p ++ [r])) order (calls ++ [(q, r)])
            end
        end
    end.
  (** result_set 3448-3457 *)
  Definition result_set (p : pool) : dict Q (option R) := dict_of (p_results p).

  Inductive pop := Queue (q : Q) | Drain (order : list nat).
  (** A sequence of calls, until the first exception. *)
  Fixpoint run (p : pool) (ops : list pop) (calls : list (Q * (Q * option R))) : pool * list (Q * (Q * option R)) * option exn :=
    match ops with
    | [] => (p, calls, None)
    | Queue q :: ops => run (queue_query p q) ops calls
    | Drain order :: ops => let '(p, calls, e) := drain p order calls in match e with Some e => (p, calls, Some e) | None => run p ops calls end
    end.
End Parallel.
