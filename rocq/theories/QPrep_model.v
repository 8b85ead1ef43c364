(** Preparing queries for a benchmark.
    postbound/bench.py 149-317   QueryPreparation
    postbound/bench.py 530-567   _execute_query
    postbound/transform.py 672-717, 749-786   as_star_query, as_count_star_query, as_explain, as_explain_analyze (in Clause_model)

    Simplifications: queries are those of Clause_model (clauses with opaque contents); [star], [count_star], [plan] and [analyze] are
    the contents of Select.star(), Select.count_star(), Explain.plan() and Explain.explain_analyze().  Warnings and timing are not
    modelled. *)
From Coq Require Import String List Bool Arith.
From Verif Require Import PyBase Clause_model.
Import ListNotations.
Open Scope string_scope.
Open Scope list_scope.

(** The attributes of a QueryPreparation, bench.py 202-250. *)
Record prep := mkprep { p_output : string; p_projection : string; p_prewarm : bool; p_stmts : list string }.

(** __init__, bench.py 202-250: [explain], [count_star] and [analyze] are the deprecated flags. *)
Definition make_prep (projection output : string) (explain count_star analyze : option bool) (prewarm : bool) (stmts : option (list string)) : prep :=
  let out1 := match explain with Some true => "explain" | _ => output end in
  let out := match analyze with Some true => "analyze" | _ => out1 end in
  let proj := match count_star with Some true => "count_star" | _ => projection end in
  let warm := if String.eqb out "explain" && prewarm then false else prewarm in
  mkprep out proj warm (match stmts with Some l => l | None => [] end).

(** What reaches the database: prewarm_tables(query.tables()), a statement with the caching flag, a query with a timeout, a query. *)
Inductive effect :=
| Prewarm (q : query)
| Stmt (s : string) (cache_enabled : bool)
| RunTimeout (q : query) (timeout : nat)
| Run (q : query) (cache_enabled raw : bool).

(** A database: which interfaces it supports, and how it reacts after what it has seen already.  A timeout gives no result set. *)
Record database := mkdb {
  d_prewarm : bool; d_timeout : bool; d_stopwatch : bool;
  d_warm_tables : list effect -> query -> res unit;
  d_statement : list effect -> string -> res unit;
  d_query : list effect -> query -> res nat;
  d_query_timeout : list effect -> query -> nat -> res (option nat);
  d_last_runtime : list effect -> res nat }.

Section Prepare.
  Context (star count_star : content) (plan analyze : sub).

  (** prepare_query 271-286 *)
  Definition project (p : prep) (q : query) : res query :=
    if String.eqb (p_projection p) "none" then Ok q
    else if String.eqb (p_projection p) "star" || String.eqb (p_projection p) "*" then with_select q star
    else if String.eqb (p_projection p) "count_star" || String.eqb (p_projection p) "count(*)" then with_select q count_star
    else Raise ValueError.
  Definition output (p : prep) (q : query) : res query :=
    if String.eqb (p_output p) "default" then Ok q
    else if String.eqb (p_output p) "explain" then as_explain q plan
    else if String.eqb (p_output p) "analyze" || String.eqb (p_output p) "explain_analyze" then as_explain q analyze
    else Ok q.

  (** The loop over the preparatory statements, 299-300. *)
  Fixpoint run_stmts (db : database) (seen : list effect) (l : list string) : res unit * list effect :=
    match l with
    | [] => (Ok tt, seen)
    | s :: l => match d_statement db seen s with
                | Ok _ => run_stmts db (seen ++ [Stmt s false]) l
                | Raise e => (Raise e, seen ++ [Stmt s false])
                end
    end.

  (** prepare_query 252-302; the trace [seen] is extended by what is sent to the database. *)
  Definition prepare_query (p : prep) (on : option database) (seen : list effect) (q : query) : res query * list effect :=
    match rbind (project p q) (output p) with
    | Raise e => (Raise e, seen)
    | Ok q' =>
        match on with
        | None => (Ok q', seen)
        | Some db =>
            let warmed := if p_prewarm p && d_prewarm db then (d_warm_tables db seen q', seen ++ [Prewarm q']) else (Ok tt, seen) in
            match warmed with
            | (Raise e, seen1) => (Raise e, seen1)
            | (Ok _, seen1) => match run_stmts db seen1 (p_stmts p) with
                               | (Raise e, seen2) => (Raise e, seen2)
                               | (Ok _, seen2) => (Ok q', seen2)
                               end
            end
        end
    end.

  (** _InternalExecResult 511-527; [runtime] is what the stopwatch of the database says. *)
  Inductive outcome := Success (result : nat) (runtime : option nat) | TimedOut (timeout : nat) | Failed (e : exn).

  (** _execute_query 530-567; `if timeout` is false for 0. *)
  Definition stopwatch (db : database) (seen : list effect) (r : nat) : outcome :=
    if d_stopwatch db then match d_last_runtime db seen with Ok t => Success r (Some t) | Raise e => Failed e end
    else Success r None.
  Definition execute_query (p : option prep) (timeout : option nat) (db : database) (seen : list effect) (q : query) : res outcome * list effect :=
    let tmo := match timeout with Some (S t) => Some (S t) | _ => None end in
    match tmo, d_timeout db with
    | Some _, false => (Raise ValueError, seen)
    | _, _ =>
        let prepared := match p with Some p => prepare_query p (Some db) seen q | None => (Ok q, seen) end in
        match prepared with
        | (Raise e, seen1) => (Raise e, seen1)
        | (Ok q', seen1) =>
            match tmo with
            | Some t =>
                let seen2 := seen1 ++ [RunTimeout q' t] in
                (Ok (match d_query_timeout db seen1 q' t with
                     | Raise e => Failed e
                     | Ok None => TimedOut t
                     | Ok (Some r) => stopwatch db seen2 r
                     end), seen2)
            | None =>
                let seen2 := seen1 ++ [Run q' false true] in
                (Ok (match d_query db seen1 q' with
                     | Raise e => Failed e
                     | Ok r => stopwatch db seen2 r
                     end), seen2)
            end
        end
    end.
End Prepare.
