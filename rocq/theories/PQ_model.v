(** Model of the entry point of the parser, postbound/parser.py 1981-2015 (_pglast_parse_explain), 2197-2205 (_apply_extra_clauses), 2240-2341
    (parse_query) and 2344-2367 (load_query); of RelOptInfo, postbound/opt/dynprog.py 480-492; and of as_complete_algorithm,
    postbound/_stages.py 973-1085.

    Simplifications: what pglast returns is given by its statements; SELECT statements are given by a number and by whether they are set
    operations (the translation of their contents is in Bind_model.v and others); SET commands are in PHint_model.v; schemas and hint
    blocks are numbers. *)
From Coq Require Import List Bool Arith Ascii String.
From Verif Require Import PyBase Ident_model.
Import ListNotations.

(** ** EXPLAIN options *)
Inductive option_ := OAnalyze (value : option bool) | OFormat (f : string) | OUnknown (n : nat).
Record explain := { e_analyze : bool; e_format : string }.
(** 2002-2014; the value of the option is not looked at. *)
Fixpoint explain_loop (l : list option_) (a : bool) (f : string) : res explain :=
  match l with
  | [] => Ok {| e_analyze := a; e_format := f |}
  | OAnalyze _ :: r => explain_loop r true f
  | OFormat g :: r => explain_loop r a g
  | OUnknown _ :: _ => Raise RuntimeError
  end.
Definition parse_explain (l : list option_) : res explain := explain_loop l false "TEXT".

(** ** The schema for binding columns, 2286-2311 *)
Definition effective (bind_columns : option bool) (auto : bool) : bool :=
  match bind_columns with Some true => true | Some false => false | None => auto end.
(** The schema and whether there is a warning; [pool] are the schemas of the databases in the pool, in order. *)
Definition binding_schema (bind_columns : option bool) (auto : bool) (db_schema : option nat) (pool : list nat) : option nat * bool :=
  match db_schema with
  | None =>
      if effective bind_columns auto then match pool with [] => (None, true) | [s] => (Some s, false) | s :: _ => (Some s, true) end
      else (None, false)
  | Some s => (Some s, false)
  end.

(** ** parse_query *)
Inductive statement := Select (set_operation : bool) (id : nat) | Explain (l : list option_) (inner : statement) | Other (id : nat).
Record parsed := { p_set : bool; p_id : nat; p_schema : option nat; p_explain : option explain; p_hint : option nat }.
(** [set_query]: what isinstance(query, SetQuery) is for the text of the query, 2333: never true. *)
Definition is_set_query (text : string) : bool := false.
Definition parse_query (text : string) (accept_set_query include_hints : bool) (schema : option nat) (stmts : list statement) (hint : option nat) : res parsed :=
  if deqb text ""%string then Raise RuntimeError else
  match stmts with
  | [s] =>
      rbind (match s with
             | Explain l q => rbind (parse_explain l) (fun e => Ok (Some e, q))
             | _ => Ok (None, s)
             end) (fun eq =>
      match snd eq with
      | Select setop id =>
          if negb accept_set_query && is_set_query text then Raise RuntimeError
          else Ok {| p_set := setop; p_id := id; p_schema := schema; p_explain := fst eq; p_hint := if include_hints then hint else None |}
      | _ => Raise ValueError
      end)
  | _ => Raise ValueError
  end.

(** ** RelOptInfo.__contains__ 480-486, __eq__ 491-492 *)
Inductive item := IRel (tables : list nat) | ITable (t : nat) | ISet (tables : list nat).
Definition item_tables (i : item) : list nat := match i with IRel l => l | ITable t => [t] | ISet l => l end.
Definition subsetb (a b : list nat) : bool := forallb (fun x => mem x b) a.
(** [a < b] of sets: a proper subset *)
Definition rel_contains (rel : list nat) (i : item) : bool := subsetb (item_tables i) rel && negb (subsetb rel (item_tables i)).
Definition rel_eq (a b : list nat) : bool := subsetb a b && subsetb b a.

(** ** as_complete_algorithm *)
(** The interfaces that a stage implements. *)
Record stage := { st_order : bool; st_ops : bool; st_params : bool; st_id : nat }.
(** What is handed to generate_hints: the stage that computed it. *)
Record emulator := { em_order : option nat; em_ops : option nat; em_params : option nat }.
(** 973-998 and 1077-1085; the database is the given one or the only one of the pool. *)
Definition as_complete (s : stage) (database : option nat) (pool : list nat) : res (nat * emulator) :=
  rbind (match database with Some d => Ok d | None => match pool with [d] => Ok d | _ => Raise ValueError end end) (fun d =>
  if negb (st_order s) && negb (st_ops s) && negb (st_params s) then Raise ValueError
  else Ok (d, {| em_order := if st_order s then Some (st_id s) else None; em_ops := if st_ops s then Some (st_id s) else None;
                 em_params := if st_params s then Some (st_id s) else None |})).
(** stage() 1000-1017, for describe() and pre_check() *)
Definition described (e : emulator) : res nat :=
  match em_order e, em_ops e, em_params e with
  | Some i, _, _ => Ok i | None, Some i, _ => Ok i | None, None, Some i => Ok i | None, None, None => Raise AssertionError
  end.
