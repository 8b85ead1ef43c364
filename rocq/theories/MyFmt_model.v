(** Model of how queries are written for MySQL: literals, casts and EXPLAIN clauses (postbound/mysql.py 461-505 and 626-638 with
    postbound/qal/_formatter.py 651-717, 1091) and the texts that are sent to the server (mysql.py 174-199, 253-277, 648-659).

    Simplifications: expressions are literals, columns, casts and functions; numbers are given by their text; a query is a
    hint block, an EXPLAIN clause and the text of the remaining clauses without "SELECT". *)
From Coq Require Import List Bool Ascii String.
From Verif Require Import PyBase.
Import ListNotations.

Notation text := (list ascii).
Definition la := list_ascii_of_string.
Definition sq : ascii := "'"%char.
Definition dq : ascii := """"%char.
Definition bsl : ascii := "\"%char.

(** ** Literals *)
Inductive lit := LNull | LNum (t : text) | LTxt (s : text).
(** StaticValueExpression.__str__, _qal.py 288-296. *)
Definition std_lit (v : lit) : text :=
  match v with
  | LNull => la "NULL"
  | LNum t => t
  | LTxt s => [sq] ++ flat_map (fun c => if Ascii.eqb c sq then [sq; sq] else [c]) s ++ [sq]
  end.
(** _MysqlStaticValueExpression.__str__, mysql.py 478-483: anything that is no number is written between double quotes. *)
Definition my_lit (v : lit) : text :=
  match v with
  | LNull => [dq] ++ la "None" ++ [dq]
  | LNum t => t
  | LTxt s => [dq] ++ s ++ [dq]
  end.

(** ** Expressions *)
Inductive ex :=
| ELit (v : lit) | EMyLit (v : lit) | ECol (c : text)
| ECast (e : ex) (ty : text) (params : list text) (arr : bool)          (* CastExpression *)
| EMyCast (e : ex) (ty : text)                                          (* _MysqlCastExpression, 486-497: neither parameters nor arrays *)
| EFun (f : text) (args : list ex).
(** _replace_static_vals, 500-501. *)
Definition replace_static (e : ex) : ex := match e with ELit v => EMyLit v | _ => e end.
(** _replace_casts, 504-505. *)
Definition replace_casts (e : ex) : ex := match e with ECast a ty _ _ => EMyCast a ty | _ => e end.
(** _expression_prettifier with flavor "vanilla", _formatter.py 651-717: a cast is rebuilt by its own class with the arguments of
    CastExpression; the constructor of _MysqlCastExpression (487) has only one parameter. *)
Section MapM.
  Context {A B : Type} (f : A -> res B).
  Fixpoint mapM (l : list A) : res (list B) :=
    match l with [] => Ok [] | x :: r => rbind (f x) (fun y => rbind (mapM r) (fun ys => Ok (y :: ys))) end.
End MapM.
Fixpoint prettify (e : ex) : res ex :=
  match e with
  | ELit _ | EMyLit _ | ECol _ => Ok e
  | ECast a ty ps _ => rbind (prettify a) (fun a' => Ok (ECast a' ty ps false))
  | EMyCast a _ => rbind (prettify a) (fun _ => Raise TypeError)
  | EFun f args => rbind (mapM prettify args) (fun args' => Ok (EFun f args'))
  end.
(** format_query on an expression of a clause, mysql.py 626-638: transform.replace_expressions calls the replacement with the
    expressions of the clauses and operands of predicates only, not with what is nested in them. *)
Definition format_expr (ansi : bool) (e : ex) : res ex :=
  prettify (replace_casts (if ansi then e else replace_static e)).

(** ** EXPLAIN *)
Record explain := { x_analyze : bool; x_format : option text }.
(** Explain.__str__, _qal.py 5292-5301. *)
Definition std_explain (x : explain) : text :=
  la "EXPLAIN" ++
  match x_analyze x, x_format x with
  | true, Some f => la " (ANALYZE, FORMAT " ++ f ++ la ")"
  | true, None => la " ANALYZE"
  | false, Some f => la " (FORMAT " ++ f ++ la ")"
  | false, None => []
  end.
(** _MysqlExplainClause.__str__, mysql.py 465-471. *)
Definition my_explain (x : explain) : text :=
  la "EXPLAIN" ++ (if x_analyze x then la " ANALYZE" else []) ++ match x_format x with Some f => la " FORMAT=" ++ f | None => [] end.
(** The EXPLAIN clause in the result of format_query: the query with the MySQL clause is thrown away, 629-630. *)
Definition formatted_explain (x : explain) : text := std_explain x.

(** ** Texts that are sent *)
Record myq := { q_prep : text; q_block : text; q_explain : option explain; q_rest : text }.
Definition nl : text := ["010"%char].
Definition sp : text := [" "%char].
(** Hint.__str__, _qal.py 5160-5165. *)
Definition hint_text (prep block : text) : text :=
  match prep, block with
  | _ :: _, _ :: _ => prep ++ nl ++ block
  | _ :: _, [] => prep
  | [], _ => block
  end.
(** stringify with the order of the clauses, _qal.py 8037-8056, 8936-8947, 9117-9138.  The hint clause is there (and truthy) if
    one of its parts is given. *)
Definition str_query (q : myq) : text :=
  (match q_prep q, q_block q with [], [] => [] | p, b => hint_text p b ++ nl end) ++
  (match q_explain q with Some x => std_explain x ++ sp | None => [] end) ++
  la "SELECT " ++ q_rest q ++ la ";".
(** MysqlInterface._prepare_query_execution, mysql.py 253-270: the statements that are executed and the remaining text.  The
    trailing newline that an empty hint clause leaves behind is not modelled. *)
Definition prepare (drop_explain : bool) (q : myq) : list text * text :=
  let q := if drop_explain then {| q_prep := q_prep q; q_block := q_block q; q_explain := None; q_rest := q_rest q |} else q in
  match q_prep q with
  | [] => ([], str_query q)
  | p => ([p], str_query {| q_prep := []; q_block := q_block q; q_explain := q_explain q; q_rest := q_rest q |})
  end.
Definition plan_prefix : text := la "EXPLAIN FORMAT = JSON".
Fixpoint starts (p t : text) : bool :=
  match p, t with
  | [], _ => true
  | a :: p, b :: t => Ascii.eqb a b && starts p t
  | _, [] => false
  end.
(** _obtain_query_plan, 272-275. *)
Definition plan_text (t : text) : text := if starts plan_prefix t then t else plan_prefix ++ sp ++ t.
(** All texts that are sent by query_plan, 648-657, for a query and for a text. *)
Definition plan_query (q : myq) : list text := let '(ps, t) := prepare true q in ps ++ [plan_text t].
Definition plan_of_text (t : text) : list text := [plan_text t].
(** All texts that are sent by execute_query, 174-183, without the cache. *)
Definition execute_query (q : myq) : list text := let '(ps, t) := prepare false q in ps ++ [t].
