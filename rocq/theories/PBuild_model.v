(** Model of the shorthands that build predicates (as_expression and as_predicate, postbound/qal/_qal.py 1865-1896 and
    3497-3554), of the tables that a predicate requires (2367-2397) and of the output names of a SELECT clause (6057-6084).

    Simplifications: Python values are None, integers, booleans, strings, expressions, columns, queries, tuples and lists
    (no floats, dictionaries, sets or generators); strings are ASCII, so [str.upper] maps ASCII letters only. *)
From Coq Require Import List Bool Arith ZArith Ascii String.
From Verif Require Import PyBase Pred_model MPrint_model Ident_model Expr_model.
Import ListNotations.

(** What can be passed in as an operand. *)
Inductive pyv :=
| YNull | YInt (z : Z) | YBool (b : bool) | YStr (s : string)
| YExpr (e : sx) | YCol (c : col) | YQuery (q : sq)
| YTuple (l : list pyv) | YList (l : list pyv).

(** The expressions that are built: those of [sx], and a StaticValueExpression around a tuple. *)
Inductive bex := BX (e : sx) | BTup (l : list pyv).

(** Does [hash(value)] succeed?  It is needed by StaticValueExpression.__init__, 244-246. *)
Fixpoint hashable (v : pyv) : bool :=
  match v with
  | YList _ => false
  | YTuple l => forallb hashable l
  | _ => true
  end.

(** as_expression, 1865-1896. *)
Definition as_expression (v : pyv) : res bex :=
  match v with
  | YExpr e => Ok (BX e)                                                 (* 1886-1887 *)
  | YCol c => Ok (BX (XCol c))                                           (* 1889-1890 *)
  | YQuery q => Ok (BX (XSub q))                                         (* 1891-1892 *)
  | YStr s => Ok (BX (if String.eqb s "*" then XStar None else XStatic (VStr s)))    (* 1894-1896 *)
  | YNull => Ok (BX (XStatic VNull))
  | YInt z => Ok (BX (XStatic (VInt z)))
  | YBool b => Ok (BX (XStatic (VBool b)))
  | YTuple l => if forallb hashable l then Ok (BTup l) else Raise TypeError
  | YList _ => Raise TypeError
  end.

(** LogicalOperator, 34-58. *)
Inductive lop :=
| LEqual | LNotEqual | LLess | LLessEqual | LGreater | LGreaterEqual | LLike | LNotLike | LILike | LNotILike
| LoIn | LExists | LoIs | LIsNot | LBetween | LDistinctFrom | LNotDistinctFrom | LContains | LContainedBy | LOverlaps.
Definition lop_text (o : lop) : string :=
  match o with
  | LEqual => "=" | LNotEqual => "<>" | LLess => "<" | LLessEqual => "<=" | LGreater => ">" | LGreaterEqual => ">="
  | LLike => "LIKE" | LNotLike => "NOT LIKE" | LILike => "ILIKE" | LNotILike => "NOT ILIKE"
  | LoIn => "IN" | LExists => "EXISTS" | LoIs => "IS" | LIsNot => "IS NOT" | LBetween => "BETWEEN"
  | LDistinctFrom => "IS DISTINCT FROM" | LNotDistinctFrom => "IS NOT DISTINCT FROM"
  | LContains => "@>" | LContainedBy => "<@" | LOverlaps => "&&"
  end%string.
Definition lops : list lop :=
  [LEqual; LNotEqual; LLess; LLessEqual; LGreater; LGreaterEqual; LLike; LNotLike; LILike; LNotILike;
   LoIn; LExists; LoIs; LIsNot; LBetween; LDistinctFrom; LNotDistinctFrom; LContains; LContainedBy; LOverlaps].
(** [LogicalOperator(text)]: the member with this value. *)
Definition lop_of_text (s : string) : res lop :=
  match find (fun o => String.eqb (lop_text o) s) lops with Some o => Ok o | None => Raise ValueError end.

Inductive oparg := OMember (o : lop) | OText (s : string).
(** 3532-3536. *)
Definition resolve_op (o : oparg) : res lop :=
  match o with
  | OMember o => Ok o
  | OText s =>
      let s := supper s in
      lop_of_text (if String.eqb s "!=" then "<>" else if String.eqb s "==" then "=" else s)%string
  end.

(** The predicates that are built, on a ColumnExpression. *)
Inductive bpred := BBin (op : lop) (c : col) (e : bex) | BBetween (c : col) (lo hi : bex) | BIn (c : col) (vs : list bex).

(** [lower, upper = value]: tuples, lists and strings can be unpacked. *)
Definition chars (s : string) : list pyv := map (fun a => YStr (String a "")) (list_ascii_of_string s).
Definition unpack2 (l : list pyv) : res (pyv * pyv) := match l with [a; b] => Ok (a, b) | _ => Raise ValueError end.
Definition unpack_pair (v : pyv) : res (pyv * pyv) :=
  match v with
  | YTuple l | YList l => unpack2 l
  | YStr s => unpack2 (chars s)
  | _ => Raise TypeError
  end.
(** 3541-3545. *)
Definition bounds (args : list pyv) : res (pyv * pyv) :=
  match args with
  | [a] => unpack_pair a
  | a :: b :: _ => Ok (a, b)
  | [] => Raise ValueError
  end.

(** util.flatten, util/collections.py 40-52. *)
Definition flatten (args : list pyv) : list pyv := flat_map (fun v => match v with YTuple l | YList l => l | _ => [v] end) args.

(** as_predicate, 3497-3554; InPredicate.__init__, 2855-2863. *)
Definition as_predicate (c : col) (o : oparg) (args : list pyv) : res bpred :=
  rbind (resolve_op o) (fun op =>
  match op with
  | LBetween =>
      rbind (bounds args) (fun b =>
      rbind (as_expression (fst b)) (fun lo => rbind (as_expression (snd b)) (fun hi => Ok (BBetween c lo hi))))
  | LoIn =>
      rbind (rmapM as_expression (flatten args)) (fun vs =>
      match vs with [] => Raise ValueError | _ => Ok (BIn c vs) end)
  | _ =>
      match args with
      | [a] => rbind (as_expression a) (fun e => Ok (BBin op c e))
      | _ => Raise ValueError
      end
  end).

(** AbstractPredicate.required_tables, 2367-2397, as a list that stands for the set: the tables of columns outside of
    subqueries (_collect_column_expression_tables, 2027-2048) and the unbound tables of subqueries
    (_collect_subquery_expressions, 1978-1999).  [unb] is unbound_tables() of a query. *)
Definition required_tables (unb : sq -> list tbl) (p : pred sx) : list tbl :=
  pflat (fun e => fst (walk (fun c => olist (c_tab c)) (fun _ => []) unb true false e)) p.

(** Select.output_names, 6057-6084.  A projection is its expression and its target name ("" if there is none). *)
Definition output_names (targets : list (sx * string)) : dict string col :=
  fold_left (fun out t =>
    if String.eqb (snd t) "" then out else
    match dedup (x_columns (fst t)) with
    | [c] => dset out (snd t) c
    | _ => out
    end) targets [].
