(** What the shorthands for predicates mean. *)
From Coq Require Import List Bool Arith ZArith String.
From Verif Require Import PyBase Pred_model Ident_model Expr_model Expr_spec PBuild_model.
Import ListNotations.

(** The values that can be wrapped as literals: nothing mutable inside. *)
Inductive frozen : pyv -> Prop :=
| fr_null : frozen YNull | fr_int z : frozen (YInt z) | fr_bool b : frozen (YBool b) | fr_str s : frozen (YStr s)
| fr_expr e : frozen (YExpr e) | fr_col c : frozen (YCol c) | fr_query q : frozen (YQuery q)
| fr_tuple l : (forall v, In v l -> frozen v) -> frozen (YTuple l).

(** The expression that a value stands for. *)
Inductive denotes : pyv -> bex -> Prop :=
| de_expr e : denotes (YExpr e) (BX e)
| de_col c : denotes (YCol c) (BX (XCol c))
| de_query q : denotes (YQuery q) (BX (XSub q))
| de_star : denotes (YStr "*") (BX (XStar None))
| de_str s : s <> "*"%string -> denotes (YStr s) (BX (XStatic (VStr s)))
| de_null : denotes YNull (BX (XStatic VNull))
| de_int z : denotes (YInt z) (BX (XStatic (VInt z)))
| de_bool b : denotes (YBool b) (BX (XStatic (VBool b)))
| de_tuple l : frozen (YTuple l) -> denotes (YTuple l) (BTup l).

(** The spellings of the operators, in capital letters. *)
Definition spellings : list (string * lop) :=
  [("=", LEqual); ("==", LEqual); ("<>", LNotEqual); ("!=", LNotEqual); ("<", LLess); ("<=", LLessEqual); (">", LGreater);
   (">=", LGreaterEqual); ("LIKE", LLike); ("NOT LIKE", LNotLike); ("ILIKE", LILike); ("NOT ILIKE", LNotILike);
   ("IN", LoIn); ("EXISTS", LExists); ("IS", LoIs); ("IS NOT", LIsNot); ("BETWEEN", LBetween);
   ("IS DISTINCT FROM", LDistinctFrom); ("IS NOT DISTINCT FROM", LNotDistinctFrom); ("@>", LContains); ("<@", LContainedBy);
   ("&&", LOverlaps)]%string.

(** The documented forms of the bounds of BETWEEN: two values (and whatever follows), or one pair. *)
Inductive interval : list pyv -> pyv -> pyv -> Prop :=
| iv_two a b rest : interval (a :: b :: rest) a b
| iv_tuple a b : interval [YTuple [a; b]] a b
| iv_list a b : interval [YList [a; b]] a b.

(** The values of a nested iterable. *)
Fixpoint leaves (v : pyv) : list pyv :=
  match v with
  | YTuple l | YList l => flat_map leaves l
  | _ => [v]
  end.
Definition scalar (v : pyv) : Prop := match v with YTuple _ | YList _ => False | _ => True end.
(** Values and iterables of values, without further nesting. *)
Definition shallow (v : pyv) : Prop := match v with YTuple l | YList l => forall x, In x l -> scalar x | _ => True end.

(** A table that has to be available to evaluate an expression: one of its columns or all of them are used outside of
    subqueries, or a subquery uses it without providing it. *)
Inductive needs (unb : sq -> list tbl) (t : tbl) : sx -> Prop :=
| nd_col c : c_tab c = Some t -> needs unb t (XCol c)
| nd_star : needs unb t (XStar (Some t))
| nd_sub q : In t (unb q) -> needs unb t (XSub q)
| nd_part e e' : In e' (parts e) -> needs unb t e' -> needs unb t e.
(** No [R.*] inside. *)
Inductive starless : sx -> Prop :=
| sl e : (forall t, e <> XStar (Some t)) -> (forall e', In e' (parts e) -> starless e') -> starless e.

(** The last projection with the given name for which [P] holds. *)
Inductive last_named (P : sx -> Prop) (n : string) : list (sx * string) -> sx -> Prop :=
| ln_app before e after : P e -> (forall e', In (e', n) after -> ~ P e') -> last_named P n (before ++ (e, n) :: after) e.
