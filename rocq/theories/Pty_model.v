(** Model of _pglast_parse_operator, _pglast_parse_type, _pglast_parse_case and _pglast_parse_predicate, postbound/parser.py 677-808 and
    1667-1695, and of the checks and properties of CaseExpression, postbound/qal/_qal.py 1470-1530.

    Simplifications: operators are given by their class and their SQL text, as in the enums of qal/_qal.py 23-75; the parser of expressions is an
    argument, since both functions only pass its results on; ParserError is [OtherError]. *)
From Coq Require Import List Bool String.
From Verif Require Import PyBase Ident_model.
Import ListNotations.

(** ** Operators *)
Inductive operator := MathOp (text : string) | LogicalOp (text : string) | CompoundOp (text : string).
Definition operator_map : dict string operator :=
  [("=", LogicalOp "="); ("<", LogicalOp "<"); ("<=", LogicalOp "<="); (">", LogicalOp ">"); (">=", LogicalOp ">="); ("<>", LogicalOp "<>");
   ("!=", LogicalOp "<>"); ("AND_EXPR", CompoundOp "AND"); ("OR_EXPR", CompoundOp "OR"); ("NOT_EXPR", CompoundOp "NOT"); ("+", MathOp "+");
   ("-", MathOp "-"); ("*", MathOp "*"); ("/", MathOp "/"); ("%", MathOp "%"); ("||", MathOp "||"); ("@>", LogicalOp "@>"); ("<@", LogicalOp "<@");
   ("&&", LogicalOp "&&"); ("AEXPR_DISTINCT", LogicalOp "IS DISTINCT FROM"); ("AEXPR_NOT_DISTINCT", LogicalOp "IS NOT DISTINCT FROM")]%string.

(** 704-724; an element is [None] if it is not a string. *)
Definition parse_operator (names : list (option string)) : res operator :=
  match names with
  | [Some s] => match dget operator_map s with Some o => Ok o | None => Raise OtherError end
  | _ => Raise OtherError
  end.

(** ** Types *)
Definition type_map : dict string string :=
  [("bpchar", "char"); ("serial8", "bigserial"); ("int4", "integer"); ("int2", "smallint"); ("int8", "bigint"); ("float4", "real");
   ("float8", "double precision"); ("boolean", "bool")]%string.

(** 740-761; [None]: there are no names. *)
Definition parse_type (names : option (list string)) : res string :=
  match names with
  | None => Raise OtherError
  | Some names =>
    if Nat.ltb 2 (List.length names) then Raise OtherError
    else match rev names with
         | [] => Raise IndexError
         | raw :: _ => Ok (match dget type_map raw with Some t => t | None => raw end)
         end
  end.

(** ** CASE expressions; [J] is the type of the JSON data, [E] the type of expressions. *)
Record pg_case (J : Type) := { pc_args : list (J * J); pc_arg : option J; pc_default : option J }.
Arguments pc_args {J}. Arguments pc_arg {J}. Arguments pc_default {J}.
Record case_expr (E : Type) := { ce_cases : list (E * E); ce_simple : option E; ce_else : option E }.
Arguments ce_cases {E}. Arguments ce_simple {E}. Arguments ce_else {E}.
Section Case.
  Context {J E : Type} (parse : J -> res E) (is_predicate : E -> bool) (unary : E -> E).
  Definition parse_predicate (j : J) : res E := rbind (parse j) (fun e => Ok (if is_predicate e then e else unary e)).
  Definition parse_when (a : J * J) : res (E * E) :=
    rbind (parse_predicate (fst a)) (fun c => rbind (parse (snd a)) (fun r => Ok (c, r))).
  Definition parse_opt (j : option J) : res (option E) :=
    match j with Some j => rbind (parse j) (fun e => Ok (Some e)) | None => Ok None end.
  Definition make_case (cases : list (E * E)) (simple els : option E) : res (case_expr E) :=
    match cases with [] => Raise ValueError | _ => Ok {| ce_cases := cases; ce_simple := simple; ce_else := els |} end.
  Definition parse_case (c : pg_case J) : res (case_expr E) :=
    rbind (rmapM parse_when (pc_args c)) (fun cases =>
    rbind (parse_opt (pc_arg c)) (fun simple =>
    rbind (parse_opt (pc_default c)) (fun els =>
    make_case cases simple els))).
End Case.
