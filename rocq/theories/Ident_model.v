(** Model of identifiers and of table and column references, [postbound/_core.py] and the JSON loaders of
    [postbound/parser.py].  Strings are byte strings. *)
From Coq Require Import List Bool Arith Ascii String.
From Verif Require Import PyBase.
Import ListNotations.
Local Open Scope string_scope.

#[global] Instance EqD_string : EqD string := string_dec.

Definition is_lower (c : ascii) : bool := let n := nat_of_ascii c in ((97 <=? n) && (n <=? 122))%nat.
Definition is_upper (c : ascii) : bool := let n := nat_of_ascii c in ((65 <=? n) && (n <=? 90))%nat.
Definition is_digit (c : ascii) : bool := let n := nat_of_ascii c in ((48 <=? n) && (n <=? 57))%nat.
Definition to_upper (c : ascii) : ascii := if is_lower c then ascii_of_nat (nat_of_ascii c - 32) else c.
Definition to_lower (c : ascii) : ascii := if is_upper c then ascii_of_nat (nat_of_ascii c + 32) else c.
Fixpoint smap (f : ascii -> ascii) (s : string) : string :=
  match s with EmptyString => "" | String c r => String (f c) (smap f r) end.
Fixpoint sall (f : ascii -> bool) (s : string) : bool :=
  match s with EmptyString => true | String c r => f c && sall f r end.

(** [str.upper] / [str.lower] on ASCII letters; other bytes are kept (simplification: no Unicode case mapping). *)
Definition supper := smap to_upper.
Definition slower := smap to_lower.

(** SqlKeywords, _core.py 481-577. *)
Definition sql_keywords : list string :=
  ["ALL"; "AND"; "ANY"; "ARRAY"; "AS"; "ASC"; "ASYMMETRIC"; "AT"; "BINARY"; "BOTH"; "CASE"; "CAST"; "CHECK"; "COLLATE";
   "COLUMN"; "CONSTRAINT"; "CREATE"; "CROSS"; "CURRENT_CATALOG"; "CURRENT_DATE"; "CURRENT_ROLE"; "CURRENT_SCHEMA";
   "CURRENT_TIME"; "CURRENT_TIMESTAMP"; "CURRENT_USER"; "DEFAULT"; "DEFERRABLE"; "DESC"; "DISTINCT"; "DO"; "ELSE"; "END";
   "EXCEPT"; "FALSE"; "FETCH"; "FOR"; "FOREIGN"; "FROM"; "FULL"; "GRANT"; "GROUP"; "HAVING"; "ILIKE"; "IN"; "INITIALLY";
   "INNER"; "INTERSECT"; "INTO"; "IS"; "JOIN"; "LATERAL"; "LEADING"; "LEFT"; "LIKE"; "LIMIT"; "LOCALTIME";
   "LOCALTIMESTAMP"; "NATURAL"; "NOT"; "NULL"; "OFFSET"; "ON"; "ONLY"; "OR"; "ORDER"; "OUTER"; "OVERLAPS"; "PLACING";
   "PRIMARY"; "REFERENCES"; "RETURNING"; "RIGHT"; "SELECT"; "SESSION_USER"; "SIMILAR"; "SOME"; "SYMMETRIC"; "TABLE";
   "THEN"; "TO"; "TRAILING"; "TRUE"; "UNION"; "UNIQUE"; "USER"; "USING"; "VARIADIC"; "VERBOSE"; "WHEN"; "WHERE";
   "WINDOW"; "WITH"].

(** _IdentifierPattern, _core.py 470: [a-z_][a-z0-9_$]*, as a full match. *)
Definition ident_start (c : ascii) : bool := is_lower c || Ascii.eqb c "_".
Definition ident_char (c : ascii) : bool := is_lower c || is_digit c || Ascii.eqb c "_" || Ascii.eqb c "$".
Definition ident_pattern (s : string) : bool :=
  match s with EmptyString => false | String c r => ident_start c && sall ident_char r end.

Definition dquote : ascii := ascii_of_nat 34.
Definition wrap_quotes (s : string) : string := String dquote (s ++ String dquote "").

(** quote, _core.py 581-603. *)
Definition quote (s : string) : string :=
  if deqb s "" then ""
  else if ident_pattern s && negb (mem (supper s) sql_keywords) then s else wrap_quotes s.

(** normalize, _core.py 606-621. *)
Definition normalize (s : string) : string := slower s.

(** TableReference, _core.py 624-920: the four attributes; everything else is derived from them. *)
Record tref := mktref { t_full : string; t_alias : string; t_virtual : bool; t_schema : string }.

(** TableReference.__init__, _core.py 681-725. *)
Definition mk_table (full alias : string) (virtual : bool) (schema : string) : res tref :=
  if deqb full "" && deqb alias "" then Raise ValueError
  else if negb (deqb schema "") && deqb full "" then Raise ValueError
  else Ok (mktref full alias virtual schema).

(** identifier, _core.py 791-803. *)
Definition t_identifier (t : tref) : string := if deqb (t_alias t) "" then t_full t else t_alias t.
(** __eq__, _core.py 905-911. *)
Definition t_eqb (t u : tref) : bool :=
  deqb (normalize (t_full t)) (normalize (t_full u)) && deqb (normalize (t_alias t)) (normalize (t_alias u))
  && deqb (normalize (t_schema t)) (normalize (t_schema u)).
(** The tuple given to [hash], _core.py 705-711. *)
Definition t_hashkey (t : tref) : string * string * string :=
  (normalize (t_full t), normalize (t_alias t), normalize (t_schema t)).
(** __str__, _core.py 713-725. *)
Definition t_qualified (t : tref) : string :=
  if deqb (t_schema t) "" then quote (t_full t) else quote (t_schema t) ++ "." ++ quote (t_full t).
Definition t_str (t : tref) : string :=
  let txt := t_qualified t in
  if negb (deqb txt "") && negb (deqb (t_alias t) "") then txt ++ " AS " ++ quote (t_alias t)
  else if negb (deqb (t_alias t) "") then quote (t_alias t) else txt.

(** drop_alias 823-839, with_alias 841-861, make_virtual 863-873, update 875-887 (default of [schema] is the empty string). *)
Definition t_drop_alias (t : tref) : res tref :=
  if t_virtual t then Raise StateError else mk_table (t_full t) "" false (t_schema t).
Definition t_with_alias (t : tref) (alias : string) : res tref :=
  if deqb (t_full t) "" then Raise StateError else mk_table (t_full t) alias (t_virtual t) "".
Definition t_make_virtual (t : tref) : res tref := mk_table (t_full t) (t_alias t) true (t_schema t).
Definition odef {A} (o : option A) (d : A) : A := match o with Some x => x | None => d end.
Definition t_update (t : tref) (full alias : option string) (virtual : option bool) (schema : option string) : res tref :=
  mk_table (odef full (t_full t)) (odef alias (t_alias t)) (odef virtual (t_virtual t)) (odef schema (t_schema t)).
(** A call of [update] that does not mention [schema]. *)
Definition t_update_default (t : tref) full alias virtual : res tref := t_update t full alias virtual (Some "").

(** ColumnReference, _core.py 923-1160. *)
Record cref := mkcref { cr_name : string; cr_table : option tref }.
Definition mk_column (name : string) (t : option tref) : res cref :=
  if deqb name "" then Raise ValueError else Ok (mkcref name t).
Definition ot_eqb (t u : option tref) : bool :=
  match t, u with Some a, Some b => t_eqb a b | None, None => true | _, _ => false end.
Definition cr_eqb (c d : cref) : bool := deqb (normalize (cr_name c)) (normalize (cr_name d)) && ot_eqb (cr_table c) (cr_table d).
Definition cr_hashkey (c : cref) : string * option (string * string * string) :=
  (normalize (cr_name c), match cr_table c with Some t => Some (t_hashkey t) | None => None end).

(** Lexicographic order of strings (Python compares code points). *)
Fixpoint sltb (s t : string) : bool :=
  match s, t with
  | EmptyString, EmptyString => false
  | EmptyString, _ => true
  | _, EmptyString => false
  | String a s', String b t' =>
      let x := nat_of_ascii a in let y := nat_of_ascii b in ((x <? y) || ((x =? y) && sltb s' t'))%nat
  end.
(** TableReference.__lt__ 897-900, ColumnReference.__lt__ 1123-1132. *)
Definition t_ltb (t u : tref) : bool := sltb (normalize (t_identifier t)) (normalize (t_identifier u)).
Definition cr_ltb (c d : cref) : bool :=
  if ot_eqb (cr_table c) (cr_table d) then sltb (normalize (cr_name c)) (normalize (cr_name d))
  else match cr_table c, cr_table d with
       | None, _ => true
       | _, None => false
       | Some t, Some u => t_ltb t u
       end.

(** JSON values, as far as they are needed. *)
Inductive json := JNull | JBool (b : bool) | JStr (s : string) | JObj (l : list (string * json)).
Definition jget (j : list (string * json)) (k : string) : option json := dget j k.

(** TableReference.__json__ 889-895, ColumnReference.__json__ 1120-1121. *)
Definition t_json (t : tref) : json :=
  JObj [("full_name", JStr (t_full t)); ("alias", JStr (t_alias t)); ("virtual", JBool (t_virtual t)); ("schema", JStr (t_schema t))].
Definition cr_json (c : cref) : json :=
  JObj [("column", JStr (cr_name c)); ("table", match cr_table c with Some t => t_json t | None => JNull end)].

(** load_table_json, parser.py 2379-2400: an attribute that is missing gets its default; other kinds of values do not
    occur in the dictionaries written above.  [Ok None] is Python's None. *)
Definition jstr (j : list (string * json)) (k : string) : string := match jget j k with Some (JStr s) => s | _ => "" end.
Definition jbool (j : list (string * json)) (k : string) : bool := match jget j k with Some (JBool b) => b | _ => false end.
Definition load_table_json (j : json) : res (option tref) :=
  match j with
  | JObj ((_ :: _) as d) =>
      rmap Some (mk_table (jstr d "full_name") (jstr d "alias") (jbool d "virtual") (jstr d "schemaname"))
  | _ => Ok None
  end.
(** load_column_json, parser.py 2411-2430. *)
Definition load_column_json (j : json) : res (option cref) :=
  match j with
  | JObj ((_ :: _) as d) =>
      rbind (match jget d "table" with Some t => load_table_json t | None => Ok None end) (fun t =>
        rmap Some (mk_column (jstr d "column") t))
  | _ => Ok None
  end.
