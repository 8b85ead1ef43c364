(** Model of how the parser binds columns to tables: QueryNamespace, postbound/parser.py 204-518, and the handlers that use it, 549-641,
    1199-1301, 1330-1392, 1431-1661, 1900-2100.

    Queries are what is left of pglast's output for this purpose: expressions and predicates are the lists of column references and
    subqueries in them, WHERE, GROUP BY and HAVING are one list, as all three are handled alike after the SELECT clause.  Schema names
    (R in s.R) and recursive CTEs are not covered; names are numbers.  The catalog ([schema], 119-201, see C55) maps the full names of
    tables to their columns.  A finished namespace is only used for the columns it provides, so the dictionaries of child namespaces hold
    these columns (_output_shape) instead. *)
From Coq Require Import List Bool Arith.
From Verif Require Import PyBase.
Import ListNotations.

Definition name := nat.
(** TableReference, _core.py 681-699, without schema. *)
Record tref := T { t_full : option name; t_alias : option name; t_virt : bool }.
(** create_virtual, _core.py 659-679. *)
Definition virt (a : name) : tref := T None (Some a) true.
(** identifier(), _core.py 699, 803. *)
Definition ident (t : tref) : name :=
  match t_alias t, t_full t with Some a, _ => a | None, Some f => f | None, None => 0 end.

(** Column references: a, and t.a. *)
Inductive cref := Un (c : name) | Qu (t c : name).
Definition cname (r : cref) : name := match r with Un c => c | Qu _ c => c end.

Section Syntax.
  Context (Q : Type).
  (** Part of an expression or predicate. *)
  Inductive item := IRef (r : cref) | ISub (q : Q).
  (** Entries of SELECT: star, t.star, columns and other expressions with their aliases. *)
  Inductive target := TStar | TStarOf (t : name) | TCol (r : cref) (a : option name) | TExpr (l : list item) (a : option name).
  (** Entries of FROM: tables, JOIN (CROSS JOIN has no condition), subqueries with alias and column names, VALUES, functions. *)
  Inductive fitem :=
  | FTab (full : name) (a : option name)
  | FJoin (l r : fitem) (on : list item)
  | FSub (a : option name) (cols : list name) (lateral : bool) (q : Q)
  | FVal (a : option name) (cols : list name) (l : list item)
  | FFun (a : option name) (l : list item).
  (** CTEs: queries and VALUES. *)
  Inductive cte := CQ (n : name) (cols : list name) (q : Q) | CV (n : name) (cols : list name) (l : list item).
  (** ORDER BY a, and ORDER BY other expressions. *)
  Inductive okey := OBare (c : name) | OExpr (l : list item).
End Syntax.
Arguments IRef {Q}. Arguments ISub {Q}. Arguments TStar {Q}. Arguments TStarOf {Q}. Arguments TCol {Q}. Arguments TExpr {Q}.
Arguments FTab {Q}. Arguments FJoin {Q}. Arguments FSub {Q}. Arguments FVal {Q}. Arguments FFun {Q}. Arguments CQ {Q}. Arguments CV {Q}.
Arguments OBare {Q}. Arguments OExpr {Q}.
Inductive query :=
| QSel (w : list (cte query)) (f : list (fitem query)) (ts : list (target query)) (wh : list (item query)) (ob : list (okey query))
| QSet (w : list (cte query)) (l r : query) (ob : list name).

(** A namespace, 242-299. *)
Record ns := NS { n_subs : dict name (list name);   (* _subquery_children *)
                  n_ctes : dict name (list name);   (* _cte_sources *)
                  n_ctx : list tref;                (* _current_ctx *)
                  n_srcs : dict name tref;          (* _table_sources *)
                  n_prod : list name;               (* _produced_columns *)
                  n_cache : dict name tref }.       (* _column_cache *)
Definition empty_ns : ns := NS [] [] [] [] [] [].

Section Parser.
  (** The code has [cached = true]; without cache, [lookup_column] always searches the tables (see C98). *)
  Context (cached : bool) (schema : name -> list name).

  (** _lookup_namespace, 504-514; a chain is a namespace with its ancestors. *)
  Fixpoint lookup_namespace (chain : list ns) (k : name) : option (list name) :=
    match chain with
    | [] => None
    | n :: r => match dget (n_ctes n) k with
                | Some s => Some s
                | None => match dget (n_subs n) k with Some s => Some s | None => lookup_namespace r k end
                end
    end.
  (** resolve_table, 440-454. *)
  Fixpoint resolve_table (chain : list ns) (k : name) : option tref :=
    match chain with
    | [] => None
    | n :: r => match dget (n_srcs n) k with
                | Some t => Some t
                | None => if dmem (n_ctes n) k then Some (virt k) else resolve_table r k
                end
    end.
  (** register_table, 375-387. *)
  Definition register_table (n : ns) (t : tref) : ns :=
    let s1 := match t_alias t with Some a => dset (n_srcs n) a t | None => n_srcs n end in
    let s2 := match t_full t with Some f => dset s1 f t | None => s1 end in
    NS (n_subs n) (n_ctes n) (n_ctx n ++ [t]) s2 (n_prod n) [].
  (** The tests in the loop of lookup_column, 411-434. *)
  Definition has (o : option (list name)) (c : name) : bool := match o with Some s => mem c s | None => false end.
  Definition provides (anc : list ns) (n : ns) (c : name) (t : tref) : bool :=
    (negb (t_virt t) && match t_full t with Some f => mem c (schema f) | None => false end)
    || has (dget (n_subs n) (ident t)) c || has (dget (n_ctes n) (ident t)) c || has (lookup_namespace (n :: anc) (ident t)) c.
  (** lookup_column, 393-438. *)
  Definition lookup_column (anc : list ns) (n : ns) (c : name) : option tref * ns :=
    if mem c (n_prod n) then (None, n)
    else match dget (n_cache n) c with
         | Some t => (Some t, n)
         | None => match find (provides anc n c) (n_ctx n) with
                   | None => (None, n)
                   | Some t => (Some t, NS (n_subs n) (n_ctes n) (n_ctx n) (n_srcs n) (n_prod n) (if cached then dset (n_cache n) c t else n_cache n))
                   end
         end.

  (** _pglast_parse_colref, 575-613, and _pglast_create_bound_colref, 549-572. *)
  Definition parse_ref (anc : list ns) (r : cref) (n : ns) : res (list (option tref) * ns) :=
    match r with
    | Un c => let '(t, n') := lookup_column anc n c in Ok ([t], n')
    | Qu k _ => match resolve_table (n :: anc) k with Some t => Ok ([Some t], n) | None => Raise RuntimeError end
    end.

  Section Run.
    Context {A : Type} (f : A -> ns -> res (list (option tref) * ns)).
    Fixpoint run (l : list A) (n : ns) : res (list (option tref) * ns) :=
      match l with
      | [] => Ok ([], n)
      | a :: r => rbind (f a n) (fun '(x, n1) => rbind (run r n1) (fun '(y, n2) => Ok (x ++ y, n2)))
      end.
  End Run.

  Section Handlers.
    Context {Q : Type} (pq : list ns -> Q -> res (list (option tref) * list name)) (anc : list ns).
    (** _pglast_parse_expression for columns and subqueries, 1112-1120: open_nested with "temporary". *)
    Definition parse_item (i : item Q) (n : ns) : res (list (option tref) * ns) :=
      match i with
      | IRef r => parse_ref anc r n
      | ISub q => rbind (pq (n :: anc) q) (fun '(x, _) => Ok (x, n))
      end.
  End Handlers.
  Section Handlers2.
    Context {Q : Type} (pq : list ns -> Q -> res (list (option tref) * list name)) (anc : list ns).
    Let parse_items := run (parse_item pq anc).
    (** open_nested for CTEs, 456-502; the columns are known later. *)
    Definition open_cte (n : ns) (a : name) (s : list name) : ns := NS (n_subs n) (dset (n_ctes n) a s) (n_ctx n) (n_srcs n) (n_prod n) [].
    (** open_nested for subqueries and VALUES. *)
    Definition open_sub (n : ns) (a : name) : ns :=
      NS (dset (n_subs n) a []) (n_ctes n) (n_ctx n ++ [virt a]) (dset (n_srcs n) a (virt a)) (n_prod n) [].
    Definition close_sub (n : ns) (a : name) (s : list name) : ns := NS (dset (n_subs n) a s) (n_ctes n) (n_ctx n) (n_srcs n) (n_prod n) (n_cache n).
    (** _pglast_parse_ctes, 1237-1301, and _pglast_parse_values_cte, 1198-1234. *)
    Definition parse_cte (c : cte Q) (n : ns) : res (list (option tref) * ns) :=
      match c with
      | CQ a _ q => rbind (pq (open_cte n a [] :: anc) q) (fun '(x, s) => Ok (x, open_cte n a s))
      | CV a cols l => rbind (run (parse_item pq (open_cte n a [] :: anc)) l empty_ns) (fun '(x, _) => Ok (x, open_cte n a cols))
      end.
    (** _pglast_parse_from_entry, 1431-1554, _pglast_parse_values, 1557-1605.  The table of a DirectTableSource is part of the result. *)
    Fixpoint parse_from (f : fitem Q) (n : ns) : res (list (option tref) * ns) :=
      match f with
      | FTab full a =>
          let t := match resolve_table (n :: anc) full with
                   | Some s => if t_virt s then match a with None => s | Some _ => T (Some full) a true end else T (Some full) a false
                   | None => T (Some full) a false
                   end in
          Ok ([Some t], register_table n t)
      | FJoin l r on => rbind (parse_from l n) (fun '(x, n1) => rbind (parse_from r n1) (fun '(y, n2) =>
          rbind (parse_items on n2) (fun '(z, n3) => Ok (x ++ y ++ z, n3))))
      | FSub None _ _ _ => Raise ValueError                      (* create_virtual("") *)
      | FSub (Some a) _ _ q => let n1 := open_sub n a in rbind (pq (n1 :: anc) q) (fun '(x, s) => Ok (x, close_sub n1 a s))
      | FVal None _ _ => Raise ValueError
      | FVal (Some a) cols l => let n1 := open_sub n a in
          rbind (run (parse_item pq (n1 :: anc)) l empty_ns) (fun '(x, _) => Ok (x, close_sub n1 a cols))
      | FFun _ l => parse_items l n
      end.
    (** The expressions of the SELECT clause, 1380-1388, 616-641. *)
    Definition parse_target (t : target Q) (n : ns) : res (list (option tref) * ns) :=
      match t with
      | TStar => Ok ([], n)
      | TStarOf k => Ok ([resolve_table (n :: anc) k], n)
      | TCol r _ => parse_ref anc r n
      | TExpr l _ => parse_items l n
      end.
    (** determine_output_shape, 301-373. *)
    Definition table_columns (n : ns) (t : tref) : res (list name) :=
      if negb (t_virt t) then Ok match t_full t with Some f => schema f | None => [] end
      else match t_alias t with
           | None => Raise UnboundLocalError
           | Some a => match lookup_namespace (n :: anc) a with
                       | Some s => Ok s
                       | None => match t_full t with
                                 | None => Raise RuntimeError
                                 | Some f => match lookup_namespace (n :: anc) f with Some s => Ok s | None => Raise RuntimeError end
                                 end
                       end
           end.
    Definition target_columns (n : ns) (t : target Q) : res (list name) :=
      match t with
      | TCol r a => Ok [match a with Some a => a | None => cname r end]
      | TExpr _ a => Ok match a with Some a => [a] | None => [] end
      | TStar => rmap (@concat name) (rmapM (table_columns n) (n_ctx n))
      | TStarOf k => rmap (@concat name) (rmapM (table_columns n) match resolve_table (n :: anc) k with Some t => [t] | None => n_ctx n end)
      end.
    Definition target_alias (t : target Q) : list name := match t with TCol _ (Some a) | TExpr _ (Some a) => [a] | _ => [] end.
    Definition output_shape (n : ns) (ts : list (target Q)) : res (list name * ns) :=
      rbind (rmapM (target_columns n) ts) (fun l =>
        Ok (concat l, NS (n_subs n) (n_ctes n) (n_ctx n) (n_srcs n) (n_prod n ++ flat_map target_alias ts) (n_cache n))).
    (** _pglast_parse_orderby, 1783-1838. *)
    Definition parse_okey (k : okey Q) (n : ns) : res (list (option tref) * ns) :=
      match k with OBare c => parse_ref anc (Un c) n | OExpr l => parse_items l n end.
    (** _pglast_parse_query without set operation, 2047-2100. *)
    Definition parse_select (w : list (cte Q)) (f : list (fitem Q)) (ts : list (target Q)) (wh : list (item Q)) (ob : list (okey Q))
        : res (list (option tref) * list name) :=
      rbind (run parse_cte w empty_ns) (fun '(x1, n1) =>
      rbind (run parse_from f n1) (fun '(x2, n2) =>
      rbind (run parse_target ts n2) (fun '(x3, n3) =>
      rbind (output_shape n3 ts) (fun '(s, n4) =>
      rbind (parse_items wh n4) (fun '(x4, n5) =>
      rbind (run parse_okey ob n5) (fun '(x5, _) => Ok (x1 ++ x2 ++ x3 ++ x4 ++ x5, s))))))).
    (** _pglast_parse_setop, 1899-1978. *)
    Definition parse_setop (w : list (cte Q)) (l r : Q) (ob : list name) : res (list (option tref) * list name) :=
      rbind (run parse_cte w empty_ns) (fun '(x1, n) =>
      rbind (pq (n :: anc) l) (fun '(x2, s) =>
      rbind (pq (n :: anc) r) (fun '(x3, _) =>
      rbind (run (fun c => parse_ref anc (Un c)) ob n) (fun '(x4, _) => Ok (x1 ++ x2 ++ x3 ++ x4, s))))).
  End Handlers2.

  (** _pglast_parse_query, 2018-2100: the tables of all FROM entries, column references and star expressions in the order of the query
      text, and the names of the columns of the result. *)
  Fixpoint parse_query (anc : list ns) (q : query) : res (list (option tref) * list name) :=
    match q with
    | QSel w f ts wh ob => parse_select parse_query anc w f ts wh ob
    | QSet w l r ob => parse_setop parse_query anc w l r ob
    end.
End Parser.
