(** Table sources and what a query says about its tables, columns, subqueries, predicates and result columns.

    postbound/qal/_qal.py 1244-1290    SubqueryExpression
    postbound/qal/_qal.py 4702-4743    QueryPredicates.and_
    postbound/qal/_qal.py 5304-5722    WithQuery, ValuesWithQuery, CommonTableExpression
    postbound/qal/_qal.py 6045-6055    Select
    postbound/qal/_qal.py 6125-7122    TableSource and From with their subclasses
    postbound/qal/_qal.py 7125-7545    Where, GroupBy, Having, OrderBy
    postbound/qal/_qal.py 8059-8262    _collect_subqueries, _collect_bound_tables
    postbound/qal/_qal.py 8700-9054    SqlQuery
    postbound/qal/_qal.py 9682-9890    SetQuery

    Simplifications.  Names are numbers.  Expressions other than columns and subqueries are nodes that report the tables,
    columns and subqueries of all their children; the expression classes that forget some of their children are the subject
    of C05.  Predicates are such nodes as well, AND is a node of its own.  Sets are lists; [None] in a list of tables is
    Python's None.  The hash and equality of queries (which decide about duplicates in subqueries()) are the subject of C80.
    The exceptions of QueryPredicates.__init__ are the subject of C15.  LIMIT, hints and EXPLAIN mention nothing. *)
From Coq Require Import List Bool Arith.
From Verif Require Import PyBase.
Import ListNotations.
Set Implicit Arguments.

(** TableReference, qal/../_core.py: a database table with an optional alias, or a virtual table that only has an alias. *)
Inductive tref := TTab (name : nat) (alias : option nat) | TVirt (alias : nat).
#[global] Instance EqD_tref : EqD tref.
Proof. intros a b. unfold EqD in *. decide equality; try apply Nat.eq_dec. destruct alias as [x|], alias0 as [y|]; try (right; congruence); [destruct (Nat.eq_dec x y); [left|right]; congruence|left; reflexivity]. Defined.

(** The name of a result column.  [NColumn k] are the strings that start with "column_" (with a number or anything else behind). *)
Inductive cname := NUser (n : nat) | NColumn (k : nat).

(** ColumnReference.  [ColOf] is a ColumnReference whose name is not a string but another ColumnReference. *)
Inductive colref := Col (t : option tref) (n : cname) | ColOf (t : option tref) (c : colref).

(** JoinType, 6672-6694, with the members of AutoJoins, 6697-6703. *)
Inductive jtype := JInner | JOuter | JLeft | JRight | JCross | JNatInner | JNatOuter | JNatLeft | JNatRight.
Definition auto_join (j : jtype) : bool := match j with JInner | JOuter | JLeft | JRight => false | _ => true end.
Inductive setop := Union | UnionAll | Intersect | Except.
(** ImplicitFromClause, or ExplicitFromClause / From *)
Inductive fkind := FImplicit | FOther.

Inductive expr :=
| EVal | EStar
| ECol (c : colref)
| EAnd (ps : list expr)
| ENode (k : nat) (aggregate : bool) (args : list expr)
| ESub (q : query)
with source :=
| SDirect (t : tref)
| SSub (q : query) (target : option nat) (lateral : bool)
| SValues (alias : option tref) (cols : list cname)
| SFun (f : expr) (alias : option nat)
| SJoin (l r : source) (cond : option expr) (j : jtype)
with cte := WQuery (q : query) (target : nat) | WValues (target : nat) (cols : list cname)
with query :=
| QSel (ctes : list cte) (targets : list (expr * option cname)) (distinct : option (list expr)) (from : option (fkind * list source))
       (where_ : option expr) (group : list expr) (having : option expr) (order : list expr)
| QSet (op : setop) (l r : query) (ctes : list cte) (order : list expr).

(** JoinTableSource.__init__, 6734-6753 *)
Definition join_source (l r : source) (cond : option expr) (j : jtype) : res source :=
  match cond with
  | None => if auto_join j then Ok (SJoin l r None JCross) else Raise ValueError
  | Some c => Ok (SJoin l r (Some c) j)
  end.

Definition optl {A} (o : option A) : list A := match o with Some a => [a] | None => [] end.

(** flat_map and variants that may stand below a structural recursion *)
Section Flat.
  Context {A B : Type} (f : A -> list B).
  Fixpoint flat (l : list A) : list B := match l with [] => [] | x :: r => f x ++ flat r end.
  Definition flat_opt (o : option A) : list B := match o with Some x => f x | None => [] end.
  Context {C : Type}.
  Fixpoint flat_fst (l : list (A * C)) : list B := match l with [] => [] | (x, _) :: r => f x ++ flat_fst r end.
  Definition flat_from (o : option (C * list A)) : list B := match o with Some (_, l) => flat l | None => [] end.
End Flat.

(** SubqueryTableSource.target_table, 6337-6352 *)
Definition target_table (t : option nat) : option tref := match t with Some a => Some (TVirt a) | None => None end.
Definition col_table (c : colref) : option tref := match c with Col t _ => t | ColOf t _ => t end.

(** ** tables(): expressions 742-745, 978-981, 1281; sources 6242, 6397, 6523, 6638, 6859; CTEs 5435, 5546, 5674; clauses
    4977-4987, 6051, 6976, 7157; queries 8700-8729 and 9682-9694. *)
Fixpoint tables_e (e : expr) : list (option tref) :=
  match e with
  | EVal | EStar => []
  | ECol c => match col_table c with Some t => [Some t] | None => [] end
  | EAnd ps => flat tables_e ps
  | ENode _ _ args => flat tables_e args
  | ESub q => tables_q q
  end
with tables_s (s : source) : list (option tref) :=
  match s with
  | SDirect t => [Some t]
  | SSub q target _ => tables_q q ++ [target_table target]
  | SValues alias _ => [alias]
  | SFun f alias => match alias with Some a => tables_e f ++ [Some (TVirt a)] | None => [] end
  | SJoin l r _ _ => tables_s l ++ tables_s r
  end
with tables_w (w : cte) : list (option tref) :=
  match w with WQuery q _ => tables_q q | WValues _ _ => [] end
with tables_q (q : query) : list (option tref) :=
  match q with
  | QSel ctes targets _ from wh gr hv od =>
      flat tables_w ctes ++ flat_fst tables_e targets ++ flat_from tables_s from ++ flat_opt tables_e wh ++ flat tables_e gr
      ++ flat_opt tables_e hv ++ flat tables_e od
  | QSet _ l r _ _ => tables_q l ++ tables_q r
  end.

(** ** columns(): expressions 747, 983-989, 1284; sources 6245, 6400, 6526, 6641, 6862; CTEs 5438, 5549-5552, 5686; clauses
    6045, 6979, 7160, 7248, 7319, 7513; queries 8770-8782 and 9696-9708. *)
Definition target_of (w : cte) : nat := match w with WQuery _ t => t | WValues t _ => t end.
Fixpoint columns_e (e : expr) : list colref :=
  match e with
  | EVal | EStar => []
  | ECol c => [c]
  | EAnd ps => flat columns_e ps
  | ENode _ _ args => flat columns_e args
  | ESub q => columns_q q
  end
with columns_s (s : source) : list colref :=
  match s with
  | SDirect _ => []
  | SSub q _ _ => columns_q q
  | SValues alias cols => map (Col alias) cols
  | SFun f _ => columns_e f
  | SJoin l r c _ => columns_s l ++ columns_s r ++ flat_opt columns_e c
  end
with columns_w (w : cte) : list colref :=
  match w with
  | WQuery q _ => columns_q q
  | WValues t cols => map (fun c => ColOf (Some (TVirt t)) (Col (Some (TVirt t)) c)) cols
  end
with columns_q (q : query) : list colref :=
  match q with
  | QSel ctes targets _ from wh gr hv od =>
      flat columns_w ctes ++ flat_fst columns_e targets ++ flat_from columns_s from ++ flat_opt columns_e wh ++ flat columns_e gr
      ++ flat_opt columns_e hv ++ flat columns_e od
  | QSet _ l r _ _ => columns_q l ++ columns_q r
  end.

(** ** itercolumns(): like columns(), except for SetQuery, which asks its clauses (9934-9946, 7764, 7845, 7940). *)
Fixpoint itercols_e (e : expr) : list colref :=
  match e with
  | EVal | EStar => []
  | ECol c => [c]
  | EAnd ps => flat itercols_e ps
  | ENode _ _ args => flat itercols_e args
  | ESub q => itercols_q q
  end
with itercols_s (s : source) : list colref :=
  match s with
  | SDirect _ => []
  | SSub q _ _ => itercols_q q
  | SValues alias cols => map (Col alias) cols
  | SFun f _ => itercols_e f
  | SJoin l r c _ => itercols_s l ++ itercols_s r ++ flat_opt itercols_e c
  end
with itercols_w (w : cte) : list colref :=
  match w with
  | WQuery q _ => itercols_q q
  | WValues t cols => map (fun c => ColOf (Some (TVirt t)) (Col (Some (TVirt t)) c)) cols
  end
with itercols_q (q : query) : list colref :=
  match q with
  | QSel ctes targets _ from wh gr hv od =>
      flat itercols_w ctes ++ flat_fst itercols_e targets ++ flat_from itercols_s from ++ flat_opt itercols_e wh ++ flat itercols_e gr
      ++ flat_opt itercols_e hv ++ flat itercols_e od
  | QSet _ l r ctes od => flat itercols_w ctes ++ (itercols_q l ++ itercols_q r) ++ flat itercols_e od
  end.

(** ** subqueries() *)
(** collect_subqueries_in_expression, 8059-8081 *)
Fixpoint collect_e (e : expr) : list query :=
  match e with
  | EVal | EStar | ECol _ => []
  | EAnd ps => flat collect_e ps
  | ENode _ _ args => flat collect_e args
  | ESub q => [q]
  end.
(** _collect_subqueries_in_table_source, 8084-8122.  A join iterates over [joined_table] (8110), which is a table source
    and not an iterable. *)
Fixpoint collect_s (s : source) : res (list query) :=
  match s with
  | SSub q _ _ => Ok [q]
  | SJoin l _ _ _ => rbind (collect_s l) (fun _ => Raise TypeError)
  | SDirect _ | SValues _ _ | SFun _ _ => Ok []
  end.
(** _collect_subqueries for the clauses of the query, 8125-8199; SqlQuery.subqueries, 8906-8917; SetQuery.subqueries,
    9763-9774 *)
Definition collect_from (from : option (fkind * list source)) : res (list query) :=
  match from with
  | Some (FImplicit, _) | None => Ok []
  | Some (FOther, items) => rmap (@concat query) (rmapM collect_s items)
  end.
Fixpoint subqueries (q : query) : res (list query) :=
  match q with
  | QSel _ targets _ from wh gr hv od =>
      rbind (collect_from from) (fun fr =>
      Ok (flat_fst collect_e targets ++ fr ++ flat_opt collect_e wh ++ flat collect_e gr ++ flat_opt collect_e hv ++ flat collect_e od))
  | QSet _ l r _ _ => rbind (subqueries l) (fun a => rbind (subqueries r) (fun b => Ok (a ++ b)))
  end.

(** ** bound_tables() *)
Definition from_of (q : query) : res (option (fkind * list source)) :=
  match q with QSel _ _ _ from _ _ _ _ => Ok from | QSet _ _ _ _ _ => Raise OtherError (* QueryTypeError, 9620-9626 *) end.
(** _collect_bound_tables and _collect_bound_tables_from_source, 8202-8262.  The latter returns None for VALUES and for
    functions, which set.union refuses.  [n] bounds the nesting of FROM subqueries. *)
Fixpoint collect_bound (n : nat) (from : option (fkind * list source)) : res (list (option tref)) :=
  match n with
  | 0 => Raise OutOfFuel
  | S n =>
      let fix src s := match s with
        | SDirect t => Ok [Some t]
        | SSub q _ _ => rbind (from_of q) (collect_bound n)
        | SJoin l _ _ _ => rbind (src l) (fun _ => Raise TypeError)
        | SValues _ _ | SFun _ _ => Raise TypeError
        end in
      match from with
      | None => Raise AttributeError
      | Some (FImplicit, items) => Ok (flat tables_s items)
      | Some (FOther, items) => rmap (@concat (option tref)) (rmapM src items)
      end
  end.
(** CommonTableExpression.tables, 5660-5664 *)
Definition cte_tables (ctes : list cte) : list (option tref) := flat (fun w => tables_w w ++ [Some (TVirt (target_of w))]) ctes.
(** SqlQuery.bound_tables, 8954-8974, and SetQuery.bound_tables, 9819-9834 *)
Fixpoint bound_fuel (n : nat) (q : query) : res (list (option tref)) :=
  match n with
  | 0 => Raise OutOfFuel
  | S n =>
      match q with
      | QSel ctes _ _ from _ _ _ _ =>
          rbind (subqueries q) (fun subs =>
          rbind (rmapM (bound_fuel n) subs) (fun sb =>
          rbind (collect_bound (S n) from) (fun own =>
          Ok (own ++ concat sb ++ cte_tables ctes))))
      | QSet _ l r _ _ => rbind (bound_fuel n l) (fun a => rbind (bound_fuel n r) (fun b => Ok (a ++ b)))
      end
  end.

(** The nesting depth of a query: enough for the recursion. *)
Section Max.
  Context {A : Type} (f : A -> nat).
  Fixpoint lmax (l : list A) : nat := match l with [] => 0 | x :: r => Nat.max (f x) (lmax r) end.
  Definition omax (o : option A) : nat := match o with Some x => f x | None => 0 end.
  Context {C : Type}.
  Fixpoint lmax_fst (l : list (A * C)) : nat := match l with [] => 0 | (x, _) :: r => Nat.max (f x) (lmax_fst r) end.
  Definition max_from (o : option (C * list A)) : nat := match o with Some (_, l) => lmax l | None => 0 end.
End Max.
Fixpoint depth_e (e : expr) : nat :=
  match e with
  | EVal | EStar | ECol _ => 0
  | EAnd ps => lmax depth_e ps
  | ENode _ _ args => lmax depth_e args
  | ESub q => depth_q q
  end
with depth_s (s : source) : nat :=
  match s with
  | SDirect _ | SValues _ _ => 0
  | SSub q _ _ => depth_q q
  | SFun f _ => depth_e f
  | SJoin l r c _ => Nat.max (depth_s l) (Nat.max (depth_s r) (omax depth_e c))
  end
with depth_w (w : cte) : nat := match w with WQuery q _ => depth_q q | WValues _ _ => 0 end
with depth_q (q : query) : nat :=
  match q with
  | QSel ctes targets di from wh gr hv od =>
      S (Nat.max (lmax depth_w ctes) (Nat.max (lmax_fst depth_e targets) (Nat.max (max_from depth_s from) (Nat.max (omax depth_e wh)
        (Nat.max (lmax depth_e gr) (Nat.max (omax depth_e hv) (Nat.max (lmax depth_e od) (match di with Some l => lmax depth_e l | None => 0 end))))))))
  | QSet _ l r ctes od => S (Nat.max (depth_q l) (Nat.max (depth_q r) (Nat.max (lmax depth_w ctes) (lmax depth_e od))))
  end.
Definition bound_tables (q : query) : res (list (option tref)) := bound_fuel (depth_q q) q.

#[global] Instance EqD_otref : EqD (option tref).
Proof. intros a b. unfold EqD in *. decide equality. apply EqD_tref. Defined.
Definition minus (a b : list (option tref)) : list (option tref) := filter (fun x => negb (mem x b)) a.

(** SqlQuery.unbound_tables, 8976-9009, and SetQuery.unbound_tables, 9836-9848 *)
Definition subquery_targets (from : option (fkind * list source)) : list (option tref) :=
  match from with
  | Some (_, items) => flat (fun s => match s with SSub _ t _ => [target_table t] | _ => [] end) items
  | None => []
  end.
Fixpoint unbound_tables (q : query) : res (list (option tref)) :=
  match q with
  | QSel ctes _ _ from _ _ _ _ =>
      rbind (bound_tables q) (fun b =>
      Ok (minus (minus (minus (tables_q q) b) (subquery_targets from)) (map (fun w => Some (TVirt (target_of w))) ctes)))
  | QSet _ l r _ _ => rbind (unbound_tables l) (fun a => rbind (unbound_tables r) (fun b => Ok (a ++ b)))
  end.
(** SqlQuery.is_dependent, 9021-9032, and SetQuery.is_dependent, 9860-9874 *)
Fixpoint is_dependent (q : query) : res bool :=
  match q with
  | QSel _ _ _ _ _ _ _ _ => rbind (bound_tables q) (fun b => Ok (negb (subsetb (tables_q q) b)))
  | QSet _ l r _ _ => rbind (is_dependent l) (fun a => if a then Ok true else is_dependent r)
  end.

(** ** predicates() *)
(** QueryPredicates as its root, 4329-4332; and_, 4702-4743 (create_and, 3170-3197) *)
Definition and_ (p : option expr) (q : option expr) : option expr :=
  match q with None => p | Some b => match p with None => Some b | Some a => Some (EAnd [a; b]) end end.
(** CompoundPredicate.create_and over a non-empty list, None for the empty list *)
Definition conjunction (l : list expr) : option expr := match l with [] => None | [x] => Some x | _ => Some (EAnd l) end.
Section RMap.
  Context {A B : Type} (f : A -> res (option B)).
  Fixpoint collectM (l : list A) : res (list B) :=
    match l with [] => Ok [] | x :: r => rbind (f x) (fun o => rbind (collectM r) (fun t => Ok (optl o ++ t))) end.
End RMap.
Section RFold.
  Context {A : Type} (f : A -> res (option expr)).
  Fixpoint foldM (l : list A) (acc : option expr) : res (option expr) :=
    match l with [] => Ok acc | x :: r => rbind (f x) (fun o => foldM r (and_ acc o)) end.
End RFold.
(** TableSource.predicates, 6254, 6409, 6551, 6650, 6884-6900; From.predicates, 6988-6996; SqlQuery.predicates, 8803-8833;
    SetQuery.predicates, 9755-9761.  The query of a VALUES CTE is SELECT * FROM (VALUES ...), 5513-5519. *)
Fixpoint predicates_s (s : source) : res (option expr) :=
  match s with
  | SDirect _ | SValues _ _ | SFun _ _ => Ok None
  | SSub q _ _ => predicates q
  | SJoin l r c _ =>
      rbind (predicates_s l) (fun a => rbind (predicates_s r) (fun b => Ok (conjunction (optl a ++ optl b ++ optl c))))
  end
with predicates_w (w : cte) : res (option expr) := match w with WQuery q _ => predicates q | WValues _ _ => Ok None end
with predicates (q : query) : res (option expr) :=
  match q with
  | QSel ctes _ _ from wh _ _ _ =>
      rbind (foldM predicates_w ctes None) (fun p =>
      let p := and_ p wh in
      match from with
      | None => Raise AttributeError
      | Some (_, items) => rbind (collectM predicates_s items) (fun l => Ok (and_ p (conjunction l)))
      end)
  | QSet _ _ _ _ _ => Raise OtherError
  end.

(** ** output_columns(): SqlQuery 8731-8768, SetQuery 9710-9753, WithQuery 5419-5433 *)
Fixpoint out_sel (targets : list (expr * option cname)) (anon : nat) : list cname :=
  match targets with
  | [] => []
  | (_, Some n) :: r => n :: out_sel r anon
  | (ECol (Col _ n), None) :: r => n :: out_sel r anon
  | (EStar, None) :: r => out_sel r anon
  | (_, None) :: r => NColumn anon :: out_sel r (S anon)
  end.
Fixpoint out_set (l r : list cname) (anon : nat) : list cname :=
  match l, r with
  | NUser n :: l, _ :: r => NUser n :: out_set l r anon
  | NColumn _ :: l, NUser n :: r => NUser n :: out_set l r anon
  | NColumn _ :: l, NColumn _ :: r => NColumn anon :: out_set l r (S anon)
  | _, _ => []
  end.
Fixpoint output_columns (q : query) : res (list cname) :=
  match q with
  | QSel _ targets _ _ _ _ _ _ => Ok (out_sel targets 1)
  | QSet _ l r _ _ =>
      rbind (output_columns l) (fun a => rbind (output_columns r) (fun b =>
      if length a =? length b then Ok (out_set a b 1) else Raise ValueError))
  end.

(** ** is_scalar(), 9034-9054, 9876-9890 *)
Definition is_scalar (q : query) : bool :=
  match q with
  | QSel _ [(ENode _ true _, _)] None _ _ [] _ _ => true
  | _ => false
  end.
