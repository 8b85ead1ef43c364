(** Model of visiting relational algebra, postbound/relalg.py 449-2440 (the methods accept_visitor), and of finding the base table of a predicate,
    relalg.py 2959-3124 (_BaseTableLookup).

    Simplifications: nodes are given by their kind and a number (their identity).  Expressions and predicates are reduced to what the lookup
    distinguishes: leaves with or without a table (constants, columns, stars), window functions, operators with one operand (casts, NOT, unary
    predicates, quantifiers), all other operators with their operands, and subqueries with the tables they refer to outside and inside. *)
From Coq Require Import List Bool Arith.
From Verif Require Import PyBase.
Import ListNotations.

Inductive kind := KSelection | KCrossProduct | KUnion | KIntersection | KDifference | KRelation | KThetaJoin | KProjection | KGrouping | KRename | KSort
  | KMap | KDuplicateElimination | KSemiJoin | KAntiJoin | KSubqueryScan.
#[global] Instance kind_EqD : EqD kind. Proof. unfold EqD. decide equality. Defined.
(** The argument a visitor method is called with: a node or, wrongly, the visitor *)
Inductive argument := ANode (n : nat) | AVisitor.
(** accept_visitor of the sixteen classes: 505, 615, 727, 838, 950, 1079, 1210, 1321, 1457, 1596, 1722, 1854, 1957, 2096, 2254, 2382.  The methods are
    named by the kind of node they are for. *)
Definition accept (k : kind) (n : nat) : kind * argument :=
  match k with
  | KSelection => (KSelection, ANode n) | KCrossProduct => (KCrossProduct, ANode n)
  | KUnion => (KUnion, AVisitor) | KIntersection => (KIntersection, AVisitor) | KDifference => (KDifference, AVisitor)
  | KRelation => (KRelation, ANode n) | KThetaJoin => (KThetaJoin, ANode n) | KProjection => (KProjection, ANode n)
  | KGrouping => (KGrouping, ANode n) | KRename => (KRename, ANode n) | KSort => (KSort, ANode n) | KMap => (KMap, ANode n)
  | KDuplicateElimination => (KDuplicateElimination, ANode n) | KSemiJoin => (KSemiJoin, ANode n) | KAntiJoin => (KAntiJoin, ANode n)
  | KSubqueryScan => (KSubqueryScan, ANode n)
  end.

Inductive ex :=
| Leaf (o : option nat)
| Window (l : list ex)
| One (e : ex)
| Group (accept_empty : bool) (l : list ex)     (* with accept_empty: functions, CASE, arrays *)
| Sub (unbound inner : list nat).
Definition somes (l : list (option nat)) : list nat := flat_map (fun o => match o with Some t => [t] | None => [] end) l.
(** _fetch_valid_base_tables 3082-3113 *)
Definition fetch (accept_empty : bool) (l : list (option nat)) : res (option nat) :=
  let tabs := dedup (somes l) in
  if negb (List.length tabs =? 1) || (accept_empty && match tabs with [] => true | _ => false end) then Raise ValueError
  else Ok (match tabs with t :: _ => Some t | [] => None end).
(** the visit methods 2977-3080 *)
Fixpoint lookup (e : ex) : res (option nat) :=
  match e with
  | Leaf o => Ok o
  | Window _ => Ok None
  | One e => lookup e
  | Group a l => rbind ((fix go l := match l with [] => Ok [] | x :: r => rbind (lookup x) (fun o => rmap (cons o) (go r)) end) l) (fetch a)
  | Sub unbound _ => match unbound with [] => Ok None | _ => fetch true (map Some unbound) end
  end.
(** tables() of predicates and expressions *)
Fixpoint all_tables (e : ex) : list nat :=
  match e with
  | Leaf o => somes [o]
  | Window l | Group _ l => (fix go l := match l with [] => [] | x :: r => all_tables x ++ go r end) l
  | One e => all_tables e
  | Sub unbound inner => unbound ++ inner
  end.
(** __call__ 3115-3124 *)
Definition base_table (is_join : bool) (e : ex) : res nat :=
  if is_join then Raise ValueError
  else match dedup (all_tables e) with
       | [t] => Ok t
       | _ => rbind (lookup e) (fun o => match o with Some t => Ok t | None => Raise ValueError end)
       end.
