(** Specification vocabulary for the predicate transformations. *)
From Coq Require Import List Bool Arith.
From Verif Require Import PyBase Pred_model Pred_spec Trans_model.
Import ListNotations.

(** A conjunction that lies below another one, reached through conjunctions only. *)
Inductive nested_and {E} : pred E -> pred E -> Prop :=
| nested_here qs ps : In (PAnd qs) ps -> nested_and (PAnd qs) (PAnd ps)
| nested_deep x qs ps : In (PAnd qs) ps -> nested_and x (PAnd qs) -> nested_and x (PAnd ps).

(** No nested conjunction consists of repetitions of one and the same OR / NOT predicate. *)
Definition no_repeated_compound {E} (p : pred E) : Prop :=
  forall q, nested_and q p -> ~ exists x, is_base x = false /\ forall y, In y (conjuncts q) -> y = x.

(** NOT does not occur. *)
Fixpoint not_free {E} (p : pred E) : Prop :=
  match p with
  | PNot _ => False
  | PAnd ps | POr ps => (fix go l := match l with [] => True | q :: r => not_free q /\ go r end) ps
  | _ => True
  end.

(** Every OR reached through conjunctions is either built from base predicates that all satisfy [Q], or has none. *)
Fixpoint or_whole {E} (Q : pred E -> Prop) (p : pred E) : Prop :=
  match p with
  | PAnd ps => (fix go l := match l with [] => True | q :: r => or_whole Q q /\ go r end) ps
  | POr ps => ~ some_leaf (fun b => ~ Q b) p \/ ~ some_leaf Q p
  | _ => True
  end.

(** Two columns are equated by a chain of edges. *)
Inductive equated {A} (es : list (A * A)) : A -> A -> Prop :=
| eq_edge a b : In (a, b) es -> equated es a b
| eq_sym a b : equated es a b -> equated es b a
| eq_trans a b c : equated es a b -> equated es b c -> equated es a c.

(** Which combinations of base rows does a FROM tree admit?  [ok] says that the rows chosen for a table exist; the row
    combination itself is the valuation [r]. *)
Fixpoint admits {E} (I : interp E) (ok : tbl -> Prop) (r : row I) (s : source) : Prop :=
  match s with
  | SDirect t => ok t
  | SInner a b c => admits I ok r a /\ admits I ok r b /\ match c with Some p => sem I r p = T3 | None => True end
  | SOther => False
  end.

(** INNER JOIN trees with a condition at every join. *)
Fixpoint inner_tree {E} (s : @source E) : Prop :=
  match s with SDirect _ => True | SInner a b c => inner_tree a /\ inner_tree b /\ c <> None | SOther => False end.
Fixpoint source_tables {E} (s : @source E) : list tbl :=
  match s with SDirect t => [t] | SInner a b _ => source_tables a ++ source_tables b | SOther => [] end.
Fixpoint source_conds {E} (s : @source E) : list (pred E) :=
  match s with SInner a b c => match c with Some p => [p] | None => [] end ++ source_conds a ++ source_conds b | _ => [] end.

(** A condition in which no conjunction (also not the outermost one) repeats a single OR / NOT predicate. *)
Definition plain_condition {E} (p : pred E) : Prop :=
  no_repeated_compound p /\ match p with PAnd _ => ~ exists x, is_base x = false /\ forall y, In y (conjuncts p) -> y = x | _ => True end.

(** All predicates that occur in [p], including [p]. *)
Fixpoint occurs {E} (x p : pred E) : Prop :=
  x = p \/
  match p with
  | PNot q => occurs x q
  | PAnd ps | POr ps => (fix go l := match l with [] => False | q :: r => occurs x q \/ go r end) ps
  | _ => False
  end.
