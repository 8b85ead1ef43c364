(** Join orders without cross products, and walks that only move to neighbours. *)
From Coq Require Import List Bool Arith Sorting.Permutation.
From Verif Require Import Enum_model.
Import ListNotations.

(** The tables of a join tree from left to right. *)
Fixpoint leaves (t : jtree) : list nat := match t with Leaf x => [x] | Node o i => leaves o ++ leaves i end.
(** Two tables are join partners. *)
Definition partners (es : list (nat * nat)) (x y : nat) : Prop := In (x, y) es \/ In (y, x) es.
(** Every join connects two join partners. *)
Inductive no_cross (R : nat -> nat -> Prop) : jtree -> Prop :=
| nc_leaf x : no_cross R (Leaf x)
| nc_node o i a b : no_cross R o -> no_cross R i -> In a (leaves o) -> In b (leaves i) -> R a b -> no_cross R (Node o i).
(** A join order for the tables [ns]: every table exactly once, no cross product. *)
Definition join_order (ns : list nat) (es : list (nat * nat)) (t : jtree) : Prop := Permutation (leaves t) ns /\ no_cross (partners es) t.
(** Every inner (outer) input is a base table. *)
Inductive left_deep : jtree -> Prop := ld_leaf x : left_deep (Leaf x) | ld_node o x : left_deep o -> left_deep (Node o (Leaf x)).
Inductive right_deep : jtree -> Prop := rd_leaf x : right_deep (Leaf x) | rd_node i x : right_deep i -> right_deep (Node (Leaf x) i).
(** A simple graph: no duplicate nodes, edges between two different nodes. *)
Definition simple_graph (ns : list nat) (es : list (nat * nat)) : Prop :=
  NoDup ns /\ forall x y, In (x, y) es -> In x ns /\ In y ns /\ x <> y.
(** [l] continues [seen], always moving to a neighbour of what has been seen. *)
Inductive grows (R : nat -> nat -> Prop) : list nat -> list nat -> Prop :=
| gr_nil seen : grows R seen []
| gr_cons seen x l y : In y seen -> R y x -> grows R (x :: seen) l -> grows R seen (x :: l).
(** A walk that starts somewhere and then grows. *)
Definition walk (R : nat -> nat -> Prop) (l : list nat) : Prop := match l with [] => False | x :: r => grows R [x] r end.
(** [s] is a subtree of [t]. *)
Inductive subtree (s : jtree) : jtree -> Prop := st_refl : subtree s s | st_o o i : subtree s o -> subtree s (Node o i) | st_i o i : subtree s i -> subtree s (Node o i).
