(** Independent description of the nodes and shapes of a plan. *)
From Coq Require Import List Bool Arith ZArith.
From Verif Require Import PyBase Hint_model Card_model QPlan_model PGHint_spec.
Import ListNotations.

(** [n] is [p] itself or below one of its children. *)
Inductive node_of : plan -> plan -> Prop :=
| no_self p : node_of p p
| no_kid p c n : In c (kids p) -> node_of c n -> node_of p n.
(** The same, also through subplans. *)
Inductive node_all : plan -> plan -> Prop :=
| na_self p : node_all p p
| na_kid p c n : In c (kids p) -> node_all c n -> node_all p n
| na_sub p q t n : subplan p = Some (q, t) -> node_all q n -> node_all p n.
(** A path of [k] nodes from the root downwards. *)
Inductive path : plan -> nat -> Prop :=
| path_one p : path p 1
| path_more p c k : In c (kids p) -> path c k -> path p (S k).
(** A table occurs in the plan: as base table, in a predicate or lookup key, or as the target of a subplan. *)
Definition mentions (p : plan) (t : nat) : Prop :=
  exists n, node_all p n /\ (base (data n) = Some t \/ In t (ftabs (data n)) \/ In t (ktabs (data n)) \/ exists q, subplan n = Some (q, Some t)).

(** Plans as optimizers produce them: no more than two children, and subplans only below nodes with two children. *)
Definition simple_node (n : plan) : Prop := List.length (kids n) <= 2 /\ (List.length (kids n) < 2 -> subplan n = None).
Definition simple (p : plan) : Prop := forall n, node_all p n -> simple_node n.
Definition no_subplans (p : plan) : Prop := forall n, node_of p n -> subplan n = None.

(** ** Shapes *)
Definition has_join (p : plan) : Prop := exists n, node_of p n /\ is_join n = true.
(** All joins satisfy a condition on their two inputs. *)
Definition all_joins (R : plan -> plan -> Prop) (p : plan) : Prop := forall n a b, node_of p n -> is_join n = true -> kids n = [a; b] -> R a b.
Definition linear : plan -> Prop := all_joins (fun a b => ~ (has_join a /\ has_join b)).
Definition left_deep : plan -> Prop := all_joins (fun _ b => ~ has_join b).
Definition right_deep : plan -> Prop := all_joins (fun a _ => ~ has_join a).
(** Linear with joins on both sides at different joins. *)
Definition zigzag (p : plan) : Prop := linear p /\ ~ left_deep p /\ ~ right_deep p.

(** ** Join orders *)
Definition pair_order (o1 o2 : option order) : option order := match o1, o2 with Some a, Some b => Some (OrdJoin a b) | _, _ => None end.
Inductive plan_order : plan -> order -> Prop :=
| po_scan p t : is_scan p = true -> base (data p) = Some t -> plan_order p (OrdTab t)
| po_join p a b x y : is_join p = true -> kids p = [a; b] -> plan_order a x -> plan_order b y -> plan_order p (OrdJoin x y)
| po_aux p c x : is_scan p = false -> is_join p = false -> kids p = [c] -> plan_order c x -> plan_order p x.
