(** Specification vocabulary for C279: the tables of a predicate in the scope of its query. *)
From Coq Require Import List Bool Arith.
From Verif Require Import PyBase RVis_model.
Import ListNotations.

(** Tables outside of subqueries: those of columns and those that subqueries take from their surroundings. *)
Inductive outer : nat -> ex -> Prop :=
| o_leaf t : outer t (Leaf (Some t))
| o_window t x l : In x l -> outer t x -> outer t (Window l)
| o_one t e : outer t e -> outer t (One e)
| o_group t a x l : In x l -> outer t x -> outer t (Group a l)
| o_sub t unbound inner : In t unbound -> outer t (Sub unbound inner).
(** No window functions, which are not allowed in predicates. *)
Inductive plain : ex -> Prop :=
| p_leaf o : plain (Leaf o)
| p_one e : plain e -> plain (One e)
| p_group a l : (forall x, In x l -> plain x) -> plain (Group a l)
| p_sub u i : plain (Sub u i).
(** Each operator with several operands refers to some table. *)
Inductive tight : ex -> Prop :=
| t_leaf o : tight (Leaf o)
| t_one e : tight e -> tight (One e)
| t_group a l : (forall x, In x l -> tight x) -> (exists t, outer t (Group a l)) -> tight (Group a l)
| t_sub u i : tight (Sub u i).
