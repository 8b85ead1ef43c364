(** Where plots should be in a grid, and which distances layouts should use. *)
From Coq Require Import List Bool Arith.
From Verif Require Import PyBase Grid_model.
Import ListNotations.

(** The cell of number [i] in reading order *)
Definition cell (ncols i : nat) (p : nat * nat) : Prop := i = fst p * ncols + snd p /\ snd p < ncols.
(** The smallest number of rows with enough space *)
Definition rows_for (labels ncols rows : nat) : Prop := labels <= rows * ncols /\ forall r, labels <= r * ncols -> rows <= r.
(** [a] is before [b] in a list, or they are the same element. *)
Inductive before {E} (a b : E) : list E -> Prop :=
| bf_here l : b = a \/ In b l -> before a b (a :: l)
| bf_later x l : before a b l -> before a b (x :: l).
