(** Parts of trees and plans. *)
From Coq Require Import List Bool Arith ZArith Ascii String.
From Verif Require Import PyBase Ident_model Vis_model.
Import ListNotations.

(** [s] is a node of [t]. *)
Inductive node_of : tree -> tree -> Prop :=
| no_self t : node_of t t
| no_child t c s : In c (children_of t) -> node_of c s -> node_of t s.
Fixpoint size (t : tree) : nat := match t with Node _ cs => 1 + list_sum (map size cs) end.
(** [q] is somewhere below [p], possibly in a subplan. *)
Inductive direct : plan -> plan -> Prop :=
| di_child a i cs sp c : In c cs -> direct (Plan a i cs sp) c
| di_subplan a i cs c : direct (Plan a i cs (Some c)) c.
Inductive below : plan -> plan -> Prop :=
| be_direct p q : direct p q -> below p q
| be_step p c q : direct p c -> below c q -> below p q.
(** [q] is drawn for [p]. *)
Inductive shown (skip : bool) : plan -> plan -> Prop :=
| sh_self p : shown skip p p
| sh_child p c q : In c (traversal skip p) -> shown skip c q -> shown skip p q.
(** The same text up to upper and lower case. *)
Definition same_text (a b : string) : Prop := slower a = slower b.
