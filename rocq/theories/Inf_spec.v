(** Which joins a table has, which columns are found, and what the labels of plans should show. *)
From Coq Require Import List Bool Arith ZArith Ascii String.
From Verif Require Import PyBase Ident_model JG_model Inf_model.
Import ListNotations.

Section Graph.
  Context {T C : Type} {ET : EqD T} {EC : EqD C}.
  (** The state of a table; tables which are not part of the graph are not joined. *)
  Definition consumed (h : heap) (g : @jg T C) (t : T) : Prop := exists a, dget (g_nodes g) t = Some a /\ nth a (h_free h) true = false.
  (** No table has been joined. *)
  Definition fresh (h : heap) (g : @jg T C) : Prop := forall t, ~ consumed h g t.
  Inductive edge (g : @jg T C) (t u : T) (p : list (C * C)) : Prop :=
  | eg_forward : In (t, u, p) (g_edges g) -> edge g t u p
  | eg_backward : In (u, t, p) (g_edges g) -> edge g t u p.
  (** The documented condition: any join in fresh graphs, otherwise exactly one of the tables is joined. *)
  Definition joinable (h : heap) (g : @jg T C) (t u : T) : Prop :=
    fresh h g \/ (consumed h g t /\ ~ consumed h g u) \/ (~ consumed h g t /\ consumed h g u).
End Graph.

(** Names that differ at most in upper and lower case *)
Definition same_column (a b : column) : Prop := slower (c_name a) = slower (c_name b) /\ c_table a = c_table b.
(** A part of a text *)
Definition contains (s part : string) : Prop := exists a b, s = (a ++ part ++ b)%string.
Definition type_of (n : node) : string := match n with Node _ t _ => t end.
Definition table_of (n : node) : option string := match n with Node (Scan t) _ _ => Some t | _ => None end.
Definition has_subplan (n : node) : bool := match n with Node _ _ (Some _) => true | _ => false end.
