(** What a query fragment is. *)
From Coq Require Import List Bool Arith.
From Verif Require Import PyBase Src_model Src_spec.
Import ListNotations.

(** All tables of the list are wanted. *)
Definition only (ref : list tref) (l : list (option tref)) : Prop := forall t, In t l -> exists x, t = Some x /\ In x ref.
(** The implicit queries: FROM has only tables. *)
Definition implicit (q : query) : Prop := match q with QSel _ _ _ (Some (FOther, _)) _ _ _ _ => False | _ => True end.
(** The parts of a conjunction *)
Inductive conjunct : expr -> expr -> Prop :=
| cj_here e : (forall ps, e <> EAnd ps) -> conjunct e e
| cj_and ps p e : In p ps -> conjunct p e -> conjunct (EAnd ps) e.
(** There is no NOT outside of basic predicates. *)
Inductive no_not (kor knot : nat) : expr -> Prop :=
| nn_and ps : (forall p, In p ps -> no_not kor knot p) -> no_not kor knot (EAnd ps)
| nn_or a ps : kor <> knot -> (forall p, In p ps -> no_not kor knot p) -> no_not kor knot (ENode kor a ps)
| nn_node k a ps : k <> kor -> k <> knot -> no_not kor knot (ENode k a ps)
| nn_other e : match e with EAnd _ | ENode _ _ _ => False | _ => True end -> no_not kor knot e.
(** Targets that read no column read no table either (there is no subquery like SELECT COUNT( * )). *)
Definition plain_targets (q : query) : Prop :=
  match q with QSel _ targets _ _ _ _ _ _ => forall e n, In (e, n) targets -> columns_e e = [] -> tables_e e = [] | QSet _ _ _ _ _ => True end.
Definition ctes_of (q : query) : list cte := match q with QSel ctes _ _ _ _ _ _ _ => ctes | QSet _ _ _ ctes _ => ctes end.
Definition from_items (q : query) : list source := match q with QSel _ _ _ (Some (_, l)) _ _ _ _ => l | _ => [] end.
(** All virtual tables of the query are defined by its CTEs. *)
Definition self_contained (q : query) : Prop := forall a, In (Some (TVirt a)) (tables_q q) -> exists w, In w (ctes_of q) /\ target_of w = a.
