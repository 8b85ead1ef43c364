(** What a cross-product free operator tree is, when tables hang together, and what cheaper means. *)
From Coq Require Import List Bool Arith.
From Verif Require Import PyBase FSet DP_model QPred_spec.
Import ListNotations.

(** The tables [S] hang together through the relation [R]. *)
Definition hangs_together (R : nat -> nat -> Prop) (S : list nat) : Prop := forall x y, In x S -> In y S -> chain R S x y.

Section Spec.
  Context {C N P I K : Type}.
  Notation qp := (qp C N P I K).
  Context (card : list nat -> N) (cost : qp -> C).
  Context (filters_for : nat -> option P) (used_columns : nat -> list K) (indexes_on : K -> list I).
  Context (joins_between : list nat -> list nat -> option P) (scan_ops : list dscan).

  (** The ways to read a table. *)
  Inductive scan_option (t : nat) : dscan -> option (K * I) -> list K -> Prop :=
  | so_seq : In SeqScan scan_ops -> scan_option t SeqScan None []
  | so_idx c ix : In IdxScan scan_ops -> In c (used_columns t) -> In ix (indexes_on c) -> scan_option t IdxScan (Some (c, ix)) []
  | so_only c ix : In IdxOnlyScan scan_ops -> used_columns t = [c] -> In ix (indexes_on c) -> scan_option t IdxOnlyScan (Some (c, ix)) []
  | so_bmp : In BmpScan scan_ops -> used_columns t <> [] -> scan_option t BmpScan None (used_columns t).

  (** The estimates of the node are those of the estimator and the cost model. *)
  Definition annotated (p : qp) : Prop :=
    qp_est p = mkest (Some (card (qp_tables p))) (Some (cost (qp_set p (mkest (Some (card (qp_tables p))) None)))).

  (** Operator trees without cross products: every table once, every join connects two joinable tables. *)
  Inductive xplan (R : nat -> nat -> Prop) (ops : djoin -> Prop) : qp -> Prop :=
  | xp_scan t op ix bm e : scan_option t op ix bm -> annotated (QScan op t ix bm (filters_for t) e) -> xplan R ops (QScan op t ix bm (filters_for t) e)
  | xp_join op o i e a b : xplan R ops o -> xplan R ops i -> (forall x, In x (qp_leaves o) -> ~ In x (qp_leaves i)) ->
      In a (qp_leaves o) -> In b (qp_leaves i) -> R a b -> ops op ->
      annotated (QJoin op (joins_between (qp_tables o) (qp_tables i)) o i e) ->
      xplan R ops (QJoin op (joins_between (qp_tables o) (qp_tables i)) o i e).

  (** [p] is not more expensive than [q]. *)
  Definition no_dearer (clt : C -> C -> bool) (p q : qp) : Prop :=
    match e_cost (qp_est p), e_cost (qp_est q) with Some a, Some b => clt b a = false | _, _ => False end.

  (** Cheaper inputs over the same tables never make a join more expensive. *)
  Definition monotone (clt : C -> C -> bool) (R : nat -> nat -> Prop) (ops : djoin -> Prop) : Prop :=
    forall op o o' i i' e e', let j o i := QJoin op (joins_between (qp_tables o) (qp_tables i)) o i in
      xplan R ops (j o i e) -> xplan R ops (j o' i' e') -> qp_tables o = qp_tables o' -> qp_tables i = qp_tables i' ->
      no_dearer clt o o' -> no_dearer clt i i' -> no_dearer clt (j o i e) (j o' i' e').
End Spec.
(** Comparing costs: a strict order in which being incomparable is transitive (floats without NaN). *)
Definition cost_order {C} (clt : C -> C -> bool) : Prop :=
  (forall a b, clt a b = true -> clt b a = false) /\ (forall a b c, clt a b = false -> clt b c = false -> clt a c = false).
