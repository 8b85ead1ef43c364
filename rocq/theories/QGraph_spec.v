(** What the annotations of a join graph and the join strategies are measured against. *)
From Coq Require Import List Bool Arith.
From Verif Require Import PyBase Pred_model Pred_spec QPred_spec Expr_model.
Import ListNotations.

(** An optional predicate stands for the conjunction of the members of [ps] with property [Q]: it is absent if there are none, and
    otherwise true (false, unknown) in exactly the rows in which their conjunction is. *)
Definition stands_for {E} (a : option (pred E)) (ps : list (pred E)) (Q : pred E -> bool) : Prop :=
  (a = None <-> forall p, In p ps -> Q p = false) /\
  forall p, a = Some p -> forall (I : interp E) (r : row I), sem I r p = all3 (map (sem I r) (filter Q ps)).

(** The table occurs in the predicate. *)
Definition occurs {E} (ecols : E -> list col) (t : tbl) (p : pred E) : bool := existsb (fun c => deqb (c_tab c) (Some t)) (pcols ecols p).

(** [j] is the last element of [js] with property [Q]. *)
Definition last_with {A} (Q : A -> Prop) (js : list A) (j : A) : Prop :=
  exists l r, js = l ++ j :: r /\ Q j /\ forall k, In k r -> ~ Q k.

(** The predicate pairs two columns, in either order. *)
Definition pairs_columns {E} (ecols : E -> list col) (j : pred E) (x y : col) : Prop :=
  exists ps, join_partners ecols j = Ok ps /\ (In (x, y) ps \/ In (y, x) ps).

(** A column below any number of casts whose type parameters mention no column. *)
Inductive cast_column : sx -> col -> Prop :=
| cc_col c : cast_column (XCol c) c
| cc_cast e ty ps arr c : cast_column e c -> (forall p, In p ps -> x_direct p = []) -> cast_column (XCast e ty ps arr) c.
