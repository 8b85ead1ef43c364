From Coq Require Import List Bool Arith ZArith Lia.
Import ListNotations.
Local Open Scope Z_scope.

Definition in_range (v : Z) (mn mx : option Z) : Prop :=
  (forall m, mn = Some m -> m <= v) /\ (forall m, mx = Some m -> v <= m).

(** [v'] is the closest value to [v] inside of the range *)
Definition clamped (v v' : Z) (mn mx : option Z) : Prop :=
  in_range v' mn mx /\ (forall w, in_range w mn mx -> Z.abs (v - v') <= Z.abs (v - w)).

(** Lexicographic "older than": the first difference decides, a proper prefix is older. *)
Definition older (a b : list Z) : Prop :=
  (exists p x y r s, a = p ++ x :: r /\ b = p ++ y :: s /\ x < y) \/ (exists y s, b = a ++ y :: s).
