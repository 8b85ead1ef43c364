(** Specification vocabulary for C277: combinations of operators. *)
From Coq Require Import List Bool Arith ZArith.
From Verif Require Import PyBase TExpl_model.
Import ListNotations.
Local Open Scope nat_scope.

(** The joins with their available operators: each join once, with two tables at least, and each operator once. *)
Definition well_formed (available : dict join (list nat)) : Prop :=
  NoDup (map fst available) /\ (forall j ops, In (j, ops) available -> 2 <= List.length j /\ NoDup ops).
(** One available operator for each join. *)
Definition combination (available : dict join (list nat)) (a : assignment) : Prop :=
  Forall2 (fun e p => fst p = fst e /\ In (snd p) (snd e)) available a.
(** The joins of a join tree, as sets of tables. *)
Fixpoint joins_of (t : jtree) : list join := match t with Join a b => joins_of a ++ joins_of b ++ [dedup (tables a ++ tables b)] | _ => [] end.
