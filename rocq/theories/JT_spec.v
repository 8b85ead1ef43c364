(** What join trees are, in terms of positions. *)
From Coq Require Import List Bool Arith Sorting.Sorted.
From Verif Require Import PyBase JT_model.
Import ListNotations.

(** A position: the way from the root; [false] is the outer child, [true] the inner child. *)
Definition pos := list bool.
Fixpoint at_pos {T A} (t : jt T A) (p : pos) : option (jt T A) :=
  match p, t with
  | [], _ => Some t
  | b :: r, JJoin _ o i _ => at_pos (if b then i else o) r
  | _, _ => None
  end.
(** [p] is the position of a non-empty node, a base table, a join. *)
Definition node_pos {T A} (t : jt T A) (p : pos) : Prop := match at_pos t p with Some (JEmpty _) | None => False | _ => True end.
Definition scan_pos {T A} (t : jt T A) (p : pos) : Prop := match at_pos t p with Some (JScan _ _ _) => True | _ => False end.
Definition join_pos {T A} (t : jt T A) (p : pos) : Prop := match at_pos t p with Some (JJoin _ _ _ _) => True | _ => False end.
(** Reading order: parents first, outer before inner. *)
Inductive before : pos -> pos -> Prop :=
| b_root b p : before [] (b :: p)
| b_outer p q : before (false :: p) (true :: q)
| b_same b p q : before p q -> before (b :: p) (b :: q).
(** Execution order: children first, outer before inner. *)
Inductive before_exec : pos -> pos -> Prop :=
| e_root b p : before_exec (b :: p) []
| e_outer p q : before_exec (false :: p) (true :: q)
| e_same b p q : before_exec p q -> before_exec (b :: p) (b :: q).

(** [s] is the tree itself or below it. *)
Definition subtree {T A} (s t : jt T A) : Prop := exists p, at_pos t p = Some s.
(** A table is scanned somewhere. *)
Definition scanned {T A} (x : T) (t : jt T A) : Prop := exists lg a, subtree (JScan lg x a) t.

(** Linear: every join has a base table as an input. *)
Definition is_scan_tree {T A} (t : jt T A) : Prop := match t with JScan _ _ _ => True | _ => False end.
Definition linear {T A} (t : jt T A) : Prop := forall lg o i a, subtree (JJoin lg o i a) t -> is_scan_tree o \/ is_scan_tree i.
(** No empty trees below joins (or at all). *)
Definition proper {T A} (t : jt T A) : Prop := forall lg, ~ subtree (JEmpty lg) t.
(** Plain join trees only. *)
Definition lgflag {T A} (t : jt T A) : bool := match t with JEmpty l | JScan l _ _ | JJoin l _ _ _ => l end.
Definition plain {T A} (t : jt T A) : Prop := forall s, subtree s t -> lgflag s = false.
