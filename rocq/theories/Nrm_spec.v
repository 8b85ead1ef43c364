(** Specification for C372 and C373: columns without the aliases of some tables. *)
From Coq Require Import List Bool String.
Import ListNotations.
Section Spec.
  Context {name schema alias : Type} (no_alias : alias).
  Definition table : Type := (name * schema) * (alias * bool).
  (** [c'] is [c], but without the alias of its table if this is one of the given tables. *)
  Inductive unaliased (tables : list table) : name * option table -> name * option table -> Prop :=
  | U_free : forall n, unaliased tables (n, None) (n, None)
  | U_other : forall n t, ~ In t tables -> unaliased tables (n, Some t) (n, Some t)
  | U_drop : forall n f s a, In ((f, s), (a, false)) tables -> unaliased tables (n, Some ((f, s), (a, false))) (n, Some ((f, s), (no_alias, false))).
  (** Columns with the same name, of the same physical tables; both tables are listed. *)
  Inductive same_column (T U : list table) : name * option table -> name * option table -> Prop :=
  | S_column : forall n f s a b, In ((f, s), (a, false)) T -> In ((f, s), (b, false)) U ->
      same_column T U (n, Some ((f, s), (a, false))) (n, Some ((f, s), (b, false))).
End Spec.
