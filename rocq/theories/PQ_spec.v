(** What options of EXPLAIN mean, and which schema is used for binding. *)
From Coq Require Import List Bool Arith Ascii String.
From Verif Require Import PyBase Ident_model PQ_model.
Import ListNotations.

(** The value of an option is the one of its last occurrence; ANALYZE without value means ANALYZE true. *)
Inductive analyzes : list option_ -> bool -> Prop :=
| an_default l : (forall v, ~ In (OAnalyze v) l) -> analyzes l false
| an_last l r v : (forall w, ~ In (OAnalyze w) r) -> analyzes (l ++ OAnalyze v :: r) (match v with Some b => b | None => true end).
Inductive formats : list option_ -> string -> Prop :=
| fm_default l : (forall f, ~ In (OFormat f) l) -> formats l "TEXT"
| fm_last l r f : (forall g, ~ In (OFormat g) r) -> formats (l ++ OFormat f :: r) f.
Definition known (l : list option_) : Prop := forall n, ~ In (OUnknown n) l.
(** The schema for live binding: none if it is disabled, else the given one or the one of the first database of the pool. *)
Definition wanted_schema (enabled : bool) (given : option nat) (pool : list nat) (s : option nat) : Prop :=
  (enabled = false -> s = None) /\
  (enabled = true -> forall g, given = Some g -> s = Some g) /\
  (enabled = true -> given = None -> s = nth_error pool 0).
(** Live binding is enabled: explicitly, or by default. *)
Definition enabled (bind_columns : option bool) (auto : bool) : bool := match bind_columns with Some b => b | None => auto end.
