(** What a preparation is asked for. *)
From Coq Require Import String List Bool.
From Verif Require Import PyBase Clause_model Clause_spec.
Import ListNotations.
Open Scope string_scope.
Open Scope list_scope.

Inductive projection := PKeep | PStar | PCount.
Inductive mode := MDefault | MPlan | MAnalyze.

(** the documented values of the options *)
Inductive names_projection : string -> projection -> Prop :=
| np_none : names_projection "none" PKeep
| np_star : names_projection "star" PStar
| np_star' : names_projection "*" PStar
| np_count : names_projection "count_star" PCount
| np_count' : names_projection "count(*)" PCount.
Inductive names_mode : string -> mode -> Prop :=
| nm_default : names_mode "default" MDefault
| nm_explain : names_mode "explain" MPlan
| nm_analyze : names_mode "analyze" MAnalyze
| nm_analyze' : names_mode "explain_analyze" MAnalyze.

(** the deprecated flags win over the options, and ANALYZE over EXPLAIN *)
Definition asks_projection (name : string) (count_star : option bool) (x : projection) : Prop :=
  (count_star = Some true /\ x = PCount) \/ (count_star <> Some true /\ names_projection name x).
Definition asks_mode (output : string) (explain analyze : option bool) (x : mode) : Prop :=
  (analyze = Some true /\ x = MAnalyze)
  \/ (analyze <> Some true /\ explain = Some true /\ x = MPlan)
  \/ (analyze <> Some true /\ explain <> Some true /\ names_mode output x).

(** a query is another one with a SELECT clause and an EXPLAIN clause of its own, if there are any *)
Definition replaced (select : option content) (explain : option sub) (q q' : query) : Prop :=
  (forall s, s <> SSelect -> s <> SExplain -> clause_at q' s = clause_at q s)
  /\ clause_at q' SSelect = match select with Some c => Some (CSelect c) | None => clause_at q SSelect end
  /\ clause_at q' SExplain = match explain with Some e => Some (CExplain e) | None => clause_at q SExplain end.
