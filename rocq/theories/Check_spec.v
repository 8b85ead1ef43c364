(** What the pre-checks should accept. *)
From Coq Require Import List Bool.
From Verif Require Import PyBase Pred_model Check_model.
Import ListNotations.

(** The checks a given check stands for. *)
Definition parts {Q D} (c : check Q D) : list (atom Q D) := match c with CEmpty => [] | CAtom a => [a] | CCompound l => l end.
(** A reason is mentioned by a result. *)
Definition mentions_reason (r : result) (s : nat) : Prop := match reasons r with RStr t => s = t | RList l => In s l end.

(** Equality joins of two columns, possibly combined by AND. *)
Inductive equi_join {E} (ecols : E -> list col) (simple : E -> Prop) (conj : Prop) : pred E -> Prop :=
| ej_eq a b c d : c <> d -> (forall x, In x (ecols a ++ ecols b) <-> x = c \/ x = d) -> simple a -> simple b -> equi_join ecols simple conj (PBin OpEq a b)
| ej_and ps : conj -> (forall p, In p ps -> equi_join ecols simple conj p) -> equi_join ecols simple conj (PAnd ps).

(** All joins of the FROM clause are inner joins; no table functions occur. *)
Inductive inner_only_source : source -> Prop :=
| io_direct : inner_only_source SDirect
| io_values : inner_only_source SValues
| io_sub q : inner_only q -> inner_only_source (SSubquery q)
| io_join l r : inner_only_source l -> inner_only_source r -> inner_only_source (SJoin l r InnerJoin)
with inner_only : from_clause -> Prop :=
| io_none : inner_only FNone
| io_implicit : inner_only FImplicit
| io_explicit s : inner_only_source s -> inner_only (FExplicit s)
| io_from ss : (forall s, In s ss -> inner_only_source s) -> inner_only (FFrom ss).
(** The number of explicit joins. *)
Fixpoint joins_in (s : source) : nat := match s with SSubquery q => joins_in_from q | SJoin l r _ => S (joins_in l + joins_in r) | _ => 0 end
with joins_in_from (f : from_clause) : nat :=
  match f with FExplicit s => joins_in s | FFrom ss => (fix go l := match l with [] => 0 | s :: l => joins_in s + go l end) ss | _ => 0 end.
