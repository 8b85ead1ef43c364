(** What walks, mappings of expressions and estimates should be. *)
From Coq Require Import List Bool Arith ZArith.
From Verif Require Import PyBase Wlk_model.
Import ListNotations.

(** Estimates of a sequence of uses; [q] is the query of the last setup. *)
Inductive estimates {Q T R} (star : T -> Q) (estimate : option Q -> option Q -> T -> R) : option Q -> list (use Q T) -> list R -> Prop :=
| es_nil q : estimates star estimate q [] []
| es_setup q q' us rs : estimates star estimate (Some q') us rs -> estimates star estimate q (Setup q' :: us) rs
| es_filtered q t us rs : estimates star estimate q us rs -> estimates star estimate q (Filtered t :: us) (estimate q q t :: rs)
| es_total q t us rs : estimates star estimate q us rs -> estimates star estimate q (Total t :: us) (estimate (Some (star t)) (Some (star t)) t :: rs).
(** Each initialization is followed by a cleanup before the next one, and the estimator is active or not at the end. *)
Inductive paired {Q} : list (call Q) -> bool -> Prop :=
| pr_new : paired [] false
| pr_initialize l q : paired l false -> paired (l ++ [Initialize q]) true
| pr_cleanup l : paired l true -> paired (l ++ [Cleanup]) false.
