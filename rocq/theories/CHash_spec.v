(* What it takes for equal objects to have equal hash values. *)
From Coq Require Import List Bool Arith ZArith.
From Verif Require Import PyBase CHash_model CHash_proofs.
Import ListNotations.

(* the attribute of SqlQuery in which a clause is stored, _qal.py 8501-8514 *)
Definition kind (o : obj) : nat :=
  match o with
  | OHint _ _ => 0 | OExplain _ _ _ => 1 | OCte _ _ => 2 | OSelect _ _ _ => 3 | OFrom _ _ => 4
  | OWhere _ => 5 | OGroup _ _ => 6 | OHaving _ => 7 | OOrder _ => 8 | OLimit _ _ _ _ => 9
  | _ => 10
  end.

Fixpoint kinds_from (n : nat) (l : list (option obj)) : Prop :=
  match l with [] => True | s :: l => (forall x, s = Some x -> kind x = n) /\ kinds_from (S n) l end.

(* a property of an object and of everything in it *)
Inductive everywhere (Q : obj -> Prop) (o : obj) : Prop :=
| Everywhere : Q o -> Forall (everywhere Q) (members o) -> everywhere Q o.

(* queries have ten attributes for the ten kinds of clauses *)
Definition typed (o : obj) : Prop :=
  match o with OSql _ slots => List.length slots = 10 /\ kinds_from 0 slots | _ => True end.

(* default fetch direction, no empty EXPLAIN format, CTEs are named by strings, no LATERAL *)
Definition regular (o : obj) : Prop :=
  match o with
  | OLimit _ _ _ d => d = DFirst
  | OExplain _ _ f => f <> Some 0
  | OWith _ n _ => exists s, n = NStr s
  | OSubSource _ _ l => l = false
  | _ => True
  end.

(* no MATERIALIZED / NOT MATERIALIZED *)
Definition plain_cte (o : obj) : Prop :=
  match o with OWith _ _ m | OValuesWith _ _ _ m => m = None | _ => True end.
