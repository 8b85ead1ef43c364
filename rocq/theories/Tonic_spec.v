(** What the QEP-S should store and recommend. *)
From Coq Require Import List Bool Arith QArith.
From Verif Require Import PyBase Tonic_model.
Import ListNotations.
Local Open Scope nat_scope.

Fixpoint qpow (g : Q) (n : nat) : Q := match n with 0 => 1%Q | S n => (g * qpow g n)%Q end.
(** [c_n + g * c_(n-1) + ... + g^(n-1) * c_1] *)
Definition discounted (g : Q) (cs : list Q) : Q :=
  fold_right Qplus 0%Q (map (fun i => (qpow g i * nth i (rev cs) 0)%Q) (seq 0 (length cs))).
(** The costs that a history of updates holds for one operator. *)
Definition costs_of (o : op) (hist : list (op * Q)) : list Q := map snd (filter (fun h => Nat.eqb (fst h) o) hist).

(** The node at the end of a path of identifiers (an empty node if there is none). *)
Fixpoint node_at (n : qnode) (path : list qid) : qnode :=
  match path with [] => n | i :: path => node_at (match dget (children n) i with Some c => c | None => QNode [] [] None end) path end.

Definition smaller (tlt : tab -> tab -> bool) (a b : tab) : tab := if tlt b a then b else a.
Definition larger (tlt : tab -> tab -> bool) (a b : tab) : tab := if tlt b a then a else b.
(** A linear plan without further nodes: its tables in the order they are joined (the first two sorted) and its joins. *)
Inductive linear_plan (tlt : tab -> tab -> bool) : plan -> list tab -> list (op * Q) -> Prop :=
| lin_base o c a b : linear_plan tlt (PJoin o c (PScan a) (PScan b)) [smaller tlt a b; larger tlt a b] [(o, c)]
| lin_outer o c p t ts js : linear_plan tlt p ts js -> linear_plan tlt (PJoin o c p (PScan t)) (ts ++ [t]) (js ++ [(o, c)])
| lin_inner o c p t ts js : linear_plan tlt p ts js -> linear_plan tlt (PJoin o c (PScan t) p) (ts ++ [t]) (js ++ [(o, c)]).
(** A left-deep join tree. *)
Inductive left_deep (tlt : tab -> tab -> bool) : jtree -> list tab -> Prop :=
| ld_base a b : left_deep tlt (TJoin (TScan a) (TScan b)) [smaller tlt a b; larger tlt a b]
| ld_step p t ts : left_deep tlt p ts -> left_deep tlt (TJoin p (TScan t)) (ts ++ [t]).
(** The identifier of a table. *)
Definition table_id (filter_aware : bool) (filt : tab -> option nat) (t : tab) : qid :=
  ([(fst t, 0)], if filter_aware then filt t else None).
