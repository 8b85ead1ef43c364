(** What deleting rows means. *)
From Coq Require Import String List Bool Arith ZArith QArith.
From Verif Require Import PyBase Shift_model.
Import ListNotations.
Open Scope nat_scope.

(** the rows of a table, in their order, are either gone or kept *)
Inductive splits : list row -> list row -> list row -> Prop :=
| sp_nil : splits [] [] []
| sp_gone r rs g k : splits rs g k -> splits (r :: rs) (r :: g) k
| sp_kept r rs g k : splits rs g k -> splits (r :: rs) g (r :: k).

(** a database is another one, of which only the rows of one table are different *)
Definition rows_replaced (d : db) (k : string * string) (rs : list row) (d' : db) : Prop :=
  (forall k', k' <> k -> find_table d' k' = find_table d k')
  /\ exists t, find_table d k = Some t /\ find_table d' k = Some (mkT (t_cols t) (t_pk t) rs (t_seq t)).

(** the rows of a table are identified by a column *)
Definition keyed (c : string) (rs : list row) : Prop := NoDup (map (fun r => get r c) rs) /\ Forall (fun r => get r c <> None) rs.

(** the number of rows that was asked for, of a table with a number of rows *)
Definition asks_for (n_rows : option Z) (row_pct : option Q) (total : nat) (n : nat) : Prop :=
  (n_rows = Some (Z.of_nat n) /\ row_pct = None /\ 0 < n)
  \/ (exists p, n_rows = None /\ row_pct = Some p /\ (0 < p)%Q /\ (p < 1)%Q
       /\ (inject_Z (Z.of_nat n) - (1 # 2) <= p * inject_Z (Z.of_nat total))%Q
       /\ (p * inject_Z (Z.of_nat total) <= inject_Z (Z.of_nat n) + (1 # 2))%Q).

(** smaller and larger values with the NULLs at one of the ends *)
Inductive comes_before (asc nulls_first : bool) : option nat -> option nat -> Prop :=
| cb_asc x y : asc = true -> x < y -> comes_before asc nulls_first (Some x) (Some y)
| cb_desc x y : asc = false -> y < x -> comes_before asc nulls_first (Some x) (Some y)
| cb_first x : nulls_first = true -> comes_before asc nulls_first None (Some x)
| cb_last x : nulls_first = false -> comes_before asc nulls_first (Some x) None.
