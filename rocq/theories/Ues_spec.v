(** What the UES bounds are bounds of: sizes and value frequencies of joins of relations. *)
From Coq Require Import List Bool Arith ZArith.
From Verif Require Import PyBase Card_model Ues_model.
Import ListNotations.

(** A row assigns values to columns; [None] is NULL. *)
Definition row := col -> option nat.
Definition rel := list row.

(** How often a value occurs in a column. *)
Definition occurrences (c : col) (v : nat) (R : rel) : nat := length (filter (fun r => deqb (r c) (Some v)) R).

(** SQL equality of two columns in a row: true only for equal values that are not NULL. *)
Definition sql_eq (r : row) (p : col * col) : bool :=
  match r (fst p), r (snd p) with Some x, Some y => Nat.eqb x y | _, _ => false end.
(** The row of a join: the columns of table [t] come from [s], the others from [r]. *)
Definition combine_rows (t : nat) (r s : row) : row := fun c => if Nat.eqb (fst c) t then s c else r c.
(** The join of [R] with the rows [S] of table [t] under a conjunction of equalities. *)
Definition join (t : nat) (cond : list (col * col)) (R S : rel) : rel :=
  filter (fun r => forallb (sql_eq r) cond) (map (fun rs => combine_rows t (fst rs) (snd rs)) (list_prod R S)).

(** The integer a frequency or bound stands for. *)
Definition int_of (x : operand) : option Z := match x with OCard (CVal z) => Some z | ONum (NInt z) => Some z | _ => None end.
(** [b] bounds the number of rows, [f] the occurrences of any value. *)
Definition bounds_rows (b : card) (R : rel) : Prop := exists z, b = CVal z /\ (Z.of_nat (length R) <= z < 2 ^ 53)%Z.
Definition bounds_freq (f : operand) (c : col) (R : rel) : Prop :=
  exists z, int_of f = Some z /\ (0 <= z < 2 ^ 53)%Z /\ forall v, (Z.of_nat (occurrences c v R) <= z)%Z.

(** The statistics for a table and its column, as integers. *)
Definition known_base (st : stats) (t : nat) (z : Z) : Prop := dget (base_est st) t = Some (CVal z).
Definition known_bound (st : stats) (t : nat) (z : Z) : Prop :=
  dget (upper_bounds st) t = Some (CVal z) \/ (dget (upper_bounds st) t = None /\ known_base st t z).
Definition known_freq (st : stats) (c : col) (z : Z) : Prop := exists f, dget (freqs st) c = Some f /\ int_of f = Some z.

(** All statistics of a column are correct for the rows [R] of its table. *)
Definition correct_input (st : stats) (c : col) (R : rel) (base bound freq : Z) : Prop :=
  known_base st (fst c) base /\ (Z.of_nat (length R) <= base < 2 ^ 53)%Z /\
  known_bound st (fst c) bound /\ (Z.of_nat (length R) <= bound < 2 ^ 53)%Z /\
  known_freq st c freq /\ (0 <= freq < 2 ^ 53)%Z /\ (forall v, (Z.of_nat (occurrences c v R) <= freq)%Z).

(** A predicate connects two tables. *)
Definition connects (t1 t2 : nat) (p : col * col) : Prop :=
  (fst (fst p) = t1 /\ fst (snd p) = t2) \/ (fst (fst p) = t2 /\ fst (snd p) = t1).

(** A frequency that is a plain integer. *)
Definition num_at (fr : dict col operand) (c : col) (z : Z) : Prop := dget fr c = Some (ONum (NInt z)).
(** [c] belongs to a join predicate of the query that connects two different tables of [ts]. *)
Definition inner_column (query_joins : list (col * col)) (ts : nat -> Prop) (c : col) : Prop :=
  exists p, In p query_joins /\ (c = fst p \/ c = snd p) /\ ts (fst (fst p)) /\ ts (fst (snd p)) /\ fst (fst p) <> fst (snd p).
(** [c] is a column of the join condition. *)
Definition cond_column (cond : list (col * col)) (c : col) : Prop := exists p, In p cond /\ (c = fst p \/ c = snd p).
(** [a] is the side of the predicate on other tables, [b] the side on table [t]. *)
Definition sides t (p : col * col) (a b : col) : Prop := fst a <> t /\ fst b = t /\ (p = (a, b) \/ p = (b, a)).
