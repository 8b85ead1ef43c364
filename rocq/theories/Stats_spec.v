(** Specification vocabulary for C32, C33 and C65: columns as lists of values. *)
From Coq Require Import List Bool Arith ZArith QArith Sorting.Sorted Sorting.Permutation.
From Verif Require Import PyBase Stats_model.
Import ListNotations.
Local Open Scope nat_scope.

(** Rows with a value of at most / above [v]. *)
Definition count_le (v : Z) (col : list Z) : nat := List.length (filter (fun x => (x <=? v)%Z) col).
Definition count_gt (v : Z) (col : list Z) : nat := List.length (filter (fun x => (v <? x)%Z) col).
(** The frequencies are the numbers of rows between consecutive bounds, and no row is above the last bound. *)
Definition describes (bounds : list Z) (freqs : list nat) (col : list Z) : Prop :=
  StronglySorted Z.lt bounds /\ List.length bounds = List.length freqs /\ List.length col = nsum freqs /\
  forall i, i < List.length bounds -> count_le (nth i bounds 0%Z) col = nsum (firstn (S i) freqs).
(** The column with the given number of rows per value. *)
Definition expand (l : list (Z * nat)) : list Z := flat_map (fun e => repeat (fst e) (snd e)) l.
(** Descending by frequency, then by value. *)
Definition mcv_desc (a b : mcv) : Prop := snd b < snd a \/ (snd a = snd b /\ (fst b <= fst a)%Z).
