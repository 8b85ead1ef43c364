(** What training data and the training of stages should do. *)
From Coq Require Import List Bool Arith.
From Verif Require Import PyBase Train_model.
Import ListNotations.

Section Data.
  Context {V : Type}.
  (** The value of a feature in a row, and the table of the values of some features. *)
  Definition feat (t : tdata V) (row : list (option V)) (f : nat) : option V :=
    match dget (td_map t) f with Some c => cell (fcols (td_df t)) row c | None => None end.
  Definition view (t : tdata V) (fs : list nat) : list (list (option V)) := map (fun row => map (feat t row) fs) (frows (td_df t)).
  (** Column names are unique, all rows have a value for each column, and all features have a column. *)
  Definition wf_frame (f : frame V) : Prop := NoDup (fcols f) /\ forall r, In r (frows f) -> length r = length (fcols f).
  Definition wf_data (t : tdata V) : Prop :=
    wf_frame (td_df t) /\ dwf (td_map t) /\ forall f c, dget (td_map t) f = Some c -> In c (fcols (td_df t)).
  (** The features of [t] are in the same columns of [d], and these names are not used for other features. *)
  Definition alike (t d : tdata V) : Prop :=
    forall f c, dget (td_map t) f = Some c -> dget (td_map d) f = Some c /\ (dget (td_map d) c = None \/ dget (td_map d) c = Some c).
End Data.

(** Without repetitions, first occurrences. *)
Fixpoint firsts (seen l : list nat) : list nat :=
  match l with [] => [] | x :: r => if mem x seen then firsts seen r else x :: firsts (x :: seen) r end.
