(** The join graph as a set of joined tables, one per copy. *)
From Coq Require Import List Bool Arith.
From Verif Require Import PyBase JG_model.
Import ListNotations.

Section Spec.
  Context {T C : Type} {ET : EqD T}.
  (** The number of graphs and the tables that were marked in each of them. *)
  Definition sets : Type := nat * (nat -> list T).
  Definition one_empty : sets := (1, fun _ => []).
  Definition marks (tables : list T) (s : sets) (o : @jop T C) : sets :=
    let '(n, f) := s in
    match o with
    | Mark i t _ => (n, fun j => if (j =? i) && mem t tables then t :: f j else f j)
    | Clone i => if i <? n then (S n, fun j => if j =? n then f i else f j) else s
    end.
  (** Undirected edges of the query between two tables. *)
  Definition joined_by (es : list (T * T * list (C * C))) (s t : T) (p : list (C * C)) : Prop := In (s, t, p) es \/ In (t, s, p) es.
  (** Column pairs between columns of the graph. *)
  Definition known (es : list (T * T * list (C * C))) (edge : list (C * C)) : Prop :=
    forall p, In p edge -> exists e q r, In e es /\ In q (snd e) /\ In r (snd e) /\ (fst p = fst q \/ fst p = snd q) /\ (snd p = fst r \/ snd p = snd r).
End Spec.
