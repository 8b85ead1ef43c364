(** What running queries in parallel should yield. *)
From Coq Require Import List Bool Arith Permutation.
From Verif Require Import PyBase Par_model.
Import ListNotations.

Section Spec.
  Context {Q R : Type}.
  (** All queued queries, in order. *)
  Definition queued (ops : list (@pop Q)) : list Q := flat_map (fun o => match o with Queue q => [q] | Drain _ => [] end) ops.
  (** Every drain waits for everything queued so far, in any order. *)
  Fixpoint complete (n : nat) (ops : list (@pop Q)) : Prop :=
    match ops with [] => True | Queue _ :: ops => complete (S n) ops | Drain order :: ops => Permutation order (seq 0 n) /\ complete n ops end.
  (** The answer to a query if nothing goes wrong: its rows, or none after a timeout. *)
  Definition answer (f : @fate R) : option R := match f with Rows r => Some r | _ => None end.
  Definition fine (f : @fate R) : Prop := match f with Error _ => False | _ => True end.
End Spec.
