(** What a benchmark should report. *)
From Coq Require Import List Bool Arith.
From Verif Require Import Bench_model.
Import ListNotations.

(** The executions that are due: workload repetition (from 1), label, query repetition (from 0). *)
Definition slots (wreps reps : nat) (order : nat -> list nat) : list (nat * nat * nat) :=
  flat_map (fun w => flat_map (fun l => map (fun r => (w, l, r)) (seq 0 reps)) (order w)) (seq 1 wreps).
Section S.
  Context (opt_out : nat -> nat -> optres) (exec_out : nat -> nat -> nat -> execres).
  (** What happened in a slot. *)
  Definition report (x : nat * nat * nat) : status * nat * option nat :=
    let '(w, l, r) := x in
    match opt_out w l with
    | OFail e => (SOptErr, e, None)
    | _ => match exec_out w l r with XOk v => (SOk, 0, Some v) | XTimeout => (STimeout, 0, None) | XFail e => (SExecErr, e, None) | XPrep => (SExecErr, 0, None) end
    end.
  Definition optimized (x : nat * nat * nat) : option nat := let '(w, l, _) := x in match opt_out w l with OOk q => Some q | _ => None end.
  (** The row describes the slot. *)
  Definition describes (x : nat * nat * nat) (y : row) : Prop :=
    let '(w, l, r) := x in
    r_label y = l /\ r_wrep y = w /\ r_qrep y = S r /\ (r_status y, r_reason y, r_result y) = report x /\ r_opt y = optimized x.
  Definition failed (x : nat * nat * nat) : bool := match fst (fst (report x)) with SOptErr | SExecErr => true | _ => false end.
End S.
(** Strictly increasing. *)
Fixpoint increasing (l : list nat) : Prop := match l with [] => True | x :: r => (forall y, In y r -> x < y) /\ increasing r end.
