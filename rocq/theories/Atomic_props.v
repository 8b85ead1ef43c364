(** Property theorems for C40 (util/num.py AtomicInt). *)
From Coq Require Import List Bool Arith ZArith Lia.
From Verif Require Import PyBase Atomic_model Atomic_proofs.
Import ListNotations.
Local Open Scope Z_scope.

(** C40: no update is lost: whatever the interleaving, the final value is the start value plus all increments. *)
Theorem C40_no_lost_update : forall v0 progs sched s,
  (forall p o, In p progs -> In o p -> exists b, o = Increment b \/ o = Get) ->
  run (init v0 progs) sched = Some s -> finished s -> s_value s = v0 + zsum (map incr_by (concat progs)).
Proof. exact increments_sum. Qed.
Print Assumptions C40_no_lost_update.
Example C40_ex : exists sched s, run (init 10 [[Increment 1; Get]; [Increment 5]]) sched = Some s /\ finished s /\ s_value s = 16.
Proof.
  exists [0; 1; 0; 0; 0; 0; 1; 0; 1; 1; 1; 0; 0; 0; 0]%nat. eexists. split; [vm_compute; reflexivity|]. split; [|reflexivity].
  intros t [<-|[<-|[]]]; split; reflexivity.
Qed.

(** C40: linearizability of increment / get / set / reset: the outcome of every finished run (final value and all
    values read) is that of executing the operations one after the other in some order that respects the order of
    each thread. *)
Theorem C40_linearizable : forall v0 progs sched s, (forall p o, In p progs -> In o p -> o <> Pos) ->
  run (init v0 progs) sched = Some s -> finished s ->
  exists h, s_value s = seq_value v0 h /\ (forall e, In e h -> (fst e < length progs)%nat) /\
    (forall i, (i < length progs)%nat -> nth_error progs i = Some (ops_of i h) /\
               exists t, nth_error (s_threads s) i = Some t /\ t_out t = seq_out v0 h i).
Proof. exact finished_linearized. Qed.
Print Assumptions C40_linearizable.

(** C40, full claim "every operation eventually finishes": false for unary plus, which waits for the lock it holds. *)
Theorem C40_always_finishes_refuted : exists v0 progs sched s, run (init v0 progs) sched = Some s /\
  ~ finished s /\ forall i, step s i = None.
Proof.
  exists 3, [[Pos]], [0; 0]%nat, (ST 3 (Some 0%nat) [TH [] [Acq; Load; Rel; Ret; Rel] 0 []]). split; [reflexivity|]. split.
  - intros H. destruct (H (TH [] [Acq; Load; Rel; Ret; Rel] 0 [])) as [_ E]; [simpl; auto|discriminate].
  - intros [|[|i]]; reflexivity.
Qed.
Print Assumptions C40_always_finishes_refuted.

(** Without unary plus: no reachable state is stuck before all threads are finished, and schedules are finite. Missing:
    programs that use unary plus. *)
Theorem C40_always_finishes_partial : forall v0 progs sched s, (forall p o, In p progs -> In o p -> o <> Pos) ->
  run (init v0 progs) sched = Some s ->
  (length sched <= total (init v0 progs))%nat /\ (finished s \/ exists i s', step s i = Some s').
Proof.
  exact (fun v0 progs sched s H R => conj (Nat.le_trans _ _ _ (Nat.le_add_r _ _) (run_bounded sched _ s R)) (deadlock_free v0 progs sched s H R)).
Qed.
Print Assumptions C40_always_finishes_partial.

(** Arithmetic with an atomic integer on the right-hand side: false for [&]. *)
Theorem C40_reflected_operators_refuted : exists o self other, atomic_rop o self other <> int_op o other self.
Proof. exists OpAnd, 5, 3. vm_compute. discriminate. Qed.
Print Assumptions C40_reflected_operators_refuted.
Theorem C40_operators_partial : forall o self other,
  atomic_op o self other = int_op o self other /\ (o <> OpAnd -> atomic_rop o self other = int_op o other self).
Proof. exact (fun o self other => conj eq_refl (fun H => match o return o <> OpAnd -> atomic_rop o self other = int_op o other self with OpAnd => fun H => match H eq_refl with end | _ => fun _ => eq_refl end H)). Qed.
Print Assumptions C40_operators_partial.
