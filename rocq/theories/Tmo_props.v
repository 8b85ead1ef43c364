(** C52: the timeout executor reports the right outcome for every worker behaviour. *)
From Coq Require Import List Bool Arith Lia.
From Verif Require Import PyBase Tmo_model Tmo_spec.
Import ListNotations.

Section Props.
  Context {err res_ : Type}.
  Implicit Types (v : env err res_).

  Ltac crush v :=
    unfold execute_query, worker, worker_ctl, prep, run_query, await_result, failing, finish in *;
    destruct v as [c p x f cl]; cbn [e_connect e_prepare e_execute e_fetch e_close] in *;
    destruct c as [d1 pid|d1 e1 [|]|d1|]; cbn in *; try discriminate;
    try (destruct p as [d2 []|d2 e2 [|]|d2|]; cbn in *; try discriminate);
    try (destruct x as [d3 []|d3 e3 [|]|d3|]; cbn in *; try discriminate);
    try (destruct f as [d4 r4|d4 e4 [|]|d4|]; cbn in *; try discriminate);
    repeat match goal with H : context [?a <=? ?b] |- _ => destruct (Nat.leb_spec a b); cbn in *; try discriminate end;
    try (destruct cl as [d5 []|d5 e5 b5|d5|]; cbn in *; try discriminate).

  (** C52: a query that ends in time and whose result can be fetched is answered by that result; nothing is cancelled. *)
  Theorem C52_result : forall v timeout delay t1 pid t2 t3 t4 r, e_connect v = Done t1 pid -> e_prepare v = Done t2 tt -> e_execute v = Done t3 tt -> e_fetch v = Done t4 r -> e_close v <> Never ->
    t3 <= timeout -> execute_query v timeout delay = mkrun (Returned r) (Some (Some t3)) [] false.
  Proof.
    intros v timeout delay t1 pid t2 t3 t4 r H1 H2 H3 H4 Hc Ht. destruct v as [c p x f cl]. cbn in *. subst. unfold execute_query, worker. cbn.
    rewrite (proj2 (Nat.leb_le (t1 + t2 + t3) (t1 + t2 + delay + timeout))) by lia. cbn. unfold finish. cbn. destruct cl; try reflexivity. contradiction.
  Qed.
  (** C52: TimeoutError is raised exactly if the query was started and did not end in time; then its backend is cancelled, the
      worker is terminated and the timeout is the recorded runtime.  A late main process may let a query run longer. *)
  Theorem C52_timeout_sound : forall v timeout delay, r_outcome (execute_query v timeout delay) = RaisedTimeout ->
    done (e_connect v) /\ done (e_prepare v) /\ ~ ends_within v timeout /\
    r_cancelled (execute_query v timeout delay) = backend v /\ r_terminated (execute_query v timeout delay) = true /\ r_runtime (execute_query v timeout delay) = Some (Some timeout).
  Proof.
    intros v timeout delay H. unfold ends_within, backend, done. crush v;
      (split; [eauto|split; [eauto|split; [|repeat split; reflexivity]]]); intros (d0 & Hd0 & [E|(e0 & E)]); try discriminate; injection E; intros; lia.
  Qed.
  Theorem C52_timeout_complete : forall v timeout delay, done (e_connect v) -> done (e_prepare v) -> ~ ends_within v (timeout + delay) ->
    execute_query v timeout delay = mkrun RaisedTimeout (Some (Some timeout)) (backend v) true.
  Proof.
    intros v timeout delay (d1 & pid & H1) (d2 & [] & H2) Hn. destruct v as [c p x f cl]. unfold ends_within in Hn. cbn in *. subst. unfold execute_query, worker. cbn.
    destruct x as [d3 []|d3 e3 [|]|d3|]; cbn; try reflexivity.
    - assert (timeout + delay < d3) by (apply Nat.nle_gt; intros Hle; apply Hn; exists d3; split; [exact Hle|now left]). destruct (match f with Done d4 r => _ | _ => _ end) as [es gone]. cbn.
      replace (d1 + d2 + d3 <=? d1 + d2 + delay + timeout) with false by (symmetry; apply Nat.leb_gt; lia). reflexivity.
    - assert (timeout + delay < d3) by (apply Nat.nle_gt; intros Hle; apply Hn; exists d3; split; [exact Hle|right; eauto]).
      replace (d1 + d2 + d3 <=? d1 + d2 + delay + timeout) with false by (symmetry; apply Nat.leb_gt; lia). reflexivity.
  Qed.
  (** C52: an error of the worker that is reported is the first one, and the backend is cancelled as soon as there is one. *)
  Theorem C52_error_sound : forall v timeout delay e, r_outcome (execute_query v timeout delay) = Raised e -> first_error v e /\ r_cancelled (execute_query v timeout delay) = backend v /\ r_runtime (execute_query v timeout delay) = Some None.
  Proof.
    intros v timeout delay e H. unfold backend. crush v; injection H as <-; (split; [|split; reflexivity]);
      first [apply in_connect; cbn; unfold done, raises; now eauto|apply in_prepare; cbn; unfold done, raises; now eauto|apply in_execute; cbn; unfold done, raises; now eauto|apply in_fetch; cbn; unfold done, raises; now eauto].
  Qed.
  (** C52: a result is only ever the one that was fetched, after executing the query. *)
  Theorem C52_result_sound : forall v timeout delay r, r_outcome (execute_query v timeout delay) = Returned r ->
    exists t3 t4, done (e_connect v) /\ done (e_prepare v) /\ e_execute v = Done t3 tt /\ e_fetch v = Done t4 r /\ t3 <= timeout + delay /\ execute_query v timeout delay = mkrun (Returned r) (Some (Some t3)) [] false.
  Proof.
    intros v timeout delay r H. unfold done. crush v; injection H as <-; exists d3, d4; repeat split; eauto; lia.
  Qed.
  (** C52: the protocol errors never occur, whatever happens to the worker. *)
  Theorem C52_protocol : forall v timeout delay, r_outcome (execute_query v timeout delay) <> RaisedState.
  Proof.
    intros v timeout delay H. crush v.
  Qed.
  (** C52: the executor always returns, if the worker does not die and only the query itself may run forever. *)
  Theorem C52_returns_partial : forall v timeout delay, robust v -> r_outcome (execute_query v timeout delay) <> Hangs.
  Proof.
    intros v timeout delay (H1 & H2 & H3 & H4 & H5) H. unfold ends in *. crush v; try contradiction; try (specialize (H5 _ _ _ eq_refl); discriminate).
  Qed.
  (** C52: for arbitrary event sequences, the state machine accepts a result only at the end of the protocol. *)
  Theorem C52_traces : forall (p : list (nat * event err res_)) timeout delay r t, snd (worker_ctl p timeout delay) = Ended (Success r t) ->
    exists t1 pid t2 t3 t4 rest, p = (t1, Connected pid) :: (t2, Ready) :: (t3, Finished) :: (t4, Result r t) :: rest /\ t3 <= t2 + delay + timeout.
  Proof.
    intros p timeout delay r t H. destruct p as [|[t1 [pid|e| | |r0 t0]] p]; cbn in H; try discriminate. unfold prep in H. destruct p as [|[t2 [pid'|e| | |r0 t0]] p]; cbn in H; try discriminate.
    unfold run_query in H. destruct p as [|[t3 ev] p]; [discriminate|]. destruct (Nat.leb_spec t3 (t2 + delay + timeout)) as [Hle|]; [|discriminate]. destruct ev; cbn in H; try discriminate. unfold await_result in H. destruct p as [|[t4 [pid'|e| | |r0 t0]] p]; cbn in H; try discriminate. injection H as -> ->. repeat eexists. exact Hle.
  Qed.
End Props.
Print Assumptions C52_result.
Print Assumptions C52_timeout_sound.
Print Assumptions C52_timeout_complete.
Print Assumptions C52_error_sound.
Print Assumptions C52_result_sound.
Print Assumptions C52_protocol.
Print Assumptions C52_returns_partial.
Print Assumptions C52_traces.

(** A query that takes 5 units, one that is too slow, one that fails while another takes too long. *)
Definition good : env nat nat := mkenv (Done 3 77) (Done 1 tt) (Done 5 tt) (Done 2 42) (Done 1 tt).
Definition slow : env nat nat := mkenv (Done 3 77) (Done 1 tt) Never (Done 2 42) (Done 1 tt).
Definition broken : env nat nat := mkenv (Done 3 77) (Done 1 tt) (Fails 2 9 true) (Done 2 42) (Done 1 tt).
Example C52_cases : execute_query good 5 0 = mkrun (Returned 42) (Some (Some 5)) [] false /\ execute_query good 4 0 = mkrun RaisedTimeout (Some (Some 4)) [77] true /\
  execute_query slow 4 2 = mkrun RaisedTimeout (Some (Some 4)) [77] true /\ execute_query broken 4 2 = mkrun (Raised 9) (Some None) [77] false /\ robust good /\ robust slow /\ robust broken.
Proof. repeat split; cbn; auto; try discriminate; intros d e b H; try discriminate H; now injection H as _ _ <-. Qed.
(** C52 fails: if the worker process is killed while it connects, prepares the query or fetches the result, the executor waits
    forever, with any timeout. *)
Theorem C52_crash_refuted : forall timeout delay,
  r_outcome (execute_query (mkenv (Dies 1) (Done 1 tt) (Done 0 tt) (Done 2 42) (Done 1 tt) : env nat nat) timeout delay) = Hangs /\
  r_outcome (execute_query (mkenv (Done 3 77) (Dies 1) (Done 0 tt) (Done 2 42) (Done 1 tt) : env nat nat) timeout delay) = Hangs /\
  r_outcome (execute_query (mkenv (Done 3 77) (Done 1 tt) (Done 0 tt) (Dies 2) (Done 1 tt) : env nat nat) timeout delay) = Hangs.
Proof. intros timeout delay. repeat split. Qed.
Print Assumptions C52_crash_refuted.
(** C52 fails: a statement that was executed in time, but has no result to fetch, leads to an error (and is cancelled). *)
Theorem C52_no_result_refuted : forall timeout delay, execute_query (mkenv (Done 3 77) (Done 1 tt) (Done 0 tt) (Fails 0 1 true) (Done 1 tt) : env nat nat) timeout delay = mkrun (Raised 1) (Some None) [77] false.
Proof. intros timeout delay. unfold execute_query, worker, worker_ctl, prep, run_query. cbn. reflexivity. Qed.
Print Assumptions C52_no_result_refuted.
