(** C47, C48, C69: benchmark results. *)
From Coq Require Import List Bool Arith Lia.
From Verif Require Import PyBase Bench_model Bench_spec Bench_proofs.
Import ListNotations.

(** Two queries 7 and 8; the second one times out in its second repetition, fails in its first. *)
Definition mixed (w l r : nat) : execres := if l =? 7 then XOk (10 * w + r) else if r =? 0 then XFail 3 else XTimeout.
Definition none_opt (w l : nat) : optres := ONone.
(** Query 8 cannot be optimized. *)
Definition bad_opt (w l : nat) : optres := if l =? 8 then OFail 5 else OOk (100 + l).

(** C47: with error_action "log" there is exactly one row per execution that is due, in order, numbered consecutively -- as long as
    the query preparation works, and no timeouts meet online training. *)
Theorem C47_log_partial : forall reps output callback learning opt_out exec_out wreps order,
  (forall w l r, exec_out w l r <> XPrep) -> (learning = true -> forall w l r, exec_out w l r <> XTimeout) -> (exists w, 1 <= w <= wreps /\ order w <> []) ->
  exists rows f, execute_workload ALog reps output callback learning opt_out exec_out wreps order = Ok (rows, f) /\
    Forall2 (describes opt_out exec_out) (slots wreps reps order) rows /\ map r_index rows = seq 1 (length (slots wreps reps order)).
Proof.
  intros reps output callback learning opt_out exec_out wreps order Hp Hl Hne. destruct (log_total ALog reps output callback learning opt_out exec_out wreps order eq_refl Hp Hl Hne) as (rows & f & E & Hd & Hi & _). eauto.
Qed.
Print Assumptions C47_log_partial.
Example C47_log_case : let order := (fun w => if w =? 1 then [7; 8] else [8; 7]) in
  slots 2 2 order = [(1, 7, 0); (1, 7, 1); (1, 8, 0); (1, 8, 1); (2, 8, 0); (2, 8, 1); (2, 7, 0); (2, 7, 1)] /\
  rmap fst (execute_workload ALog 2 false false false none_opt mixed 2 order) =
    Ok [mkrow 1 7 1 1 SOk 0 (Some 10) None; mkrow 2 7 1 2 SOk 0 (Some 11) None; mkrow 3 8 1 1 SExecErr 3 None None; mkrow 4 8 1 2 STimeout 0 None None;
        mkrow 5 8 2 1 SExecErr 3 None None; mkrow 6 8 2 2 STimeout 0 None None; mkrow 7 7 2 1 SOk 0 (Some 20) None; mkrow 8 7 2 2 SOk 0 (Some 21) None].
Proof. split; reflexivity. Qed.
(** C47 fails for an empty workload (and for no repetitions): there is nothing to concatenate. *)
Theorem C47_empty_refuted : execute_workload ALog 1 false false false none_opt mixed 1 (fun _ => []) = Raise ValueError.
Proof. reflexivity. Qed.
Print Assumptions C47_empty_refuted.
(** C47 fails if the preparation of one query fails: all results are lost. *)
Theorem C47_preparation_refuted : execute_workload ALog 1 false false false none_opt (fun w l r => if l =? 9 then XPrep else XOk 0) 1 (fun _ => [7; 8; 9]) = Raise OtherError.
Proof. reflexivity. Qed.
Print Assumptions C47_preparation_refuted.
(** C47 fails if a query times out while the optimizer is trained online: all results are lost. *)
Theorem C47_timeout_refuted : execute_workload ALog 1 false false true (fun _ l => OOk l) (fun w l r => if l =? 8 then XTimeout else XOk 0) 1 (fun _ => [7; 8; 9]) = Raise AssertionError.
Proof. reflexivity. Qed.
Print Assumptions C47_timeout_refuted.

(** C48: with error_action "ignore", exactly the executions that did not fail are reported, in order and with increasing indices --
    provided all executions of a query fail or none does, and at least one query could be optimized. *)
Theorem C48_ignore_partial : forall reps output callback learning opt_out exec_out wreps order,
  (forall w l r, exec_out w l r <> XPrep) -> (learning = true -> forall w l r, exec_out w l r <> XTimeout) ->
  (forall w l, (forall r, exists e, exec_out w l r = XFail e) \/ (forall r e, exec_out w l r <> XFail e)) ->
  (exists w l, 1 <= w <= wreps /\ In l (order w) /\ forall e, opt_out w l <> OFail e) ->
  exists rows f, execute_workload AIgnore reps output callback learning opt_out exec_out wreps order = Ok (rows, f) /\
    Forall2 (describes opt_out exec_out) (filter (fun x => negb (failed opt_out exec_out x)) (slots wreps reps order)) rows /\ increasing (map r_index rows).
Proof.
  intros reps output callback learning opt_out exec_out wreps order Hp Hl Hu Hne. apply (ign_total AIgnore); auto.
Qed.
Print Assumptions C48_ignore_partial.
(** Indices have gaps after a query that could not be optimized. *)
Example C48_ignore_case : rmap fst (execute_workload AIgnore 2 false false false bad_opt (fun w l r => if l =? 9 then XFail 1 else XOk r) 1 (fun _ => [7; 8; 9; 6])) =
  Ok [mkrow 1 7 1 1 SOk 0 (Some 0) (Some 107); mkrow 2 7 1 2 SOk 0 (Some 1) (Some 107); mkrow 5 6 1 1 SOk 0 (Some 0) (Some 106); mkrow 6 6 1 2 SOk 0 (Some 1) (Some 106)].
Proof. reflexivity. Qed.
(** C48 for a single repetition per query: the condition on the executions is void. *)
Theorem C48_single_partial : forall output callback learning opt_out exec_out wreps order,
  (forall w l r, exec_out w l r <> XPrep) -> (learning = true -> forall w l r, exec_out w l r <> XTimeout) ->
  (exists w l, 1 <= w <= wreps /\ In l (order w) /\ forall e, opt_out w l <> OFail e) ->
  exists rows f, execute_workload AIgnore 1 output callback learning opt_out (fun w l _ => exec_out w l 0) wreps order = Ok (rows, f) /\
    Forall2 (describes opt_out (fun w l _ => exec_out w l 0)) (filter (fun x => negb (failed opt_out (fun w l _ => exec_out w l 0) x)) (slots wreps 1 order)) rows /\ increasing (map r_index rows).
Proof.
  intros output callback learning opt_out exec_out wreps order Hp Hl Hne. apply C48_ignore_partial; auto. intros w l. destruct (exec_out w l 0) as [v| |e|]; [right|right|left|right]; try discriminate. eauto.
Qed.
Print Assumptions C48_single_partial.
(** C48 fails if some but not all executions of a query fail: the columns have different lengths and all results are lost. *)
Theorem C48_mixed_refuted : execute_workload AIgnore 2 false false false none_opt mixed 1 (fun _ => [7; 8]) = Raise ValueError.
Proof. reflexivity. Qed.
Print Assumptions C48_mixed_refuted.
(** C48 fails if no query can be optimized. *)
Theorem C48_all_refuted : execute_workload AIgnore 1 false false false bad_opt mixed 3 (fun _ => [8]) = Raise ValueError.
Proof. reflexivity. Qed.
Print Assumptions C48_all_refuted.
(** C48: a failed repetition hands the previous result to the callback (and writes it) once more. *)
Theorem C48_stale_refuted : exists t, run_queries AIgnore 3 true true false none_opt (fun _ _ r => if r =? 1 then XFail 3 else XOk r) 1 start [7] = Ok t /\
  f_calls (t_eff t) = [(7, SOk, Some 0); (7, SOk, Some 0); (7, SOk, Some 2)] /\ map r_qrep (f_out (t_eff t)) = [1; 1; 2] /\ map r_result (f_out (t_eff t)) = [Some 0; Some 0; Some 2].
Proof. eexists. split; [reflexivity|]. repeat split; reflexivity. Qed.
Print Assumptions C48_stale_refuted.

(** C69: results written progressively and handed to the callback, with error_action "log": everything but failed executions is
    written, provided optimizations do not fail or queries are executed once. *)
Theorem C69_progressive_partial : forall reps callback learning opt_out exec_out wreps order,
  (forall w l r, exec_out w l r <> XPrep) -> (learning = true -> forall w l r, exec_out w l r <> XTimeout) -> (exists w, 1 <= w <= wreps /\ order w <> []) ->
  reps = 1 \/ (forall w l e, opt_out w l <> OFail e) ->
  exists rows f, execute_workload ALog reps true callback learning opt_out exec_out wreps order = Ok (rows, f) /\
    f_out f = filter (fun y => match r_status y with SExecErr => false | _ => true end) rows.
Proof.
  intros reps callback learning opt_out exec_out wreps order Hp Hl Hne Hr. destruct (log_total ALog reps true callback learning opt_out exec_out wreps order eq_refl Hp Hl Hne) as (rows & f & E & _ & _ & Ho & _). exists rows, f. split; [exact E|]. rewrite (Ho Hr). reflexivity.
Qed.
Print Assumptions C69_progressive_partial.
(** C69: if nothing fails, the rows written are the rows returned. *)
Theorem C69_no_failures_partial : forall reps callback learning opt_out exec_out wreps order,
  (forall w l r, exec_out w l r <> XPrep) -> (learning = true -> forall w l r, exec_out w l r <> XTimeout) -> (exists w, 1 <= w <= wreps /\ order w <> []) ->
  (forall w l e, opt_out w l <> OFail e) -> (forall w l r e, exec_out w l r <> XFail e) ->
  exists rows f, execute_workload ALog reps true callback learning opt_out exec_out wreps order = Ok (rows, f) /\ f_out f = rows.
Proof.
  intros reps callback learning opt_out exec_out wreps order Hp Hl Hne Ho Hx. destruct (log_total ALog reps true callback learning opt_out exec_out wreps order eq_refl Hp Hl Hne) as (rows & f & E & Hd & _ & Hf & _). exists rows, f. split; [exact E|]. rewrite (Hf (or_intror Ho)). clear - Hd Ho Hx Hp.
  induction Hd as [|[[w l] r] y sl rows Hy Hd IH]; [reflexivity|]. cbn [filter]. destruct Hy as (_ & _ & _ & Hy & _). unfold report in Hy. assert (Hw : written y = true).
  { unfold written. specialize (Ho w l). specialize (Hx w l r). specialize (Hp w l r). destruct (opt_out w l) as [|q|e]; [| |now destruct (Ho e)]; (destruct (exec_out w l r) as [v| |e|]; [| |now destruct (Hx e)|contradiction]; injection Hy as -> _ _; reflexivity). }
  rewrite Hw. now f_equal.
Qed.
Print Assumptions C69_no_failures_partial.
(** C69: the callback gets exactly the executions that finished or timed out, once each, in order. *)
Theorem C69_callback : forall reps output learning opt_out exec_out wreps order,
  (forall w l r, exec_out w l r <> XPrep) -> (learning = true -> forall w l r, exec_out w l r <> XTimeout) -> (exists w, 1 <= w <= wreps /\ order w <> []) ->
  exists rows f, execute_workload ALog reps output true learning opt_out exec_out wreps order = Ok (rows, f) /\
    f_calls f = map (fun y => (r_label y, r_status y, r_result y)) (filter (fun y => match r_status y with SOk | STimeout => true | _ => false end) rows).
Proof.
  intros reps output learning opt_out exec_out wreps order Hp Hl Hne. destruct (log_total ALog reps output true learning opt_out exec_out wreps order eq_refl Hp Hl Hne) as (rows & f & E & _ & _ & _ & Hc). eauto.
Qed.
Print Assumptions C69_callback.
Example C69_case : rmap (fun x => f_calls (snd x)) (execute_workload ALog 2 true true false none_opt mixed 1 (fun _ => [7; 8])) = Ok [(7, SOk, Some 10); (7, SOk, Some 11); (8, STimeout, None)].
Proof. reflexivity. Qed.
(** C69 fails: failed executions are returned but never written. *)
Theorem C69_execution_refuted : exists rows f, execute_workload ALog 1 true false false none_opt mixed 1 (fun _ => [7; 8]) = Ok (rows, f) /\ length rows = 2 /\ map r_label (f_out f) = [7].
Proof. eexists _, _. split; [reflexivity|]. split; reflexivity. Qed.
Print Assumptions C69_execution_refuted.
(** C69 fails: of the repetitions of a query that could not be optimized, only the last one is written. *)
Theorem C69_optimization_refuted : exists rows f, execute_workload ALog 3 true false false bad_opt mixed 1 (fun _ => [8]) = Ok (rows, f) /\ map r_index rows = [1; 2; 3] /\ map r_index (f_out f) = [3].
Proof. eexists _, _. split; [reflexivity|]. split; reflexivity. Qed.
Print Assumptions C69_optimization_refuted.
