(** Property theorems for C43 (util/misc.py DependencyGraph). *)
From Coq Require Import List Bool Arith Lia.
From Verif Require Import PyBase Num_model DepGraph_proofs.
Import ListNotations.

(** C43, full claim "every task only after all tasks it depends on": false. Task 3 depends on 1 and 2, task 2 on 1;
    the iteration hands out 1, 3, 2. *)
Theorem C43_dependencies_first_refuted : exists (ts : tasks) (rank : nat -> nat) fuel out i j n d,
  NoDup (map fst ts) /\ (forall n d, depends ts n d -> rank d < rank n) /\
  dg_iter fuel (build ts) = Ok out /\ depends ts n d /\ nth_error out i = Some n /\ nth_error out j = Some d /\ i < j.
Proof.
  exists [(2, [1]); (3, [1; 2])], (fun n => n), 20, [1; 3; 2], 1, 2, 3, 2.
  split; [repeat constructor; simpl; intuition discriminate|]. split.
  - intros n d (ds & Hin & Hd). simpl in Hin. destruct Hin as [E|[E|[]]]; injection E as <- <-; simpl in Hd; lia.
  - repeat split; [exists [1; 2]; simpl; auto|lia].
Qed.
Print Assumptions C43_dependencies_first_refuted.

(** C43, full claim "every task exactly once": false if a task is registered with and without dependencies. *)
Theorem C43_each_task_once_refuted : exists (ts : tasks) fuel out, dg_iter fuel (build ts) = Ok out /\ ~ NoDup out.
Proof.
  exists [(2, [1]); (2, [])], 20, [1; 2; 2]. split; [reflexivity|].
  intros H. inversion H as [|? ? _ H2]; subst. inversion H2 as [|? ? H3 _]; subst. apply H3. simpl. auto.
Qed.
Print Assumptions C43_each_task_once_refuted.

(** C43, what holds: for acyclic tasks that are each registered once, every task is handed out exactly once, whatever
    the iteration order of the source set. Missing: the order (see the refutation). *)
Theorem C43_each_task_once_partial : forall (ts : tasks) (rank : nat -> nat), NoDup (map fst ts) ->
  (forall n d, depends ts n d -> rank d < rank n) ->
  forall order, NoDup order -> (forall x, In x order <-> In x (dg_sources (build ts))) ->
  exists fuel out, dg_iter_from fuel (build ts) order = Ok out /\ NoDup out /\ (forall x, In x out <-> mentioned ts x).
Proof. exact dg_iter_once. Qed.
Print Assumptions C43_each_task_once_partial.
Example C43_ex : let ts := [(4, [2; 3]); (3, [1]); (2, [1]); (9, [])] in
  NoDup (map fst ts) /\ (forall n d, depends ts n d -> d < n) /\ dg_iter 20 (build ts) = Ok [1; 2; 4; 3; 9].
Proof.
  simpl. split; [repeat constructor; simpl; intuition discriminate|]. split; [|reflexivity].
  intros n d (ds & Hin & Hd). simpl in Hin. destruct Hin as [E|[E|[E|[E|[]]]]]; injection E as <- <-; simpl in Hd; lia.
Qed.
