(** Property theorems for util/collections.py: C38 (queues), C42 (powerset, pairs, sliding_window). *)
From Coq Require Import List Bool Arith ZArith Lia Sorted.
From Verif Require Import PyBase Collections_model Collections_spec Collections_proofs.
Import ListNotations.

(** C42: [powerset] yields exactly the sub-collections of its input ... *)
Theorem C42_powerset_all_subsets : forall (T : Type) (l s : list T), In s (powerset l) <-> sublist s l.
Proof. exact @powerset_complete. Qed.
Print Assumptions C42_powerset_all_subsets.

(** ... for every condition on the elements exactly one entry selects precisely the elements that satisfy it ... *)
Theorem C42_powerset_each_subset_once : forall (T : Type) (l : list T) (P : T -> bool), NoDup l ->
  exists! s, In s (powerset l) /\ (forall x, In x s <-> (In x l /\ P x = true)).
Proof. exact @powerset_unique. Qed.
Print Assumptions C42_powerset_each_subset_once.

(** ... no entry is repeated ... *)
Theorem C42_powerset_no_repetition : forall (T : Type) (l : list T), NoDup l -> NoDup (powerset l).
Proof. exact @powerset_NoDup. Qed.
Print Assumptions C42_powerset_no_repetition.
Example C42_ex_nodup : NoDup [7; 3; 5] /\ powerset [7; 3; 5] = [[]; [7]; [3]; [5]; [7; 3]; [7; 5]; [3; 5]; [7; 3; 5]].
Proof. split; [repeat constructor; simpl; intuition discriminate|reflexivity]. Qed.

(** ... there are 2^n entries (also with duplicate elements), by increasing size. *)
Theorem C42_powerset_size : forall (T : Type) (l : list T), length (powerset l) = 2 ^ length l.
Proof. exact @powerset_length. Qed.
Print Assumptions C42_powerset_size.
Theorem C42_powerset_by_size : forall (T : Type) (l : list T), StronglySorted le (map (@length T) (powerset l)).
Proof. exact @powerset_by_size. Qed.
Print Assumptions C42_powerset_by_size.

(** C42: [pairs] yields every unordered pair of positions exactly once. *)
Theorem C42_pairs_each_once : forall (T : Type) (l : list T) (d : T), exists idx,
  pairs l = map (fun '(i, j) => (nth i l d, nth j l d)) idx /\ NoDup idx /\
  (forall i j, In (i, j) idx <-> i < j < length l).
Proof. exact @pairs_spec. Qed.
Print Assumptions C42_pairs_each_once.
Example C42_ex_pairs : pairs [4; 4; 9] = [(4, 4); (4, 9); (4, 9)].
Proof. reflexivity. Qed.

(** C42: [sliding_window]: window number [k] starts at position [k*step], and exactly those windows are produced that
    fit into the list. *)
Theorem C42_sliding_window_each_once : forall (T : Type) (l : list T) size step, 0 < step ->
  exists n, sliding_window l size step = Ok (map (fun k => firstn size (skipn (k * step) l)) (seq 0 n)) /\
            (forall k, k < n <-> k * step + size <= length l).
Proof. exact @sliding_window_spec. Qed.
Print Assumptions C42_sliding_window_each_once.
Example C42_ex_window : 0 < 2 /\ sliding_window [1; 2; 3; 4; 5] 3 2 = Ok [[1; 2; 3]; [3; 4; 5]].
Proof. split; [lia|reflexivity]. Qed.

(** C38, full claim: whatever the client does, the answers of [Queue] are those of an ideal FIFO queue. False: popping
    a falsy element does not remove it. *)
Theorem C38_queue_fifo_refuted : exists (ops : list (qop Z)),
  queue_run (fun z => negb (Z.eqb z 0)) [] ops <> ideal_fifo [] ops.
Proof. exists [Push 0%Z; Push 1%Z; Pop; Pop]. vm_compute. discriminate. Qed.
Print Assumptions C38_queue_fifo_refuted.

(** C38, restricted to truthy elements. Missing: elements [x] with [bool(x) = False]. *)
Theorem C38_queue_fifo_partial : forall (T : Type) (truthy : T -> bool) (ops : list (qop T)),
  (forall x, In x (pushed ops) -> truthy x = true) -> queue_run truthy [] ops = ideal_fifo [] ops.
Proof. exact (fun T truthy ops H => queue_run_fifo truthy [] ops H). Qed.
Print Assumptions C38_queue_fifo_partial.
Example C38_ex_queue :
  let ops := [Push 3; Push 5; Pop; PushAll [7; 8]; Pop; Peek; Pop; Pop; Pop] in
  (forall x, In x (pushed ops) -> negb (x =? 0) = true) /\
  fst (queue_run (fun x => negb (x =? 0)) [] ops) = [Some 3; Some 5; Some 7; Some 7; Some 8; None].
Proof. split; [|reflexivity]. simpl. intuition subst; reflexivity. Qed.

(** C38: after any sequence of appends a [SizedQueue] holds exactly the most recent elements, in order. *)
Theorem C38_sized_queue_most_recent : forall (T : Type) (cap : nat) (h vs : list T), 0 < cap ->
  sq_appends (SQ (lastn cap h) cap) vs = Ok (SQ (lastn cap (h ++ vs)) cap).
Proof. exact @sq_appends_lastn. Qed.
Print Assumptions C38_sized_queue_most_recent.
Example C38_ex_sized : 0 < 2 /\ sq_appends (sq_init 2 []) [1; 2; 3] = Ok (SQ [2; 3] 2).
Proof. split; [lia|reflexivity]. Qed.

(** C38: no mixture of append, extend and pop ever exceeds the capacity (or raises). *)
Theorem C38_sized_queue_capacity : forall (T : Type) (ops : list (sqop T)) (q : sized_queue T), 0 < sq_capacity q ->
  length (sq_data q) <= sq_capacity q ->
  exists q', sq_run q ops = Ok q' /\ sq_capacity q' = sq_capacity q /\ length (sq_data q') <= sq_capacity q'.
Proof. exact @sq_run_capacity. Qed.
Print Assumptions C38_sized_queue_capacity.
Example C38_ex_sized2 : sq_run (sq_init 2 [1]) [SExtend [2; 3]; SAppend 4; SPop; SAppend 5] = Ok (SQ [4; 5] 2).
Proof. reflexivity. Qed.

(** C38, full claim for [extend] ("adds all the items to the end, popping any excess items"): false, the old head is
    kept and the new items are dropped. *)
Theorem C38_sized_queue_extend_refuted : exists (q : sized_queue nat) vs, 0 < sq_capacity q /\
  length (sq_data q) <= sq_capacity q /\ sq_data (sq_extend q vs) <> lastn (sq_capacity q) (sq_data q ++ vs).
Proof. exists (SQ [1; 2] 2), [3]. vm_compute. repeat split; [lia|lia|discriminate]. Qed.
Print Assumptions C38_sized_queue_extend_refuted.

(** C38: the constructor does not enforce the capacity. *)
Theorem C38_sized_queue_init_refuted : exists cap (data : list nat), cap < length (sq_data (sq_init cap data)).
Proof. exists 1, [1; 2]. vm_compute. lia. Qed.
Print Assumptions C38_sized_queue_init_refuted.
