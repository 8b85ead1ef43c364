(** Property theorems for C23, C24, C56 and C66 (join order enumeration and graph walks). *)
From Coq Require Import List Bool Arith Lia Sorting.Permutation.
From Verif Require Import PyBase Graph QPred_spec DP_spec DP_proofs Enum_model Enum_spec Enum_proofs Walk_proofs.
Import ListNotations.

Lemma dedup_hash_spec hash ts : forall seen, (forall t, In t (dedup_hash hash seen ts) -> In t ts) /\
  (forall t, In t ts -> In (hash t) seen \/ exists t', In t' (dedup_hash hash seen ts) /\ hash t' = hash t) /\ NoDup (map hash (dedup_hash hash seen ts)) /\ (forall t, In t (dedup_hash hash seen ts) -> ~ In (hash t) seen).
Proof.
  induction ts as [|x ts IH]; intros seen; cbn [dedup_hash]; [repeat split; try contradiction; constructor|]. destruct (mem (hash x) seen) eqn:E.
  - apply mem_In in E. destruct (IH seen) as (H1 & H2 & H3 & H4). split; [intros t Ht; right; auto|]. split; [|auto]. intros t [<-|Ht]; auto.
  - apply mem_nIn in E. destruct (IH (hash x :: seen)) as (H1 & H2 & H3 & H4). split; [intros t [<-|Ht]; [now left|right; auto]|]. split; [|split].
    + intros t [<-|Ht]; [right; exists x; split; [now left|reflexivity]|]. destruct (H2 t Ht) as [[Hh|Hh]|(t' & Ht' & Hh)]; [right; exists x; split; [now left|assumption]|auto|right; exists t'; split; [now right|assumption]].
    + cbn. constructor; [|assumption]. intros H. apply in_map_iff in H as (t & Eh & Ht). apply (H4 t Ht). left. congruence.
    + intros t [<-|Ht]; [assumption|]. intros Hs. apply (H4 t Ht). now right.
Qed.

(** C24: every produced join tree contains each table of the join graph exactly once and has no cross product; no tree is
    produced twice. *)
Theorem C24_sound : forall hash s ns es ts t, simple_graph ns es -> all_join_orders hash s ns es = Ok ts -> In t ts ->
  Permutation (leaves t) ns /\ no_cross (partners es) t.
Proof.
  intros hash s ns es ts t Hs. unfold all_join_orders. destruct s; [|intros [= <-] []|intros [= <-] []]. destruct ns as [|x [|y ns]]; [intros [= <-] []| |].
  - intros [= <-] [<-|[]]. split; [reflexivity|constructor].
  - set (n := x :: y :: ns) in *. destruct (connectedb n es); [|discriminate]. intros [= <-] Hin. apply (proj1 (dedup_hash_spec _ _ _)) in Hin. apply (enumerate_iff n es Hs t). exact Hin.
Qed.
Print Assumptions C24_sound.
Theorem C24_once : forall hash s ns es ts, all_join_orders hash s ns es = Ok ts -> NoDup ts.
Proof.
  intros hash s ns es ts. unfold all_join_orders. destruct s; [|intros [= <-]; constructor|intros [= <-]; constructor]. destruct ns as [|x [|y ns]]; [intros [= <-]; constructor|intros [= <-]; constructor; [easy|constructor]|].
  set (n := x :: y :: ns). destruct (connectedb n es); [|discriminate]. intros [= <-]. apply (NoDup_map_inv hash). apply dedup_hash_spec.
Qed.
Print Assumptions C24_once.
(** C24: the linear enumerator behind the left-deep and right-deep options is sound as well. *)
Theorem C24_linear_sound : forall (inner : bool) ns es o, simple_graph ns es -> hangs_together (partners es) ns -> In o (linear_orders inner ns es) ->
  exists t, o = Some t /\ join_order ns es t /\ (if inner then left_deep t else right_deep t).
Proof.
  intros inner ns es o Hs Hc Hin. unfold linear_orders in Hin. apply in_map_iff in Hin as (l & <- & Hl). assert (Hne : ns <> []) by (intros ->; destruct Hl).
  apply frontier_walks_iff in Hl as [Hp Hw]; try assumption. destruct (linear_tree_ok ns es Hs inner l Hp Hw) as (t & -> & Hj & H1 & H2) || destruct (linear_tree_ok ns es inner l Hp Hw) as (t & -> & Hj & H1 & H2). exists t. split; [reflexivity|]. split; [assumption|]. destruct inner; auto.
Qed.
Print Assumptions C24_linear_sound.

(** C66: every cross-product free bushy tree is produced, up to collisions of the hash function. *)
Theorem C66_complete_partial : forall hash ns es, simple_graph ns es -> ns <> [] -> hangs_together (partners es) ns ->
  exists ts, all_join_orders hash Bushy ns es = Ok ts /\ forall t, join_order ns es t -> exists t', In t' ts /\ hash t' = hash t.
Proof.
  intros hash ns es Hs Hne Hc. unfold all_join_orders. destruct ns as [|x [|y ns]]; [contradiction| |].
  - exists [Leaf x]. split; [reflexivity|]. intros t [Hp Hx]. apply Permutation_sym, Permutation_length_1_inv in Hp. exists (Leaf x). split; [now left|]. destruct t as [z|o i]; cbn in Hp; [congruence|]. exfalso.
    destruct (leaves_ne o) as [a Ha]. destruct (leaves_ne i) as [b Hb]. assert (Hl : length (leaves o ++ leaves i) = 1) by now rewrite Hp. rewrite app_length in Hl. destruct (leaves o), (leaves i); cbn in Hl; try contradiction; lia.
  - set (n := x :: y :: ns) in *. rewrite (proj2 (connectedb_hangs n es) Hc). eexists. split; [reflexivity|]. intros t Ht. apply (enumerate_iff n es Hs t) in Ht. destruct (proj1 (proj2 (dedup_hash_spec hash (enumerate (length n) (lift n es)) [])) t Ht) as [[]|H]. exact H.
Qed.
Print Assumptions C66_complete_partial.
(** C66: without collisions, exactly the cross-product free trees are produced. *)
Theorem C66_exact : forall hash ns es, simple_graph ns es -> ns <> [] -> hangs_together (partners es) ns ->
  (forall t u, join_order ns es t -> join_order ns es u -> hash t = hash u -> t = u) ->
  exists ts, all_join_orders hash Bushy ns es = Ok ts /\ NoDup ts /\ forall t, In t ts <-> join_order ns es t.
Proof.
  intros hash ns es Hs Hne Hc Hinj. destruct (C66_complete_partial hash ns es Hs Hne Hc) as (ts & E & H). exists ts. split; [assumption|]. split; [eapply C24_once; eassumption|].
  intros t. split; [intros Ht; eapply C24_sound; eassumption|]. intros Ht. destruct (H t Ht) as (t' & Ht' & Eh). assert (t' = t) by (apply Hinj; try assumption; eapply C24_sound; eassumption). now subst.
Qed.
Print Assumptions C66_exact.
(** C66: join graphs that are not connected are rejected. *)
Theorem C66_disconnected : forall hash ns es, 2 <= length ns -> ~ hangs_together (partners es) ns -> all_join_orders hash Bushy ns es = Raise ValueError.
Proof.
  intros hash ns es Hl Hn. unfold all_join_orders. destruct ns as [|x [|y ns]]; cbn in Hl; try lia. set (n := x :: y :: ns) in *. destruct (connectedb n es) eqn:E; [|reflexivity]. apply connectedb_hangs in E. contradiction.
Qed.
Print Assumptions C66_disconnected.
(** C66 is false for linear trees: the left-deep and the right-deep enumeration produce nothing. *)
Theorem C66_linear_refuted : forall hash, let ns := [0; 1] in let es := [(0, 1)] in
  all_join_orders hash LeftDeep ns es = Ok [] /\ all_join_orders hash RightDeep ns es = Ok [] /\
  (exists t, join_order ns es t /\ left_deep t) /\ (exists t, join_order ns es t /\ right_deep t).
Proof.
  intros hash ns es. assert (J : join_order ns es (Node (Leaf 0) (Leaf 1))) by (split; [reflexivity|apply (nc_node _ _ _ 0 1); [constructor|constructor|now left|now left|left; now left]]).
  repeat split; try reflexivity; exists (Node (Leaf 0) (Leaf 1)); (split; [exact J|repeat constructor]).
Qed.
Print Assumptions C66_linear_refuted.
(** C66: the enumerator that is never consumed would produce every linear order. *)
Theorem C66_linear_complete_partial : forall (inner : bool) ns es t, simple_graph ns es -> hangs_together (partners es) ns -> join_order ns es t ->
  (if inner then left_deep t else right_deep t) -> In (Some t) (linear_orders inner ns es).
Proof.
  intros inner ns es t Hs Hc [Hp Hx] Ht. assert (Hne : ns <> []). { intros ->. apply Permutation_sym, Permutation_nil in Hp. destruct (leaves_ne t) as [z Hz]. rewrite Hp in Hz. destruct Hz. }
  assert (Hl : exists l, linear_tree inner l = Some t /\ Permutation l (leaves t) /\ walk (partners es) l) by (destruct inner; [apply left_deep_walk|apply right_deep_walk]; assumption).
  destruct Hl as (l & El & Hpl & Hw). unfold linear_orders. rewrite <- El. apply in_map. apply frontier_walks_iff; try assumption. split; [now rewrite Hpl|assumption].
Qed.
Print Assumptions C66_linear_complete_partial.
(** A star of three tables has eight join orders, a chain of two tables two. *)
Example C66_ex : let ns := [0; 1; 2] in let es := [(0, 1); (2, 0)] in simple_graph ns es /\ hangs_together (partners es) ns /\
  exists ts, all_join_orders (fun t => match t with Node (Leaf x) _ => x | Node (Node (Leaf x) (Leaf y)) _ => 10 * x + y + 10 | _ => 5 end) Bushy ns es = Ok ts /\ 4 <= length ts.
Proof.
  split; [split; [repeat constructor; cbn; intuition discriminate|cbn; intuition congruence]|]. split; [apply connectedb_hangs; reflexivity|]. eexists. split; [vm_compute; reflexivity|cbn; lia].
Qed.

(** C23: a drawn bushy join order is complete and free of cross products, for all random choices; drawing terminates after
    as many contractions as there are tables. *)
Theorem C23_bushy : forall cs ns es, simple_graph ns es -> ns <> [] -> hangs_together (partners es) ns ->
  exists t, draw_bushy (length ns) cs ns es None = Ok t /\ join_order ns es t.
Proof. intros cs ns es Hs Hne Hc. now apply draw_bushy_ok. Qed.
Print Assumptions C23_bushy.
(** C23: with a base table, the same, and the base table takes part in a join with one of its partners. *)
Theorem C23_base_table : forall cs ns es b, simple_graph ns es -> 2 <= length ns -> hangs_together (partners es) ns -> In b ns ->
  exists t p, draw_bushy (length ns) cs ns es (Some b) = Ok t /\ join_order ns es t /\ partners es b p /\
    (subtree (Node (Leaf b) (Leaf p)) t \/ subtree (Node (Leaf p) (Leaf b)) t).
Proof. intros cs ns es b Hs Hl Hc Hb. now apply draw_bushy_base. Qed.
Print Assumptions C23_base_table.
(** C23: drawn linear join orders are complete, free of cross products and of the requested shape. *)
Theorem C23_linear : forall (inner : bool) cs ns es base, simple_graph ns es -> ns <> [] -> hangs_together (partners es) ns -> (forall b, base = Some b -> In b ns) ->
  exists t, draw_linear inner (length ns) cs ns es base = Ok (Some t) /\ join_order ns es t /\ (if inner then left_deep t else right_deep t).
Proof.
  intros inner cs ns es base Hs Hne Hc Hb. destruct (random_walk_ok ns es Hs cs base Hne Hb) as (l & E & Hp & Hw & _). unfold draw_linear. rewrite E.
  destruct (linear_tree_ok ns es inner l Hp (Hw Hc)) as (t & El & Hj & H1 & H2). exists t. cbn. rewrite El. split; [reflexivity|]. split; [assumption|]. destruct inner; auto.
Qed.
Print Assumptions C23_linear.
(** C23: with duplicate elimination the generator hangs once all join orders have been drawn, whatever is drawn. *)
Theorem C23_exhausted_refuted : forall hash (cs : nat -> nat -> nat * bool), let ns := [0; 1] in let es := [(0, 1)] in
  exists draws, (forall k, draw_bushy 2 (cs k) ns es None = Ok (draws k)) /\
    forall k fuel, next_new hash [hash (Node (Leaf 0) (Leaf 1)); hash (Node (Leaf 1) (Leaf 0))] draws k fuel = None.
Proof.
  intros hash cs ns es. exists (fun k => if snd (cs k 0) then Node (Leaf 0) (Leaf 1) else Node (Leaf 1) (Leaf 0)). split.
  - intros k. unfold draw_bushy. cbn. destruct (snd (cs k 0)); reflexivity.
  - intros k fuel. revert k. induction fuel as [|fuel IH]; intros k; [reflexivity|]. cbn [next_new]. match goal with |- context [mem ?a ?b] => assert (E : mem a b = true) by (apply mem_In; destruct (snd (cs k 0)); [left|right; left]; reflexivity); rewrite E end. apply IH.
Qed.
Print Assumptions C23_exhausted_refuted.

Example C23_ex : let ns := [3; 1; 2] in let es := [(1, 3); (2, 1)] in simple_graph ns es /\ hangs_together (partners es) ns /\
  draw_bushy 3 (fun k => (k + 1, true)) ns es None = Ok (Node (Node (Leaf 2) (Leaf 1)) (Leaf 3)).
Proof.
  split; [split; [repeat constructor; cbn; intuition discriminate|cbn; intuition congruence]|]. split; [apply connectedb_hangs; reflexivity|]. vm_compute. reflexivity.
Qed.

(** C56: a random walk visits every node exactly once, whatever is drawn, even if the graph is not connected; over a
    connected graph it always moves to a neighbour of a visited node. *)
Theorem C56_random_walk : forall cs ns es start, simple_graph ns es -> ns <> [] -> (forall x, start = Some x -> In x ns) ->
  exists l, random_walk (length ns) cs ns es start = Ok l /\ Permutation l ns /\ (hangs_together (partners es) ns -> walk (partners es) l) /\ (forall x, start = Some x -> hd_error l = Some x).
Proof. intros cs ns es start Hs Hne Hst. now apply random_walk_ok. Qed.
Print Assumptions C56_random_walk.
(** C56: the frontier walks are exactly the walks of this kind. *)
Theorem C56_frontier_walks : forall ns es l, simple_graph ns es -> hangs_together (partners es) ns -> ns <> [] ->
  (In l (frontier_walks ns es) <-> Permutation l ns /\ walk (partners es) l).
Proof. intros ns es l Hs Hc Hne. now apply frontier_walks_iff. Qed.
Print Assumptions C56_frontier_walks.
(** C56 is false for the breadth-first traversal: in a triangle a node is yielded twice, and the start node never is. *)
Theorem C56_bfs_refuted : let ns := [0; 1; 2; 3] in let es := [(0, 1); (0, 2); (1, 3); (2, 3)] in
  simple_graph ns es /\ hangs_together (partners es) ns /\ bfs_tree 10 ns es 0 (fun _ => true) = Ok [1; 2; 3; 3].
Proof.
  split; [split; [repeat constructor; cbn; intuition discriminate|cbn; intuition congruence]|]. split; [apply connectedb_hangs; reflexivity|]. vm_compute. reflexivity.
Qed.
Print Assumptions C56_bfs_refuted.
(** C56: it does terminate and yields every other node at least once, and only those. *)
Theorem C56_bfs_partial : forall ns es start, simple_graph ns es -> hangs_together (partners es) ns -> In start ns ->
  (exists fuel l, bfs_tree fuel ns es start (fun _ => true) = Ok l) /\
  (forall fuel l, bfs_tree fuel ns es start (fun _ => true) = Ok l -> forall x, In x l <-> In x ns /\ x <> start).
Proof.
  intros ns es start Hs Hc Hst. split; [|intros fuel l H; now apply (bfs_reaches ns es Hs start fuel)]. unfold bfs_tree. rewrite (proj2 (mem_In _ _) Hst).
  apply (bfs_total ns es Hs (fun _ => true) (unvisited ns [start]) (vprefix [start] (nadj es start))); [lia|lia|]. intros y Hy. apply nadj_iff in Hy. apply (R_In ns es Hs _ _ Hy).
Qed.
Print Assumptions C56_bfs_partial.
Example C56_ex : let ns := [0; 1; 2; 3] in let es := [(0, 1); (0, 2); (1, 3); (2, 3)] in
  random_walk 4 (fun k => 3 * k + 2) ns es None = Ok [2; 3; 0; 1].
Proof. vm_compute. reflexivity. Qed.
