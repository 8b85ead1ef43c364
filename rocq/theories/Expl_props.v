(** C126-C128: plans of PostgreSQL and their query plans. *)
From Coq Require Import List Bool Arith ZArith Lia.
From Verif Require Import PyBase Hint_model Card_model QPlan_model QPlan_spec QPlan_proofs Expl_model Expl_spec Expl_proofs.
Import ListNotations.

(** ** Examples: a gather above a hash join of an aliased table with a bitmap scan *)
Definition xn ty rows tru loops rel al role planned ch :=
  XN (mkx ty (Some 9) rows (Some 5) tru loops rel al None None None [None; None; None; None; None] role 0 planned (Some 1) None) ch.
Definition tr (r : nat) (a : option nat) : nat := 100 * r + match a with Some z => S z | None => 0 end.
Definition ex_seq role := xn 0 (Some 40%Z) (Some 10%Z) 3 (Some 1) (Some 2) role 0 [].
Definition ex_bitmap role := xn 3 (Some 7%Z) (Some 2%Z) 3 (Some 2) (Some 2) role 0 [xn 10 (Some 7%Z) (Some 0%Z) 3 None None ROuter 0 []].
Definition ex_join := xn 5 (Some 50%Z) (Some 5%Z) 3 None None ROuter 0 [ex_bitmap RInner; ex_seq ROuter].
Definition ex_gather := xn 20 (Some 150%Z) (Some 15%Z) 1 None None (ROther None) 2 [ex_join].
(** An aggregate with an initial plan and a subplan. *)
Definition ex_two := xn 21 (Some 1%Z) None 1 None None (ROther None) 0 [xn 0 (Some 3%Z) None 1 (Some 1) None RInitPlan 0 []; xn 0 (Some 4%Z) None 1 (Some 2) None RSubPlan 0 []].
(** A gather whose input has an initial plan. *)
Definition ex_init := xn 20 (Some 9%Z) None 1 None None (ROther None) 2 [xn 0 (Some 3%Z) None 1 (Some 1) None ROuter 0 [xn 0 (Some 5%Z) (Some 5%Z) 1 (Some 2) None RInitPlan 0 []]].

(** Deciding the conditions on concrete trees. *)
Fixpoint xnodes (x : xnode) : list xnode := match x with XN _ ch => x :: flat_map xnodes ch end.
Lemma xnodes_below x c : below x c -> In c (xnodes x).
Proof.
  revert c. induction x as [d ch IH] using xnode_ind2. intros c H. apply below_inv in H as [->|(k & Hk & H)]; cbn [xnodes]; [now left|].
  right. apply in_flat_map. exists k. split; [exact Hk|now apply IH].
Qed.
Lemma check_below (f : xnode -> bool) x : forallb f (xnodes x) = true -> forall c, below x c -> f c = true.
Proof. intros H c Hc. rewrite forallb_forall in H. apply H. now apply xnodes_below. Qed.
Lemma check_binary x : forallb (fun c => (length (having is_outer (xch c)) <=? 1) && (length (having is_inner (xch c)) <=? 1)) (xnodes x) = true -> binary x.
Proof. intros H c Hc. pose proof (check_below _ _ H c Hc) as E. cbv beta in E. rewrite andb_true_iff, !Nat.leb_le in E. exact E. Qed.
Lemma check_one x : forallb (fun c => length (subs c) <=? 1) (xnodes x) = true -> one_sub x.
Proof. intros H c Hc. pose proof (check_below _ _ H c Hc) as E. cbv beta in E. now rewrite Nat.leb_le in E. Qed.
Lemma check_noinit x : forallb (fun c => negb (is_init (role_of c))) (xnodes x) = true -> init_outside x.
Proof. intros H up c Hc Hi. pose proof (check_below _ _ H c (ex_intro _ up Hc)) as E. cbv beta in E. now rewrite Hi in E. Qed.
Lemma check_known x : forallb (fun p => forallb (fun c => is_known (role_of c)) (xch p)) (xnodes x) = true -> known_roles x.
Proof. intros H p c Hp Hc. pose proof (check_below _ _ H p Hp) as E. cbv beta in E. rewrite forallb_forall in E. auto. Qed.

Example ex_gather_wf : binary ex_gather /\ one_sub ex_gather /\ known_roles ex_gather /\ init_outside ex_gather.
Proof. split; [now apply check_binary|]. split; [now apply check_one|]. split; [now apply check_known|now apply check_noinit]. Qed.

(** ** C126 structure *)
(** If no node has several subplans, the plan has a node for each node, with the same operator, table, measures and workers; the outer
    input precedes the inner one. *)
Theorem C126_mirrors_partial tref x p : binary x -> one_sub x -> as_qep tref x = Ok p -> mirrors (fun _ c d => states tref (xd c) d) [] x p.
Proof. apply mirror_states. Qed.
Print Assumptions C126_mirrors_partial.
Example C126_mirrors_ex : exists p, as_qep tr ex_gather = Ok p /\ map (fun n => (ntype (data n), base (data n))) (iter_all p) = [(20, None); (5, None); (0, Some 103); (3, Some 200); (10, None)]
  /\ map (fun n => oper (data n)) (iter_all p) = [None; Some (PJoin 1); Some (PScan 0); Some (PScan 3); None].
Proof. eexists. split; [reflexivity|]. split; reflexivity. Qed.
(** The tables are those that the nodes read; no other table is ever in the plan. *)
Theorem C126_tables_partial tref x p : binary x -> one_sub x -> as_qep tref x = Ok p -> forall t, In t (tables p) <-> reads tref x t.
Proof.
  intros B O E t. split; [eapply gen_tables_incl; exact E|]. intros H. eapply mirrors_tables; eauto using mirror_states. eapply gen_known; exact E.
Qed.
Print Assumptions C126_tables_partial.
Theorem C126_no_new_tables tref x p : as_qep tref x = Ok p -> forall t, In t (tables p) -> reads tref x t.
Proof. intros E t. eapply gen_tables_incl; exact E. Qed.
Print Assumptions C126_no_new_tables.
Example C126_tables_ex : exists p, as_qep tr ex_gather = Ok p /\ seteqb (tables p) [103; 200] = true.
Proof. eexists. split; reflexivity. Qed.
(** The conversion fails exactly if some child has an unknown relationship to its parent. *)
Theorem C126_total tref x : (exists p, as_qep tref x = Ok p) <-> known_roles x.
Proof. split; [intros [p E]; eapply gen_known; exact E|intros K; now apply gen_total]. Qed.
Print Assumptions C126_total.
Theorem C126_errors tref x e : as_qep tref x = Raise e -> e = ValueError \/ e = AssertionError.
Proof. apply gen_raise. Qed.
Print Assumptions C126_errors.
Example C126_custom_scan : as_qep tr (xn 22 None None 1 None None (ROther None) 0 [xn 0 None None 1 (Some 1) None (ROther (Some 1)) 0 []]) = Raise ValueError.
Proof. reflexivity. Qed.
(** Two subplans at one node: the first one is lost together with its table. *)
Theorem C126_several_subplans_refuted : exists tref x p t, binary x /\ known_roles x /\ as_qep tref x = Ok p /\ reads tref x t /\ ~ In t (tables p).
Proof.
  exists tr, ex_two. eexists. exists 100. split; [now apply check_binary|]. split; [now apply check_known|]. split; [reflexivity|]. split.
  - exists (xn 0 (Some 3%Z) None 1 (Some 1) None RInitPlan 0 []). split.
    + exists [ex_two]. apply place_child; [apply place_root|now left].
    + exists 1. split; [reflexivity|]. left. split; [reflexivity|now left].
  - cbn. intros [H|[]]. discriminate H.
Qed.
Print Assumptions C126_several_subplans_refuted.
(** The name of a subplan is never its target, whatever the explain output says. *)
Theorem C126_names_lost tref x p : as_qep tref x = Ok p -> forall n q o, node_all p n -> subplan n = Some (q, o) -> o = None.
Proof. intros E. eapply no_target; exact E. Qed.
Print Assumptions C126_names_lost.
Definition ex_cte :=
  XN (mkx 23 None None None None 1 None None None None (Some 7) [] (ROther None) 0 0 None None)
     [XN (mkx 0 None None None None 1 (Some 1) None None (Some 8) None [] RInitPlan 0 0 None None) []].
Theorem C126_subplan_name_refuted : exists tref x p q, binary x /\ one_sub x /\ x_cte (xd x) = Some 7 /\ as_qep tref x = Ok p /\ subplan p = Some (q, None).
Proof.
  exists tr, ex_cte. do 2 eexists. split; [now apply check_binary|]. split; [now apply check_one|]. split; [reflexivity|]. split; reflexivity.
Qed.
Print Assumptions C126_subplan_name_refuted.

(** ** C127 row counts *)
(** Estimates are those of all processes together, unless an initial plan is below a node with workers. *)
Theorem C127_estimates_partial tref x p : binary x -> one_sub x -> init_outside x -> as_qep tref x = Ok p ->
  mirrors (fun up c d => states tref (xd c) d /\ est d = scaled (x_rows (xd c)) (processes up c)) [] x p.
Proof. apply mirror_estimates. Qed.
Print Assumptions C127_estimates_partial.
Example C127_estimates_ex : exists p, as_qep tr ex_gather = Ok p /\ map (fun n => (est (data n), m_card (meas (data n)))) (iter_all p)
  = [(CVal 150, CVal 15); (CVal 150, CVal 15); (CVal 120, CVal 30); (CVal 21, CVal 6); (CVal 21, CNan)].
Proof. eexists. split; reflexivity. Qed.
(** An initial plan below a gather is executed once, but its estimate is scaled by the number of processes. *)
Theorem C127_init_plan_refuted : exists tref x p up c n, binary x /\ one_sub x /\ place x up c /\ as_qep tref x = Ok p /\ node_all p n
  /\ states tref (xd c) (data n) /\ is_init (role_of c) = true /\ processes up c = 1%Z /\ est (data n) <> scaled (x_rows (xd c)) (processes up c).
Proof.
  set (i := xn 0 (Some 5%Z) (Some 5%Z) 1 (Some 2) None RInitPlan 0 []). set (m := xn 0 (Some 3%Z) None 1 (Some 1) None ROuter 0 [i]).
  assert (exists p q, as_qep tr ex_init = Ok p /\ kids p = [q] /\ subplan q = Some (Node (plan_data tr 3 (xd i)) [] None, None)) as (p & q & E & Ek & Es)
    by (do 2 eexists; split; [reflexivity|]; split; reflexivity).
  exists tr, ex_init, p, [m; ex_init], i, (Node (plan_data tr 3 (xd i)) [] None).
  split; [now apply check_binary|]. split; [now apply check_one|]. split; [apply place_child; [apply place_child; [apply place_root|now left]|now left]|].
  split; [exact E|]. split; [eapply na_kid; [rewrite Ek; now left|]; eapply na_sub; [exact Es|apply na_self]|].
  split; [apply plan_data_states|]. split; [reflexivity|]. split; [reflexivity|]. discriminate.
Qed.
Print Assumptions C127_init_plan_refuted.

(** ** C128 equality of explain nodes and their inputs *)
Theorem C128_equivalence : (forall x, xeq x x = true) /\ (forall x y, xeq x y = true -> xeq y x = true) /\ (forall x y z, xeq x y = true -> xeq y z = true -> xeq x z = true).
Proof. split; [exact xeq_refl|]. split; [exact xeq_sym|exact xeq_trans]. Qed.
Print Assumptions C128_equivalence.
(** Nodes with the same hashed data are equal; equal nodes read the same tables. *)
Theorem C128_hash_partial x y : xhash x = xhash y -> xeq x y = true.
Proof. apply xhash_xeq. Qed.
Print Assumptions C128_hash_partial.
Theorem C128_same_tables tref x y : xeq x y = true -> forall t, reads tref x t <-> reads tref y t.
Proof. intros E t. split; apply xeq_reads; [assumption|now apply xeq_sym]. Qed.
Print Assumptions C128_same_tables.
(** Equal nodes can have different hash values: the filter counts for the hash only. *)
Theorem C128_hash_refuted : exists x y, xeq x y = true /\ xhash x <> xhash y.
Proof.
  exists (XN (mkx 0 None None None None 1 (Some 1) None None None None [Some 3] RInner 0 0 None None) []),
         (XN (mkx 0 None None None None 1 (Some 1) None None None None [Some 4] RInner 0 0 None None) []). split; [reflexivity|discriminate].
Qed.
Print Assumptions C128_hash_refuted.
(** Equal nodes can have different plans: the roles of the children do not count. *)
Theorem C128_same_plan_refuted : exists tref x y p q, xeq x y = true /\ as_qep tref x = Ok p /\ as_qep tref y = Ok q
  /\ map (fun k => base (data k)) (kids p) = [Some 100; Some 200] /\ map (fun k => base (data k)) (kids q) = [Some 200; Some 100].
Proof.
  set (s := fun r role => xn 0 None None 1 (Some r) None role 0 []).
  exists tr, (xn 5 None None 1 None None ROuter 0 [s 1 ROuter; s 2 RInner]), (xn 5 None None 1 None None ROuter 0 [s 1 RInner; s 2 ROuter]).
  do 2 eexists. split; [reflexivity|]. split; [reflexivity|]. split; [reflexivity|]. split; reflexivity.
Qed.
Print Assumptions C128_same_plan_refuted.
(** The inputs of a join are given as inner, outer if the two inputs differ. *)
Theorem C128_inputs_partial x i o : In (xch x) [[i; o]; [o; i]] -> role_of i = RInner -> role_of o = ROuter -> xeq i o = false -> inner_outer x = Ok [i; o].
Proof.
  intros H Hi Ho Hn. unfold inner_outer, role_of in *. assert (Hn' : xeq o i = false) by (destruct (xeq o i) eqn:E; [apply xeq_sym in E; congruence|reflexivity]).
  destruct H as [<-|[<-|[]]]; rewrite ?Hi, ?Ho; cbn [deqb eqd].
  - replace (deqb RInner RInner) with true by reflexivity. now rewrite Hn'.
  - replace (deqb ROuter RInner) with false by reflexivity. now rewrite xeq_refl.
Qed.
Print Assumptions C128_inputs_partial.
Example C128_inputs_ex : inner_outer ex_join = Ok [ex_bitmap RInner; ex_seq ROuter] /\ xeq (ex_bitmap RInner) (ex_seq ROuter) = false. Proof. split; reflexivity. Qed.
(** Fewer than two children are given as they are, more than two are refused. *)
Theorem C128_other_counts x : (length (xch x) <= 1 -> inner_outer x = Ok (xch x)) /\ (length (xch x) > 2 -> inner_outer x = Raise AssertionError).
Proof. unfold inner_outer. destruct (xch x) as [|a [|b [|c l]]]; cbn; split; intros; try lia; reflexivity. Qed.
Print Assumptions C128_other_counts.
(** A self join without aliases and filters: the inner input is given twice. *)
Theorem C128_inputs_refuted : exists x i o, xch x = [i; o] /\ role_of i = RInner /\ role_of o = ROuter /\ inner_outer x = Ok [i; i] /\ i <> o.
Proof.
  exists (xn 5 None None 1 None None ROuter 0 [ex_seq RInner; ex_seq ROuter]), (ex_seq RInner), (ex_seq ROuter).
  split; [reflexivity|]. split; [reflexivity|]. split; [reflexivity|]. split; [reflexivity|discriminate].
Qed.
Print Assumptions C128_inputs_refuted.
