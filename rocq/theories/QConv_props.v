(** C87 - C90: conversions of query plans, their JSON form and the access to their attributes. *)
From Coq Require Import List Bool Arith ZArith Lia String.
From Verif Require Import PyBase FSet Hint_model Hint_proofs Card_model JT_model Ident_model QPlan_model PGHint_spec QPlan_spec QPlan_proofs QConv_model QConv_spec QConv_proofs.
Import ListNotations.
Local Open Scope nat_scope.
Local Open Scope list_scope.

(** Example plans. *)
Definition xd (o : option physop) (b : option nat) (f : list nat) (w : nat) (e a : card) : pdata := mkpd 1 o b f [] w e None [] (mkmeas a None None None []).
Definition scan_of (t : nat) : plan := Node (xd (Some (PScan 0)) (Some t) [] 0 (CVal 10) (CVal 20)) [] None.
Definition join_of (o : nat) (a b : plan) : plan := Node (xd (Some (PJoin o)) None [] 2 (CVal 100) (CVal 300)) [a; b] None.
Definition hash_of (p : plan) : plan := Node (xd None None [] 0 (CVal 10) (CVal 20)) [p] None.
Definition good_plan : plan := hash_of (join_of 1 (join_of 0 (scan_of 0) (hash_of (scan_of 1))) (scan_of 2)).
(** An index lookup into table [t] whose condition mentions table [u]. *)
Definition lookup_of (t u : nat) : plan := Node (xd (Some (PScan 1)) (Some t) [t; u] 0 (CVal 1) (CVal 1)) [] None.

(** ** C87: join tree, operators and parameters of a plan *)
(** The join tree has the join order of the plan and the selected cardinality at every scan and join; there is one exactly if the plan has
    a join order. *)
Theorem C87_join_tree : forall src p,
  (forall t, tree_of (node_card src) p t -> tree_from src p = Ok t) /\
  (forall t, tree_from src p = Ok t -> complete t -> tree_of (node_card src) p t /\ exists o, order_of t = Some o /\ plan_order p o) /\
  (forall o, plan_order p o -> exists t, tree_from src p = Ok t /\ order_of t = Some o).
Proof.
  intros src p. split; [apply tree_from_spec|]. split.
  - intros t H Hc. pose proof (tree_from_conv src p t H Hc) as T. split; [exact T|]. eapply tree_order. exact T.
  - intros o Ho. destruct (order_tree (node_card src) p o Ho) as (t & Ht & E). exists t. split; [now apply tree_from_spec|exact E].
Qed.
Print Assumptions C87_join_tree.
(** The result is never a LogicalJoinTree, even though it is declared as one. *)
Theorem C87_logical_refuted : forall src p t, tree_from src p = Ok t -> match t with JEmpty lg | JScan lg _ _ | JJoin lg _ _ _ => lg = false end.
Proof.
  intros src p. induction p as [d ks s IH _] using plan_ind2. intros t H. cbn [tree_from] in H. destruct (op_scan d); [injection H as <-; now destruct (base d)|]. destruct (op_join d).
  - destruct ks as [|a [|b [|? ?]]]; try discriminate. destruct (tree_from src a); [|discriminate]. cbn [rbind] in H. destruct (tree_from src b); [|discriminate]. cbn [rbind] in H. now injection H as <-.
  - destruct ks as [|a [|? ?]]; try discriminate. apply (IH a); [now left|exact H].
Qed.
Print Assumptions C87_logical_refuted.
(** The assignment contains the operators of the scans, joins and intermediate nodes; of several ones for the same tables, the last one
    from the root downwards counts. *)
Theorem C87_operators : forall incl p a, ops_from incl p = Ok a ->
  (forall k, option_map fst (dget (oa_scans a) k) = lastval (all_say scan_says p) k) /\
  (forall k, option_map fst (dget (oa_joins a) k) = lastval (all_say join_says p) k) /\
  (forall k, dget (oa_inters a) k = lastval (all_say inter_says p) k).
Proof.
  intros incl p a H. apply ops_from_tells in H as ([_ H1] & [_ H2] & [_ H3]). split; [exact H1|]. split; [exact H2|]. intros k. rewrite <- H3. now destruct (dget (oa_inters a) k).
Qed.
Print Assumptions C87_operators.
(** It exists exactly if nodes without operator have one child and joins have two tables. *)
Theorem C87_operators_defined : forall p incl, (exists a, ops_from incl p = Ok a) <->
  (forall n, node_of p n -> (oper (data n) = None -> exists c, kids n = [c]) /\ (is_join n = true -> 2 <= List.length (tables n))).
Proof.
  intros p. induction p as [d ks s IH _] using plan_ind2. intros incl.
  assert (G : (exists a, rbind (node_ops incl d (tables (Node d ks s))) (fun a => merge_kids (ops_from false) oa_merge a ks) = Ok a) <->
    ((exists a, node_ops incl d (tables (Node d ks s)) = Ok a) /\ forall c, In c ks -> exists a, ops_from false c = Ok a)).
  { split.
    - intros [a H]. destruct (node_ops incl d (tables (Node d ks s))) as [b|]; [|discriminate]. split; [eauto|]. cbn [rbind] in H. exact (merge_kids_inv _ _ _ _ _ H).
    - intros [[b ->] H]. cbn [rbind]. now apply merge_kids_total. }
  assert (K : (forall c, In c ks -> exists a, ops_from false c = Ok a) <-> (forall c n, In c ks -> node_of c n -> (oper (data n) = None -> exists x, kids n = [x]) /\ (is_join n = true -> 2 <= List.length (tables n)))).
  { split; intros H c; [intros n Hc Hn; exact (proj1 (IH c Hc false) (H c Hc) n Hn)|intros Hc; apply (IH c Hc false); intros n Hn; exact (H c n Hc Hn)]. }
  assert (N : (forall n, node_of (Node d ks s) n -> (oper (data n) = None -> exists c, kids n = [c]) /\ (is_join n = true -> 2 <= List.length (tables n))) <->
    (((oper d = None -> exists c, ks = [c]) /\ (op_join d = true -> 2 <= List.length (tables (Node d ks s)))) /\
     (forall c n, In c ks -> node_of c n -> (oper (data n) = None -> exists x, kids n = [x]) /\ (is_join n = true -> 2 <= List.length (tables n))))).
  { split.
    - intros H. split; [exact (H _ (no_self _))|]. intros c n Hc Hn. apply H. eapply no_kid; eassumption.
    - intros [H1 H2] n Hn. apply node_of_inv in Hn as [->|(c & Hc & Hn)]; [exact H1|]. now apply (H2 c n). }
  rewrite N, <- K. clear N K IH.
  assert (O : oper d <> None -> ((exists a, node_ops incl d (tables (Node d ks s)) = Ok a) <-> (op_join d = true -> 2 <= List.length (tables (Node d ks s))))).
  { intros Ho. unfold node_ops, op_join. destruct (oper d) as [[o|o|o]|]; [| | |congruence]; [split; [discriminate|eauto]| |split; [discriminate|eauto]].
    destruct (Nat.ltb_spec (List.length (tables (Node d ks s))) 2) as [Hl|Hl]; split; intros H; [destruct H; discriminate|specialize (H eq_refl); lia|now intros _|eauto]. }
  cbn [ops_from]. destruct (oper d) as [o|] eqn:Eo.
  - rewrite G. rewrite (O ltac:(discriminate)). split; [intros [H1 H2]; split; [split; [discriminate|exact H1]|exact H2]|intros [[_ H1] H2]; now split].
  - assert (Ej : op_join d = false) by (unfold op_join; now rewrite Eo). destruct ks as [|c [|c' ks]].
    + rewrite G. unfold node_ops. rewrite Eo. split; [intros [[a H] _]; discriminate|]. intros [[H _] _]. destruct (H eq_refl); discriminate.
    + split.
      * intros H. split; [split; [eauto|congruence]|]. intros x [<-|[]]. exact H.
      * intros [_ H]. apply H. now left.
    + rewrite G. unfold node_ops. rewrite Eo. split; [intros [[a H] _]; discriminate|]. intros [[H _] _]. destruct (H eq_refl); discriminate.
Qed.
Print Assumptions C87_operators_defined.
(** Every scan and join gets its own operator if no two of them are about the same tables. *)
Theorem C87_operators_partial : forall incl p a, ops_from incl p = Ok a -> unambiguous scan_says p -> unambiguous join_says p ->
  (forall n o, node_of p n -> oper (data n) = Some (PScan o) -> exists w, dget (oa_scans a) (base (data n)) = Some (o, w)) /\
  (forall n o, node_of p n -> oper (data n) = Some (PJoin o) -> exists w, dget (oa_joins a) (mkfs (tables n)) = Some (o, w)).
Proof.
  intros incl p a H U1 U2. apply C87_operators in H as (H1 & H2 & _). split; intros n o Hn Ho.
  - assert (E : lastval (all_say scan_says p) (base (data n)) = Some o). { apply lastval_In; [exact U1|]. apply in_flat_map. exists n. split; [now apply preorder_spec|]. unfold scan_says. rewrite Ho. now left. }
    rewrite <- H1 in E. destruct (dget (oa_scans a) (base (data n))) as [[o' w]|]; [|discriminate]. injection E as ->. eauto.
  - assert (E : lastval (all_say join_says p) (mkfs (tables n)) = Some o). { apply lastval_In; [exact U2|]. apply in_flat_map. exists n. split; [now apply preorder_spec|]. unfold join_says. rewrite Ho. now left. }
    rewrite <- H2 in E. destruct (dget (oa_joins a) (mkfs (tables n))) as [[o' w]|]; [|discriminate]. injection E as ->. eauto.
Qed.
Print Assumptions C87_operators_partial.
Theorem C87_parameters : forall t p, exists r, params_from t p = Ok r /\
  (forall k, dget (qp_cards r) k = lastval (all_say (card_says (target_card t)) p) k) /\ (forall k, dget (qp_workers r) k = lastval (all_say workers_say p) k).
Proof.
  intros t p. destruct (params_from_total t p) as [r Hr]. exists r. split; [exact Hr|]. apply params_from_tells in Hr as ([_ H1] & [_ H2]).
  split; intros k; [rewrite <- H1|rewrite <- H2]; [destruct (dget (qp_cards r) k)|destruct (dget (qp_workers r) k)]; reflexivity.
Qed.
Print Assumptions C87_parameters.
(** A node's cardinality is the hint for its tables, if all nodes with these tables that have a cardinality agree. *)
Theorem C87_parameters_partial : forall t p r n, params_from t p = Ok r -> node_of p n -> target_card t (data n) <> CNan ->
  (forall m, node_of p m -> seteq (tables m) (tables n) -> target_card t (data m) = target_card t (data n) \/ target_card t (data m) = CNan) ->
  dget (qp_cards r) (mkfs (tables n)) = Some (target_card t (data n)).
Proof.
  intros t p r n Hr Hn Hc Hu. destruct (C87_parameters t p) as (r' & Hr' & H & _). rewrite Hr in Hr'. injection Hr' as <-. rewrite H.
  destruct (lastval_some (all_say (card_says (target_card t)) p) (mkfs (tables n)) (target_card t (data n))) as [w Hw].
  { apply in_flat_map. exists n. split; [now apply preorder_spec|]. unfold card_says. destruct (target_card t (data n)); [congruence|now left|now left]. }
  rewrite Hw. f_equal. apply lastval_inv in Hw. apply in_flat_map in Hw as (m & Hm & Hin). apply preorder_spec in Hm. unfold card_says in Hin.
  destruct (target_card t (data m)) as [| |z] eqn:Em; [destruct Hin| |]; (destruct Hin as [Hin|[]]; injection Hin as Hk <-; symmetry in Hk; apply mkfs_eq in Hk).
  - destruct (Hu m Hm) as [E|E]; [intros x; symmetry; apply Hk|congruence|congruence].
  - destruct (Hu m Hm) as [E|E]; [intros x; symmetry; apply Hk|congruence|congruence].
Qed.
Print Assumptions C87_parameters_partial.
(** Which cardinality is used: the estimate, the measurement, or the measurement if it is a number and the estimate otherwise. *)
Theorem C87_target_cardinality : forall d,
  target_card TEstimated d = est d /\ target_card TActual d = m_card (meas d) /\
  (forall z, m_card (meas d) = CVal z -> target_card TActualOrEstimated d = CVal z) /\
  ((forall z, m_card (meas d) <> CVal z) -> target_card TActualOrEstimated d = est d).
Proof.
  intros d. unfold target_card, is_valid. repeat split; [intros z ->; reflexivity|].
  intros H. destruct (m_card (meas d)) as [| |z]; [reflexivity..|]. now destruct (H z).
Qed.
Print Assumptions C87_target_cardinality.
Example ex_explode : exists t a q, explode true good_plan = Ok (t, a, q) /\ order_of t = Some (OrdJoin (OrdJoin (OrdTab 0) (OrdTab 1)) (OrdTab 2)) /\
  dget (oa_joins a) [0; 1; 2] = Some (1, None) /\ dget (oa_joins a) [0; 1] = Some (0, None) /\ dget (oa_scans a) (Some 1) = Some (0, None) /\ dget (qp_cards q) [1] = Some (CVal 20) /\
  unambiguous scan_says good_plan /\ unambiguous join_says good_plan.
Proof.
  eexists. eexists. eexists. split; [reflexivity|]. do 5 (split; [reflexivity|]). split; (vm_compute; repeat constructor; cbn; intuition discriminate).
Qed.
(** The condition of an index lookup below a join mentions the table above it: the inner join counts as a join of all three tables, the
    operator of the outer one is lost and so is its cardinality. *)
Definition index_plan : plan := join_of 3 (scan_of 2) (Node (xd (Some (PJoin 0)) None [] 0 (CVal 7) (CVal 7)) [scan_of 0; lookup_of 1 2] None).
Theorem C87_index_lookup_refuted : exists a r, ops_from false index_plan = Ok a /\ params_from TEstimated index_plan = Ok r /\
  plan_order index_plan (OrdJoin (OrdTab 2) (OrdJoin (OrdTab 0) (OrdTab 1))) /\ oa_joins a = [([0; 1; 2], (0, None))] /\
  oper (data index_plan) = Some (PJoin 3) /\ dget (qp_cards r) [0; 1; 2] = Some (CVal 7) /\ est (data index_plan) = CVal 100.
Proof.
  eexists. eexists. split; [reflexivity|]. split; [reflexivity|]. split; [|repeat split; reflexivity].
  eapply po_join; [reflexivity|reflexivity|now apply po_scan|]. eapply po_join; [reflexivity|reflexivity|now apply po_scan|now apply po_scan].
Qed.
Print Assumptions C87_index_lookup_refuted.
(** With include_workers, only the workers of the root are included. *)
Theorem C87_workers_refuted : forall w o, let p := Node (xd (Some (PJoin 0)) None [] w CNan CNan) [Node (xd (Some (PScan o)) (Some 1) [] w CNan CNan) [] None; scan_of 2] None in
  exists a, ops_from true p = Ok a /\ dget (oa_joins a) [1; 2] = Some (0, Some w) /\ dget (oa_scans a) (Some 1) = Some (o, None).
Proof. intros w o. eexists. split; [reflexivity|]. split; reflexivity. Qed.
Print Assumptions C87_workers_refuted.
(** explode_query_plan annotates the tree with actual cardinalities whenever estimates are asked for (its text "estimated" is not the one
    jointree_from_plan knows), while the parameters are the estimated ones. *)
Theorem C87_explode_refuted : forall p t a q, explode false p = Ok (t, a, q) -> tree_from SActual p = Ok t.
Proof.
  intros p t a q H. unfold explode in H. assert (E : forall n, tree_from SEstimated n = tree_from SActual n).
  { induction n as [d ks s IH _] using plan_ind2. cbn [tree_from]. destruct (op_scan d); [reflexivity|]. destruct (op_join d).
    - destruct ks as [|x [|y [|? ?]]]; try reflexivity. rewrite (IH x), (IH y) by (cbn; tauto). reflexivity.
    - destruct ks as [|x [|? ?]]; try reflexivity. apply IH. now left. }
  rewrite E in H. destruct (tree_from SActual p); [|discriminate]. cbn [rbind] in H. destruct (ops_from false p); [|discriminate]. cbn [rbind] in H. destruct (params_from TEstimated p); [|discriminate]. cbn [rbind] in H. congruence.
Qed.
Print Assumptions C87_explode_refuted.
Example ex_explode_estimated : exists a q, explode false (scan_of 4) = Ok (JScan false 4 (CVal 20), a, q) /\ qp_cards q = [([4], CVal 10)].
Proof. eexists. eexists. split; reflexivity. Qed.

(** ** C88: plans from join trees *)
(** With default operators, the plan has the shape of the tree, the operators and (for logical join trees) the annotated cardinalities. *)
Theorem C88_simple_partial : forall nt s j t, complete t -> exists p, to_query_plan nt [] [] None (Some s) (Some j) t = Ok p /\ shaped s j t p.
Proof.
  intros nt s j t. cbn [to_query_plan]. induction t as [lg|lg x c|lg o IHo i IHi c]; intros H; cbn [complete] in H; [destruct H| |].
  - cbn [make_simple]. unfold tree_card. cbn [dget]. destruct lg; (cbn [rbind]; eexists; split; [reflexivity|now constructor]).
  - destruct H as [H1 H2]. destruct (IHo H1) as (a & Ea & Sa). destruct (IHi H2) as (b & Eb & Sb). cbn [make_simple]. unfold tree_card. cbn [dget].
    assert (jt_empty o = false /\ jt_empty i = false) as [-> ->] by (destruct o, i; cbn in *; tauto). cbn [orb]. rewrite Ea, Eb.
    destruct lg; (cbn [rbind]; eexists; split; [reflexivity|]; eapply (sh_join _ _ _ _ _ _ _ a b); [reflexivity|reflexivity|reflexivity|assumption|assumption]).
Qed.
Print Assumptions C88_simple_partial.
Example ex_simple : exists p, to_query_plan (fun _ => 1) [] [] None (Some 0) (Some 1) (JJoin true (JScan true 5 (CVal 3)) (JScan true 6 (CVal 4)) (CVal 8)) = Ok p /\ map (fun n => est (data n)) (iternodes p) = [CVal 3; CVal 4; CVal 8].
Proof. eexists. split; reflexivity. Qed.
(** The tables are lost: the plan mentions no table, and has no join order. *)
Theorem C88_tables_refuted : forall nt cards workers s j t p, to_query_plan nt cards workers None (Some s) (Some j) t = Ok p -> tables p = [] /\ ~ exists o, plan_order p o.
Proof.
  intros nt cards workers s j t. cbn [to_query_plan]. induction t as [lg|lg x c|lg o IHo i IHi c]; intros p H; cbn [make_simple] in H; (destruct (tree_card cards _) as [e|]; [|discriminate]); cbn [rbind] in H.
  - discriminate.
  - injection H as <-. split; [reflexivity|]. intros [ord Ho]. inversion Ho; subst; cbn in *; discriminate.
  - destruct (jt_empty o || jt_empty i); [discriminate|]. destruct (make_simple nt cards s j o) as [a|]; [|discriminate]. cbn [rbind] in H. destruct (make_simple nt cards s j i) as [b|]; [|discriminate]. cbn [rbind] in H. injection H as <-.
    destruct (IHo a eq_refl) as [Ta Na]. destruct (IHi b eq_refl) as [Tb _]. split; [unfold new_node; cbn [tables own_tables base ftabs ktabs flat_map]; rewrite Ta, Tb; reflexivity|].
    intros [ord Ho]. inversion Ho; subst; cbn in *; try discriminate. match goal with H : [_; _] = [_; _] |- _ => injection H as <- <- end. apply Na. eauto.
Qed.
Print Assumptions C88_tables_refuted.
(** With an operator assignment there is no plan for any join. *)
Theorem C88_custom_join_refuted : forall nt cards workers ops fs fj lg o i c, poa_true ops = true -> exists e, to_query_plan nt cards workers (Some ops) fs fj (JJoin lg o i c) = Raise e.
Proof.
  intros nt cards workers ops fs fj lg o i c H. cbn [to_query_plan]. rewrite H. unfold make_custom. destruct (tree_card cards _) as [x|e]; [|eexists; reflexivity]. cbn [rbind].
  destruct (poa_get _ _ _) as [f|e]; [|eexists; reflexivity]. cbn [rbind]. destruct (match f with Some _ => _ | None => _ end) as [op|]; [|eexists; reflexivity]. destruct (jt_empty o); eexists; reflexivity.
Qed.
Print Assumptions C88_custom_join_refuted.
(** The operator assigned to a scan is ignored. *)
Theorem C88_custom_scan_refuted : forall nt id op t c, let ops := poa_set_scan poa_empty (mksa id op t None) in
  to_query_plan nt [] [] (Some ops) None None (JScan true t c) = Raise ValueError /\
  forall fb, exists p, to_query_plan nt [] [] (Some ops) (Some fb) None (JScan true t c) = Ok p /\ oper (data p) = Some (PScan fb).
Proof. intros nt id op t c. split; [reflexivity|]. intros fb. eexists. split; reflexivity. Qed.
Print Assumptions C88_custom_scan_refuted.
(** update_plan never returns. *)
Theorem C88_update_refuted : forall ops params simplify p, exists e, update_plan ops params simplify p = Raise e.
Proof.
  intros ops params simplify p. unfold update_plan. destruct (if simplify then canonical p else Ok p) as [q|e]; [|eexists; reflexivity]. cbn [rbind]. destruct (match ops with Some _ => _ | None => _ end); [|eexists; reflexivity]. cbn [rbind]. destruct params; eexists; reflexivity.
Qed.
Print Assumptions C88_update_refuted.

(** ** C89: JSON *)
Theorem C89_json_partial : forall p, (forall n, xnode p n -> writable n) -> exists j, write_plan p = Ok j /\ read_plan j = Ok p.
Proof. exact read_write. Qed.
Print Assumptions C89_json_partial.
Definition json_leaf (o : physop) (t : nat) (srt : list (list nat * bool)) (k : lkey) (c : card) : xplan := XNode (mkx 1 (Some o) (Some t) None srt 0 2 k c (Some 5) [] (CVal 4) (Some 7) None None []) [] None.
Definition json_join (a b : xplan) : xplan := XNode (mkx 2 (Some (PJoin 2)) None (Some [1; 2]) [] 0 0 LNone (CVal 50) None [(3, 4)] CNan None None None []) [a; b] None.
Example ex_json : forall n, xnode (json_join (json_leaf (PScan 1) 1 [] LNone (CVal 9)) (json_leaf (PScan 3) 2 [] LNone CInf)) n -> writable n.
Proof.
  intros n H. inversion H as [|d ks s c m Hc Hn|]; subst; [cbn; repeat split; lia|]. destruct Hc as [<-|[<-|[]]]; (inversion Hn as [|d' ks' s' c' m' Hc'|]; subst; [cbn; repeat split; lia|destruct Hc']).
Qed.
(** Plans with sort keys or subplans cannot be read. *)
Theorem C89_json_errors_refuted : forall p j, write_plan p = Ok j -> (exists n, xnode p n /\ let 'XNode d _ s := n in (x_sort d <> [] \/ s <> None)) -> exists e, read_plan j = Raise e.
Proof.
  intros p. induction p as [d ks s IH _] using xplan_ind2. intros j Hj (n & Hn & Hb). cbn [write_plan] in Hj. destruct (write_data d) as [jd|] eqn:Ed; [|discriminate]. cbn [rbind] in Hj.
  destruct (mapk write_plan ks) as [js|] eqn:Ek; [|discriminate]. cbn [rbind] in Hj. destruct (match s with Some _ => _ | None => _ end) as [s'|] eqn:Es; [|discriminate]. cbn [rbind] in Hj. injection Hj as <-. cbn [read_plan].
  destruct (mapk read_plan js) as [l|e] eqn:El; [|eexists; reflexivity]. cbn [rbind]. destruct (read_data jd) as [x|e] eqn:Ex; [|eexists; reflexivity]. cbn [rbind].
  assert (Sj : j_sort jd = x_sort d). { unfold write_data in Ed. destruct (cget (x_card d)); [|discriminate]. cbn [rbind] in Ed. destruct (cget (x_acard d)); [|discriminate]. cbn [rbind] in Ed. now injection Ed as <-. }
  destruct s' as [[q t]|]; [eexists; reflexivity|exfalso].
  assert (s = None) as ->. { destruct s as [[q t]|]; [|reflexivity]. unfold rmap in Es. destruct (write_plan q); discriminate. }
  inversion Hn as [|? ? ? c m Hc Hm|]; subst.
  - destruct Hb as [Hb|Hb]; [|congruence]. unfold read_data in Ex. rewrite Sj in Ex. destruct (x_sort d); [congruence|discriminate].
  - assert (exists jc, write_plan c = Ok jc /\ exists r, read_plan jc = Ok r) as (jc & Hjc & r & Hr).
    { clear - Hc Ek El. revert js l Ek El. induction ks as [|k ks IHk]; intros js l Ek El; [destruct Hc|]. cbn [mapk] in Ek. destruct (write_plan k) as [jk|] eqn:Ejk; [|discriminate]. cbn [rbind] in Ek.
      destruct (mapk write_plan ks) as [js'|] eqn:Ejs; [|discriminate]. cbn [rbind] in Ek. injection Ek as <-. cbn [mapk] in El. destruct (read_plan jk) as [r|] eqn:Er; [|discriminate]. cbn [rbind] in El.
      destruct (mapk read_plan js') as [l'|] eqn:El'; [|discriminate]. destruct Hc as [<-|Hc]; [exists jk; split; [exact Ejk|eauto]|]. now apply (IHk Hc js' l'). }
    destruct (IH c Hc jc Hjc) as [e He]; [exists n; auto|]. congruence.
Qed.
Print Assumptions C89_json_errors_refuted.
(** A lookup key is read, but the plan's tables cannot be determined any more. *)
Theorem C89_lookup_key_refuted : exists p j q, write_plan p = Ok j /\ read_plan j = Ok q /\ x_tables p = Ok [1; 2] /\ x_tables q = Raise AttributeError.
Proof. exists (json_leaf (PScan 1) 1 [] (LExpr [2]) (CVal 9)). eexists. eexists. split; [reflexivity|]. split; [reflexivity|]. split; reflexivity. Qed.
Print Assumptions C89_lookup_key_refuted.
(** Cardinalities are written as floats. *)
Theorem C89_large_cardinality_refuted : exists p j q, write_plan p = Ok j /\ read_plan j = Ok q /\ q <> p.
Proof.
  exists (json_leaf (PScan 1) 1 [] LNone (CVal (2 ^ 53 + 1))). eexists. eexists. split; [vm_compute; reflexivity|]. split; [vm_compute; reflexivity|]. vm_compute. discriminate.
Qed.
Print Assumptions C89_large_cardinality_refuted.

(** ** C90: access to attributes *)
Theorem C90_tables : forall tabs t l, (plan_contains tabs (ATab t) = true <-> In t tabs) /\ (plan_contains tabs (ATabs l) = true <-> incl l tabs).
Proof. intros tabs t l. split; cbn [plan_contains]; [apply mem_In|apply subsetb_incl]. Qed.
Print Assumptions C90_tables.
(** Reading an attribute: parameters first, then estimates, then measures of executed plans; a KeyError if there is none. *)
Theorem C90_item : forall (V : Type) (params estimates measured : dict string V) mt s,
  (forall v, dget params s = Some v -> plan_item params estimates measured mt s = Ok v) /\
  (dget params s = None -> forall v, dget estimates s = Some v -> plan_item params estimates measured mt s = Ok v) /\
  (dget params s = None -> dget estimates s = None -> forall v, mt = true -> dget measured s = Some v -> plan_item params estimates measured mt s = Ok v) /\
  (plan_item params estimates measured mt s = Raise KeyError <-> dget params s = None /\ dget estimates s = None /\ (mt = true -> dget measured s = None)).
Proof.
  intros V params estimates measured mt s. unfold plan_item. split; [intros v ->; reflexivity|]. split; [intros -> v ->; reflexivity|]. split; [intros -> -> v -> ->; reflexivity|].
  destruct (dget params s); [split; [discriminate|intros (H & _); discriminate]|]. destruct (dget estimates s); [split; [discriminate|intros (_ & H & _); discriminate]|].
  destruct mt; [destruct (dget measured s); split; try discriminate; auto; intros (_ & _ & H); specialize (H eq_refl); discriminate|]. split; auto. intros _. split; [reflexivity|]. split; [reflexivity|discriminate].
Qed.
Print Assumptions C90_item.
(** [name in plan] is never true for an attribute name: texts are treated as collections of tables. *)
Theorem C90_contains_refuted : forall (V : Type) (params estimates measured : dict string V) mt tabs s v, s <> EmptyString -> plan_item params estimates measured mt s = Ok v ->
  plan_contains tabs (AText s) = false.
Proof. intros V params estimates measured mt tabs s v Hs _. destruct s; [congruence|reflexivity]. Qed.
Print Assumptions C90_contains_refuted.
(** The actual cardinality cannot be read under its name, since the estimates have the same one. *)
Theorem C90_shadowed_refuted : forall (V : Type) (params estimates measured : dict string V) mt e a, dget params "cardinality"%string = None -> dget estimates "cardinality"%string = Some e ->
  dget measured "cardinality"%string = Some a -> plan_item params estimates measured mt "cardinality"%string = Ok e.
Proof. intros V params estimates measured mt e a H1 H2 _. unfold plan_item. now rewrite H1, H2. Qed.
Print Assumptions C90_shadowed_refuted.
Example ex_item : plan_item [("base_table", 1)]%string [("cardinality", 2); ("cost", 3)]%string [("cardinality", 4); ("execution_time", 5)]%string true "execution_time"%string = Ok 5 /\
  plan_item [("base_table", 1)]%string [("cardinality", 2)]%string [("cardinality", 4)]%string true "cardinality"%string = Ok 2.
Proof. split; reflexivity. Qed.
