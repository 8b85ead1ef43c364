(** C81 - C86: nodes, shapes, canonical form, equality, derived plans and metrics of query plans. *)
From Coq Require Import List Bool Arith ZArith Lia.
From Verif Require Import PyBase Hint_model Card_model Card_spec Card_proofs QPlan_model PGHint_spec QPlan_spec QPlan_proofs.
Import ListNotations.

(** ** Example plans: (0 JOIN Hash(1)) JOIN 2 below an aggregate, with cardinalities. *)
Definition ex_data (ty : nat) (o : option physop) (b : option nat) (e a : card) : pdata := mkpd ty o b [] [] 0 e (Some 1) [] (mkmeas a None None None []).
Definition ex_scan (t : nat) : plan := Node (ex_data 1 (Some (PScan 0)) (Some t) (CVal 10) (CVal 20)) [] None.
Definition ex_hash (p : plan) : plan := Node (ex_data 2 None None (CVal 10) (CVal 20)) [p] None.
Definition ex_join (a b : plan) : plan := Node (ex_data 3 (Some (PJoin 1)) None (CVal 5) (CVal 7)) [a; b] None.
Definition ex_agg (p : plan) : plan := Node (ex_data 4 None None (CVal 1) (CVal 1)) [p] None.
Definition ex_plan : plan := ex_agg (ex_join (ex_join (ex_scan 0) (ex_hash (ex_scan 1))) (ex_scan 2)).
(** The same plan with a subplan (a CTE scanned as table 9) at the leaf of table 2. *)
Definition ex_with_sub : plan := ex_agg (ex_join (ex_scan 0) (Node (ex_data 1 (Some (PScan 0)) (Some 2) (CVal 10) (CVal 20)) [] (Some (ex_join (ex_scan 5) (ex_scan 6), Some 9)))).
Definition ex_append : plan := Node (ex_data 6 None None (CVal 1) (CVal 1)) [ex_scan 0; ex_scan 1; ex_scan 2] None.

(** ** C81: traversals *)
(** iternodes lists exactly the nodes reachable through children, with the root last. *)
Theorem C81_iternodes : forall p, (forall n, In n (iternodes p) <-> node_of p n) /\ exists l, iternodes p = l ++ [p].
Proof. intros p. split; [apply iternodes_spec|]. destruct p as [d ks s]. eexists. reflexivity. Qed.
Print Assumptions C81_iternodes.
(** Iterating over a plan lists exactly its nodes including those of subplans, with the root first, and find_all_nodes is its filter. *)
Theorem C81_iteration : forall p, (forall n, In n (iter_all p) <-> node_all p n) /\ hd_error (iter_all p) = Some p /\ forall f, find_all f p = filter f (iter_all p).
Proof. intros p. split; [apply iter_all_spec|]. split; [destruct p; reflexivity|]. intros f. apply find_all_spec. Qed.
Print Assumptions C81_iteration.
(** Every node is listed once per occurrence: the number of nodes is the size of the tree. *)
Fixpoint plan_size (p : plan) : nat := match p with Node _ ks _ => S (list_sum (map plan_size ks)) end.
Theorem C81_iternodes_length : forall p, List.length (iternodes p) = plan_size p.
Proof.
  induction p as [d ks s IH _] using plan_ind2. cbn [iternodes plan_size]. rewrite app_length, Nat.add_comm. cbn [Datatypes.length Nat.add]. f_equal.
  induction ks as [|c ks IHk]; [reflexivity|]. cbn [flat_map map]. rewrite app_length, (IH c) by now left. change (list_sum (plan_size c :: map plan_size ks)) with (plan_size c + list_sum (map plan_size ks)). f_equal. apply IHk. intros x Hx. apply IH. now right.
Qed.
Print Assumptions C81_iternodes_length.
Theorem C81_depth : forall p, path p (plan_depth p) /\ forall k, path p k -> k <= plan_depth p.
Proof. exact depth_path. Qed.
Print Assumptions C81_depth.
Theorem C81_tables : forall p t, In t (tables p) <-> mentions p t.
Proof. exact tables_spec. Qed.
Print Assumptions C81_tables.
(** lookup returns a node with exactly the given tables, and fails only if no node (outside of subplans) has them. *)
Theorem C81_lookup_partial : forall p needle, exists o, lookup p needle = Ok o /\
  match o with Some n => node_of p n /\ seteq (tables n) needle | None => forall n, node_of p n -> ~ seteq (tables n) needle end.
Proof.
  intros p needle. destruct (lookup_total p needle) as [o Ho]. exists o. split; [exact Ho|]. destruct o as [n|]; [now apply lookup_sound|now apply lookup_none].
Qed.
Print Assumptions C81_lookup_partial.
(** find_first_node returns a node with the property, finds one in every simple plan that has one, and the outer direction returns the first
    one of the depth first order. *)
Theorem C81_find_first_partial : forall f outer p,
  (forall n, find_first f outer p = Ok (Some n) -> node_all p n /\ f n = true) /\
  (simple p -> (exists o, find_first f outer p = Ok o /\ (o = None <-> forall n, node_all p n -> f n = false)) /\
               find_first f true p = Ok (hd_error (filter f (iter_all p)))).
Proof.
  intros f outer p. split; [apply find_first_sound|]. intros Hs. split; [|now apply find_first_outer].
  destruct (find_first_complete f outer p Hs) as (o & Ho & Hn). exists o. split; [exact Ho|]. split; [exact Hn|]. intros H. destruct o as [n|]; [|reflexivity].
  destruct (find_first_sound f outer p n Ho) as [Hin Hf]. rewrite (H n Hin) in Hf. discriminate.
Qed.
Print Assumptions C81_find_first_partial.
(** Subplans of nodes with less than two children are not searched: the joins of [ex_with_sub]'s subplan are in the plan, but not found. *)
Theorem C81_find_first_subplan_refuted : exists p n, node_all p n /\ is_join n = true /\ find_first is_join true p = Ok None.
Proof.
  exists (ex_agg (Node (ex_data 1 (Some (PScan 0)) (Some 2) (CVal 10) (CVal 20)) [] (Some (ex_join (ex_scan 5) (ex_scan 6), Some 9)))), (ex_join (ex_scan 5) (ex_scan 6)).
  split; [|split; reflexivity]. eapply na_kid; [now left|]. eapply na_sub; [reflexivity|apply na_self].
Qed.
Print Assumptions C81_find_first_subplan_refuted.
Theorem C81_find_first_many_children_refuted : find_first is_join true ex_append = Raise AttributeError /\ find_first (fun n => deqb (base (data n)) (Some 1)) true ex_append = Raise AttributeError /\
  exists n, node_of ex_append n /\ base (data n) = Some 1.
Proof. split; [reflexivity|]. split; [reflexivity|]. exists (ex_scan 1). split; [|reflexivity]. eapply no_kid; [right; now left|apply no_self]. Qed.
Print Assumptions C81_find_first_many_children_refuted.
(** iternodes and lookup do not see subplans. *)
Theorem C81_subplans_refuted : exists n, node_all ex_with_sub n /\ ~ In n (iternodes ex_with_sub) /\ seteq (tables n) [5; 6] /\ lookup ex_with_sub [5; 6] = Ok None.
Proof.
  exists (ex_join (ex_scan 5) (ex_scan 6)). split.
  { eapply na_kid; [now left|]. eapply na_kid; [right; now left|]. eapply na_sub; [reflexivity|apply na_self]. }
  split. { intros H. cbn in H. repeat destruct H as [H|H]; try discriminate; exact H. } split; [intros x; cbn; tauto|reflexivity].
Qed.
Print Assumptions C81_subplans_refuted.
Example ex_simple : simple ex_plan /\ List.length (iternodes ex_plan) = 7 /\ tables ex_plan = [0; 1; 2] /\ plan_depth ex_plan = 5 /\
  lookup ex_plan [1; 0] = Ok (Some (ex_join (ex_scan 0) (ex_hash (ex_scan 1)))).
Proof.
  split; [|repeat split; reflexivity]. intros n Hn. apply iter_all_spec in Hn. cbn in Hn. repeat destruct Hn as [<-|Hn]; try (destruct Hn); (split; [cbn; lia|reflexivity]).
Qed.

(** ** C82: shapes *)
(** is_bushy is the negation of is_linear. *)
Theorem C82_bushy_not_linear : forall p, is_bushy p = rmap negb (is_linear p).
Proof.
  intros p. unfold is_bushy, is_linear. destruct (is_scan p); [reflexivity|]. destruct (child_join (outer_child p)) as [o|]; cbn [rbind rmap]; [|reflexivity].
  destruct (child_join (inner_child p)) as [i|]; cbn [rbind rmap]; [|reflexivity]. now destruct o, i.
Qed.
Print Assumptions C82_bushy_not_linear.
(** The shape at the root is decided correctly. *)
Lemma root_shape p a b : simple p -> no_subplans p -> is_scan p = false -> kids p = [a; b] ->
  exists ja jb, child_join (outer_child p) = Ok ja /\ child_join (inner_child p) = Ok jb /\ (ja = true <-> has_join a) /\ (jb = true <-> has_join b).
Proof.
  intros Hs Hn Hsc Hk. unfold outer_child, inner_child. rewrite Hk.
  destruct (child_join_spec a) as (ja & Ea & Ha); [eapply simple_kid; [exact Hs|]; rewrite Hk; now left|eapply no_sub_kid; [exact Hn|]; rewrite Hk; now left|].
  destruct (child_join_spec b) as (jb & Eb & Hb); [eapply simple_kid; [exact Hs|]; rewrite Hk; right; now left|eapply no_sub_kid; [exact Hn|]; rewrite Hk; right; now left|].
  exists ja, jb. auto.
Qed.
(** For joins: linear, left-deep and right-deep plans are recognised as such, i.e. the answer False is right. *)
Theorem C82_shapes_partial : forall p a b, simple p -> no_subplans p -> is_join p = true -> kids p = [a; b] ->
  (linear p -> is_linear p = Ok true /\ is_bushy p = Ok false) /\ (left_deep p -> is_left_deep p = Ok true) /\ (right_deep p -> is_right_deep p = Ok true).
Proof.
  intros p a b Hs Hn Hj Hk. assert (Hsc : is_scan p = false) by (unfold is_join, is_scan, op_join, op_scan in *; destruct (oper (data p)) as [[]|]; congruence).
  destruct (root_shape p a b Hs Hn Hsc Hk) as (ja & jb & Ea & Eb & Ha & Hb). unfold is_linear, is_bushy, is_left_deep, is_right_deep, rmap. rewrite Hsc, Ea, Eb. cbn [rbind].
  split; [|split]; intros H; specialize (H p a b (no_self p) Hj Hk).
  - destruct ja, jb; try (split; reflexivity). exfalso. apply H. split; [now apply Ha|now apply Hb].
  - destruct jb; [|reflexivity]. exfalso. apply H. now apply Hb.
  - destruct ja; [|reflexivity]. exfalso. apply H. now apply Ha.
Qed.
Print Assumptions C82_shapes_partial.
(** The exact meaning: only the topmost join is looked at. *)
Theorem C82_root_only : forall p a b, simple p -> no_subplans p -> is_join p = true -> kids p = [a; b] ->
  exists l r, is_left_deep p = Ok l /\ is_right_deep p = Ok r /\ is_linear p = Ok (l || r) /\ (l = true <-> ~ has_join b) /\ (r = true <-> ~ has_join a).
Proof.
  intros p a b Hs Hn Hj Hk. assert (Hsc : is_scan p = false) by (unfold is_join, is_scan, op_join, op_scan in *; destruct (oper (data p)) as [[]|]; congruence).
  destruct (root_shape p a b Hs Hn Hsc Hk) as (ja & jb & Ea & Eb & Ha & Hb). unfold is_linear, is_left_deep, is_right_deep, rmap. rewrite Hsc, Ea, Eb. cbn [rbind].
  exists (negb jb), (negb ja). split; [reflexivity|]. split; [reflexivity|]. split; [f_equal; apply orb_comm|].
  split; [destruct jb|destruct ja]; cbn [negb]; split; try congruence; try (intros H; exfalso; apply H; first [now apply Hb|now apply Ha]); intros _ H; first [apply Hb in H; discriminate|apply Ha in H; discriminate].
Qed.
Print Assumptions C82_root_only.
(** A bushy plan joined with a base table counts as linear and left-deep. *)
Definition deep_bushy : plan := ex_join (ex_join (ex_join (ex_scan 0) (ex_scan 1)) (ex_join (ex_scan 2) (ex_scan 3))) (ex_scan 4).
Theorem C82_linear_refuted : is_linear deep_bushy = Ok true /\ is_left_deep deep_bushy = Ok true /\ ~ linear deep_bushy /\ ~ left_deep deep_bushy.
Proof.
  assert (J : forall x y, has_join (ex_join x y)) by (intros x y; exists (ex_join x y); split; [apply no_self|reflexivity]).
  split; [reflexivity|]. split; [reflexivity|]. split; intros H.
  - eapply (H (ex_join (ex_join (ex_scan 0) (ex_scan 1)) (ex_join (ex_scan 2) (ex_scan 3)))); [|reflexivity|reflexivity|split; apply J]. eapply no_kid; [now left|apply no_self].
  - eapply (H (ex_join (ex_join (ex_scan 0) (ex_scan 1)) (ex_join (ex_scan 2) (ex_scan 3)))); [|reflexivity|reflexivity|apply J]. eapply no_kid; [now left|apply no_self].
Qed.
Print Assumptions C82_linear_refuted.
(** No plan with a join is ever a zig-zag plan, e.g. not (0 JOIN (1 JOIN 2)) JOIN 3, which is one. *)
Definition zz : plan := ex_join (ex_join (ex_scan 0) (ex_join (ex_scan 1) (ex_scan 2))) (ex_scan 3).
Theorem C82_zigzag_refuted : (forall p, is_scan p = false -> is_zigzag p <> Ok true) /\ zigzag zz.
Proof.
  split.
  - intros p Hp. unfold is_zigzag, is_linear, is_left_deep, is_right_deep, rmap. rewrite Hp. destruct (child_join (outer_child p)) as [o|]; cbn [rbind]; [|discriminate]. destruct (child_join (inner_child p)) as [i|]; cbn [rbind]; [|discriminate].
    destruct o, i; cbn; discriminate.
  - assert (J : forall x y, has_join (ex_join x y)) by (intros x y; exists (ex_join x y); split; [apply no_self|reflexivity]).
    assert (S : forall t, ~ has_join (ex_scan t)) by (intros t (n & Hn & Hj); apply iternodes_spec in Hn; cbn in Hn; destruct Hn as [<-|[]]; discriminate).
    split; [|split].
    + intros n a b Hn Hj Hk [Ha Hb]. apply iternodes_spec in Hn. cbn in Hn. repeat destruct Hn as [<-|Hn]; try (destruct Hn); try discriminate; injection Hk as <- <-; first [apply (S _ Ha)|apply (S _ Hb)].
    + intros H. eapply (H (ex_join (ex_scan 0) (ex_join (ex_scan 1) (ex_scan 2)))); [|reflexivity|reflexivity|apply J]. eapply no_kid; [now left|apply no_self].
    + intros H. eapply (H zz); [apply no_self|reflexivity|reflexivity|apply J].
Qed.
Print Assumptions C82_zigzag_refuted.
(** Plans with an auxiliary root node (an aggregate, a sort) cannot be asked at all. *)
Theorem C82_auxiliary_root_refuted : forall p c, is_scan p = false -> kids p = [c] ->
  is_linear p = Raise AttributeError /\ is_bushy p = Raise AttributeError /\ is_left_deep p = Raise AttributeError /\ is_right_deep p = Raise AttributeError /\ is_zigzag p = Raise AttributeError.
Proof.
  intros p c Hp Hk. unfold is_zigzag, is_linear, is_bushy, is_left_deep, is_right_deep, outer_child, inner_child. rewrite Hp, Hk. repeat split; reflexivity.
Qed.
Print Assumptions C82_auxiliary_root_refuted.
Example ex_left_deep : is_left_deep (ex_join (ex_join (ex_scan 0) (ex_hash (ex_scan 1))) (ex_scan 2)) = Ok true /\ is_right_deep (ex_join (ex_join (ex_scan 0) (ex_hash (ex_scan 1))) (ex_scan 2)) = Ok false.
Proof. split; reflexivity. Qed.

(** ** C83: canonical plans *)
(** A canonical plan consists of joins and of scans without children, has the same join order, is its own canonical form and mentions no
    other tables. *)
Theorem C83_canonical_partial : forall p q, canonical p = Ok q ->
  (forall n, node_all q n -> (is_scan n = true /\ kids n = []) \/ is_join n = true) /\ (forall o, plan_order p o <-> plan_order q o) /\ canonical q = Ok q /\
  (forall t, In t (tables q) -> In t (tables p)).
Proof.
  intros p q H. split; [now apply canonical_nodes with p|]. split; [intros o; now apply canonical_order|]. split; [now apply canonical_idem with p|].
  intros t Ht. apply tables_spec in Ht. apply tables_spec. now apply canonical_tables with q.
Qed.
Print Assumptions C83_canonical_partial.
(** The canonical form exists if every auxiliary node has exactly one child. *)
Theorem C83_total : forall p, (forall n, node_all p n -> is_scan n = false -> is_join n = false -> List.length (kids n) = 1) -> exists q, canonical p = Ok q.
Proof.
  induction p as [d ks s IH IHs] using plan_ind2. intros H. rewrite canonical_eq.
  assert (exists s', match s with Some (q, t) => rmap (fun q' => Some (q', t)) (canonical q) | None => Ok None end = Ok s') as [s' ->].
  { destruct s as [[q t]|]; [|eexists; reflexivity]. destruct (IHs q t eq_refl) as [q' Hq]; [intros n Hn; apply H; eapply na_sub; [reflexivity|exact Hn]|]. unfold rmap. rewrite Hq. eexists. reflexivity. }
  cbn [rbind]. assert (K : forall c, In c ks -> exists q, canonical c = Ok q) by (intros c Hc; apply IH; [exact Hc|]; intros n Hn; apply H; eapply na_kid; [exact Hc|exact Hn]).
  destruct (op_scan d) eqn:E1; [eexists; reflexivity|]. destruct (op_join d) eqn:E2.
  - assert (exists ks', pmapM canonical ks = Ok ks') as [ks' ->]; [|unfold rmap; eexists; reflexivity]. clear - K. induction ks as [|c ks IHk]; [eexists; reflexivity|]. cbn [pmapM].
    destruct (K c (or_introl eq_refl)) as [c' ->]. destruct IHk as [r ->]; [intros x Hx; apply K; now right|]. eexists. reflexivity.
  - specialize (H _ (na_self _) E1 E2). cbn [kids] in H. destruct ks as [|c [|? ?]]; try discriminate. apply K. now left.
Qed.
Print Assumptions C83_total.
Example ex_canonical : canonical ex_plan = Ok (ex_join (ex_join (ex_scan 0) (ex_scan 1)) (ex_scan 2)) /\ plan_order ex_plan (OrdJoin (OrdJoin (OrdTab 0) (OrdTab 1)) (OrdTab 2)).
Proof.
  split; [reflexivity|]. eapply po_aux; [reflexivity|reflexivity|reflexivity|]. eapply po_join; [reflexivity|reflexivity| |now apply po_scan].
  eapply po_join; [reflexivity|reflexivity|now apply po_scan|]. eapply po_aux; [reflexivity|reflexivity|reflexivity|now apply po_scan].
Qed.
(** Auxiliary nodes without a single input (a Result node, an Append) raise an AttributeError; tables and subplans of auxiliary nodes are lost. *)
Theorem C83_canonical_refuted : canonical ex_append = Raise AttributeError /\ (forall d, op_scan d = false -> op_join d = false -> canonical (Node d [] None) = Raise AttributeError) /\
  exists p q, canonical p = Ok q /\ In 5 (tables p) /\ ~ In 5 (tables q).
Proof.
  split; [reflexivity|]. split; [intros d H1 H2; cbn; now rewrite H1, H2|].
  exists (Node (ex_data 4 None None (CVal 1) (CVal 1)) [ex_scan 0] (Some (ex_scan 5, None))), (ex_scan 0). split; [reflexivity|]. split; cbn; [tauto|]. intros [H|[]]. discriminate.
Qed.
Print Assumptions C83_canonical_refuted.

(** ** C84: equality *)
Theorem C84_equivalence : (forall p, plan_eqb p p = true) /\ (forall p q, plan_eqb p q = true -> plan_eqb q p = true) /\
  (forall p q r, plan_eqb p q = true -> plan_eqb q r = true -> plan_eqb p r = true).
Proof. split; [exact plan_eqb_refl|]. split; [exact plan_eqb_sym|exact plan_eqb_trans]. Qed.
Print Assumptions C84_equivalence.
Theorem C84_hash : forall hty hbase htup p q, plan_eqb p q = true -> plan_hash hty hbase htup p = plan_hash hty hbase htup q.
Proof. exact plan_eqb_hash. Qed.
Print Assumptions C84_hash.
(** Equal plans have the same shape and the same base tables; if node types determine operators, they have the same join order. *)
Theorem C84_same_order_partial : forall typed p q, (forall n, node_of p n \/ node_of q n -> oper (data n) = typed (ntype (data n))) -> plan_eqb p q = true ->
  plan_depth p = plan_depth q /\ List.length (iternodes p) = List.length (iternodes q) /\ forall o, plan_order p o -> plan_order q o.
Proof.
  intros typed p. induction p as [d ks s IH _] using plan_ind2. intros [e ls s'] Ht H. pose proof H as H0. apply plan_eqb_spec in H as (H1 & H2 & H3). cbn [data kids] in *.
  assert (Eo : oper d = oper e).
  { pose proof (Ht (Node d ks s) (or_introl (no_self _))) as T1. pose proof (Ht (Node e ls s') (or_intror (no_self _))) as T2. cbn [data] in T1, T2. congruence. }
  assert (K : Forall2 (fun x y => plan_depth x = plan_depth y /\ List.length (iternodes x) = List.length (iternodes y) /\ forall o, plan_order x o -> plan_order y o) ks ls).
  { assert (Hk : forall n, (exists c, In c ks /\ node_of c n) \/ (exists c, In c ls /\ node_of c n) -> oper (data n) = typed (ntype (data n))).
    { intros n [(c & Hc & Hn)|(c & Hc & Hn)]; apply Ht; [left|right]; eapply no_kid; eassumption. }
    clear - H3 IH Hk. induction H3 as [|x y l m Hxy _ IHl]; [constructor|]. constructor.
    - apply (IH x (or_introl eq_refl)); [|exact Hxy]. intros n [Hn|Hn]; apply Hk; [left; exists x|right; exists y]; (split; [now left|exact Hn]).
    - apply IHl; [intros c Hc; apply IH; now right|]. intros n [(c & Hc & Hn)|(c & Hc & Hn)]; apply Hk; [left|right]; exists c; (split; [now right|exact Hn]). }
  split; [|split].
  - cbn [plan_depth]. enough (map plan_depth ks = map plan_depth ls) as -> by reflexivity. clear - K. induction K as [|x y l m (E & _) _ IH]; [reflexivity|]. cbn [map]. now rewrite E, IH.
  - cbn [iternodes]. rewrite !app_length. f_equal. clear - K. induction K as [|x y l m (_ & E & _) _ IH]; [reflexivity|]. cbn [flat_map]. now rewrite !app_length, E, IH.
  - intros o Ho. inversion Ho; subst; unfold is_scan, is_join, op_scan, op_join in *; cbn [data kids] in *; subst.
    + apply po_scan; unfold is_scan, op_scan; cbn [data]; [now rewrite <- Eo|congruence].
    + inversion K as [|? a' ? l' Ha Hl]; subst. inversion Hl as [|? b' ? l'' Hb Hl']; subst. inversion Hl'; subst.
      apply (po_join _ a' b'); unfold is_join, op_join; cbn [data kids]; [now rewrite <- Eo|reflexivity|now apply Ha|now apply Hb].
    + inversion K as [|? a' ? l' Ha Hl]; subst. inversion Hl; subst.
      apply (po_aux _ a'); unfold is_scan, is_join, op_scan, op_join; cbn [data kids]; [now rewrite <- Eo|now rewrite <- Eo|reflexivity|now apply Ha].
Qed.
Print Assumptions C84_same_order_partial.
(** Equal plans can have different tables (filter predicates and subplans are not compared), operators and join orders. *)
Theorem C84_equal_tables_refuted : exists p q, plan_eqb p q = true /\ ~ seteq (tables p) (tables q) /\ oper (data p) <> oper (data q) /\ est (data p) <> est (data q).
Proof.
  exists (ex_scan 0), (Node (mkpd 1 (Some (PScan 1)) (Some 0) [7] [] 4 (CVal 99) None [] no_measures) [] (Some (ex_scan 8, None))).
  split; [reflexivity|]. split; [|split; cbn; congruence]. intros H. specialize (H 7). cbn in H. destruct H as [_ H]. destruct H as [H|[]]; [tauto|discriminate].
Qed.
Print Assumptions C84_equal_tables_refuted.

(** ** C85: derived plans *)
(** Every derived plan is equal to the original one and has the same nodes up to the changed numbers. *)
Definition same_but (R : pdata -> pdata -> Prop) (p q : plan) : Prop := Forall2 (fun n m => R (data n) (data m)) (iter_all p) (iter_all q).
Lemma Forall2_flat_map {X Y} (R : Y -> Y -> Prop) (g h : X -> list Y) l m (S : X -> X -> Prop) : Forall2 S l m -> (forall x y, In x l -> S x y -> Forall2 R (g x) (h y)) -> Forall2 R (flat_map g l) (flat_map h m).
Proof. induction 1 as [|x y l m H _ IH]; intros HH; [constructor|]. cbn [flat_map]. apply Forall2_app; [apply HH; [now left|assumption]|]. apply IH. intros a b Ha. apply HH. now right. Qed.
Lemma Forall2_map_r {X} (f : X -> X) l : Forall2 (fun x y => y = f x) l (map f l).
Proof. induction l; constructor; auto. Qed.
(** Replacing cardinality estimates with the actual ones. *)
Definition identity_kept (d e : pdata) : Prop := ntype e = ntype d /\ oper e = oper d /\ base e = base d /\ ftabs e = ftabs d /\ ktabs e = ktabs d /\ pworkers e = pworkers d.
Theorem C85_with_actual : forall cost p, plan_eqb p (with_actual cost p) = true /\ (forall t, In t (tables p) <-> In t (tables (with_actual cost p))) /\
  same_but (fun d e => identity_kept d e /\ est e = (if is_valid (m_card (meas d)) then m_card (meas d) else est d) /\ meas e = no_measures) p (with_actual cost p).
Proof.
  intros cost p.
  assert (E : plan_eqb p (with_actual cost p) = true).
  { induction p as [d ks s IH _] using plan_ind2. apply plan_eqb_spec. cbn [with_actual data kids]. split; [now destruct (is_valid (actual d))|]. split; [now destruct (is_valid (actual d))|].
    clear s. induction ks as [|c ks IHk]; [constructor|]. cbn [map]. constructor; [apply IH; now left|]. apply IHk. intros x Hx. apply IH. now right. }
  assert (F : same_but (fun d e => identity_kept d e /\ est e = (if is_valid (m_card (meas d)) then m_card (meas d) else est d) /\ meas e = no_measures) p (with_actual cost p)).
  { clear E. induction p as [d ks s IH IHs] using plan_ind2. unfold same_but. cbn [with_actual iter_all]. constructor.
    - cbn [data]. unfold actual. destruct (is_valid (m_card (meas d))); repeat split.
    - apply Forall2_app.
      + apply Forall2_flat_map with (S := fun x y => y = with_actual cost x); [apply Forall2_map_r|]. intros x y Hx ->. now apply IH.
      + destruct s as [[q t]|]; [|constructor]. now apply (IHs q t). }
  split; [exact E|]. split; [|exact F].
  clear E F. induction p as [d ks s IH IHs] using plan_ind2. intros t. cbn [with_actual tables]. rewrite !dedup_In, !in_app_iff, !in_flat_map.
  assert (O : own_tables d = own_tables (if is_valid (actual d) then mkpd (ntype d) (oper d) (base d) (ftabs d) (ktabs d) (pworkers d) (actual d)
      (match cost with Some f => f (Node d ks s) (actual d) | None => None end) (e_extra d) no_measures else mkpd (ntype d) (oper d) (base d) (ftabs d) (ktabs d) (pworkers d) (est d) (ecost d) (e_extra d) no_measures)) by now destruct (is_valid (actual d)).
  rewrite <- O. assert (OM : forall A B C D : Prop, (A <-> B) -> (C <-> D) -> (A \/ C <-> B \/ D)) by tauto. apply or_iff_compat_l. apply OM.
  - split; [intros (c & Hc & Ht); exists (with_actual cost c); split; [now apply in_map|exact (proj1 (IH c Hc t) Ht)]|]. intros (c & Hc & Ht). apply in_map_iff in Hc as (x & <- & Hx). exists x. split; [assumption|]. exact (proj2 (IH x Hx t) Ht).
  - destruct s as [[q x]|]; [|tauto]. rewrite !in_app_iff. now rewrite (IHs q x eq_refl t).
Qed.
Print Assumptions C85_with_actual.
(** Scaling with all children. *)
Theorem C85_scale_partial : forall scale kest kact p, plan_eqb p (scale_plan scale kest kact true p) = true /\
  same_but (fun d e => identity_kept d e /\ ecost e = ecost d /\ e_extra e = e_extra d /\ est e = (if kest then scale (est d) else est d) /\
                       m_card (meas e) = (if kact then scale (m_card (meas d)) else m_card (meas d)) /\ m_time (meas e) = m_time (meas d)) p (scale_plan scale kest kact true p).
Proof.
  intros scale kest kact p. split.
  - induction p as [d ks s IH _] using plan_ind2. apply plan_eqb_spec. cbn [scale_plan data kids]. split; [reflexivity|]. split; [reflexivity|].
    clear s. induction ks as [|c ks IHk]; [constructor|]. cbn [map]. constructor; [apply IH; now left|]. apply IHk. intros x Hx. apply IH. now right.
  - induction p as [d ks s IH IHs] using plan_ind2. unfold same_but. cbn [scale_plan iter_all]. constructor.
    + cbn [data]. unfold scale_data. destruct kest, kact; repeat split.
    + apply Forall2_app.
      * apply Forall2_flat_map with (S := fun x y => y = scale_plan scale kest kact true x); [apply Forall2_map_r|]. intros x y Hx ->. now apply IH.
      * destruct s as [[q t]|]; [|constructor]. now apply (IHs q t).
Qed.
Print Assumptions C85_scale_partial.
(** Setting workers or estimates of the root changes nothing else, except that additional estimates are dropped. *)
Theorem C85_root_changes_partial : forall p w c cost keep,
  plan_eqb p (parallelize p w) = true /\ kids (parallelize p w) = kids p /\ subplan (parallelize p w) = subplan p /\ tables (parallelize p w) = tables p /\ pworkers (data (parallelize p w)) = w /\ meas (data (parallelize p w)) = meas (data p) /\
  let q := with_estimates p c cost keep in
  plan_eqb p q = true /\ kids q = kids p /\ subplan q = subplan p /\ tables q = tables p /\ identity_kept (data p) (data q) /\
  (forall x, c = Some x -> est (data q) = x) /\ (c = None -> est (data q) = est (data p)) /\ (keep = true -> meas (data q) = meas (data p)).
Proof.
  intros [d ks s] w c cost keep. cbn [parallelize with_estimates kids subplan data].
  assert (R : forall d' : pdata, ntype d' = ntype d -> base d' = base d -> plan_eqb (Node d ks s) (Node d' ks s) = true).
  { intros d' H1 H2. apply plan_eqb_spec. cbn [data kids]. split; [now symmetry|]. split; [now symmetry|]. clear. induction ks; constructor; [apply plan_eqb_refl|assumption]. }
  split; [now apply R|]. split; [reflexivity|]. split; [reflexivity|]. split; [reflexivity|]. split; [reflexivity|]. split; [reflexivity|].
  split; [now apply R|]. split; [reflexivity|]. split; [reflexivity|]. split; [reflexivity|]. split; [repeat split|]. split; [intros x ->; reflexivity|]. split; [intros ->; reflexivity|]. intros ->. reflexivity.
Qed.
Print Assumptions C85_root_changes_partial.
(** Scaling actual cardinalities loses the cache statistics; scaling without children still scales subplans; new estimates drop additional ones. *)
Theorem C85_losses_refuted :
  (exists p, m_hits (meas (data p)) = Some 3 /\ m_hits (meas (data (scale_plan (fun c => c) false true false p))) = None) /\
  (exists p q t, subplan p = Some (q, t) /\ forall scale, exists q', subplan (scale_plan scale true false false p) = Some (q', t) /\ est (data q') = scale (est (data q))) /\
  (exists p, e_extra (data p) = [(1, 2)] /\ e_extra (data (with_estimates p (Some (CVal 3)) None true)) = []).
Proof.
  split; [|split].
  - exists (Node (mkpd 1 None None [] [] 0 CNan None [] (mkmeas (CVal 4) None (Some 3) (Some 5) [])) [] None). split; reflexivity.
  - exists (Node (ex_data 3 (Some (PJoin 1)) None (CVal 5) (CVal 7)) [ex_scan 0; ex_scan 1] (Some (ex_scan 2, None))), (ex_scan 2), None. split; [reflexivity|]. intros scale. eexists. split; reflexivity.
  - exists (Node (mkpd 1 None None [] [] 0 CNan None [(1, 2)] no_measures) [] None). split; reflexivity.
Qed.
Print Assumptions C85_losses_refuted.
Example ex_derived : est (data (with_actual None ex_plan)) = CVal 1 /\ map (fun n => est (data n)) (iter_all (with_actual None ex_plan)) = [CVal 1; CVal 7; CVal 7; CVal 20; CVal 20; CVal 20; CVal 20].
Proof. split; reflexivity. Qed.

(** ** C86: metrics *)
Local Open Scope Z_scope.
Definition actual_value (n : plan) : Z := match m_card (meas (data n)) with CVal z => z | _ => 0 end.
Definition counted (aux : bool) (n : plan) : bool := aux || is_join n || is_scan n.
Definition zsum (l : list Z) : Z := fold_right Z.add 0 l.
(** All nodes have been executed and have a known number of rows. *)
Definition measured (p : plan) : Prop := forall n, node_of p n -> exists z, m_card (meas (data n)) = CVal z /\ 0 <= z.
Lemma zsum_app l m : zsum (l ++ m) = zsum l + zsum m.
Proof. induction l as [|x l IH]; cbn [zsum app fold_right] in *; [reflexivity|]. unfold zsum in *. cbn. rewrite IH. lia. Qed.
Lemma zsum_nonneg l : (forall x, In x l -> 0 <= x) -> 0 <= zsum l.
Proof. induction l as [|x l IH]; intros H; cbn; [lia|]. pose proof (H x (or_introl eq_refl)). enough (0 <= zsum l) by (unfold zsum in *; lia). apply IH. intros y Hy. apply H. now right. Qed.
Definition rows_of (aux : bool) (p : plan) : Z := zsum (map actual_value (filter (counted aux) (iternodes p))).
Lemma actual_nonneg p : measured p -> forall n, node_of p n -> 0 <= actual_value n.
Proof. intros H n Hn. destruct (H n Hn) as (z & E & Hz). unfold actual_value. now rewrite E. Qed.
Lemma rows_nonneg aux p : measured p -> 0 <= rows_of aux p.
Proof.
  intros H. apply zsum_nonneg. intros x Hx. apply in_map_iff in Hx as (n & <- & Hn). apply filter_In in Hn as [Hn _]. apply (actual_nonneg p H). now apply iternodes_spec.
Qed.
(** C_out is the sum of the actual cardinalities of the nodes it counts. *)
Theorem C86_cout_partial : forall aux p, measured p -> rows_of aux p < 2 ^ 53 -> cout aux p = Ok (CVal (rows_of aux p)).
Proof.
  intros aux. induction p as [d ks s IH _] using plan_ind2. intros Hm Hlt. pose proof (Hm _ (no_self _)) as (z & Ez & Hz). cbn [data] in Ez.
  assert (Hk : forall c, In c ks -> measured c) by (intros c Hc n Hn; apply Hm; eapply no_kid; [exact Hc|exact Hn]).
  assert (E : rows_of aux (Node d ks s) = zsum (map (rows_of aux) ks) + (if aux || op_join d || op_scan d then z else 0)).
  { unfold rows_of. cbn [iternodes]. rewrite filter_app, map_app, zsum_app. f_equal.
    - clear. induction ks as [|c ks IH]; [reflexivity|]. cbn [flat_map map]. rewrite filter_app, map_app, zsum_app, IH. reflexivity.
    - cbn [filter]. unfold counted, is_join, is_scan. cbn [data]. destruct (aux || op_join d || op_scan d); [|reflexivity]. cbn. unfold actual_value. cbn [data]. rewrite Ez. lia. }
  set (own := if aux || op_join d || op_scan d then z else 0) in *. assert (Hown : 0 <= own) by (unfold own; destruct (_ || _); lia).
  assert (K : forall l acc, (forall c, In c l -> In c ks) -> 0 <= acc -> acc + zsum (map (rows_of aux) l) < 2 ^ 53 -> csum (cout aux) (CVal acc) l = Ok (CVal (acc + zsum (map (rows_of aux) l)))).
  { induction l as [|c l IHl]; intros acc Hl Ha Hb; cbn [csum map]; [f_equal; f_equal; cbn; lia|]. cbn [map] in Hb.
    change (zsum (rows_of aux c :: map (rows_of aux) l)) with (rows_of aux c + zsum (map (rows_of aux) l)) in *.
    pose proof (rows_nonneg aux c (Hk c (Hl c (or_introl eq_refl)))) as Hc.
    assert (0 <= zsum (map (rows_of aux) l)). { apply zsum_nonneg. intros x Hx. apply in_map_iff in Hx as (y & <- & Hy). apply rows_nonneg, Hk, Hl. now right. }
    rewrite (IH c) by first [apply Hl; now left|apply Hk, Hl; now left|lia]. cbn [rbind]. rewrite (cop_exact Add acc (rows_of aux c) (acc + rows_of aux c)) by first [reflexivity|lia]. cbn [rbind].
    rewrite IHl; [f_equal; f_equal; lia| |lia|lia]. intros x Hx. apply Hl. now right. }
  assert (0 <= zsum (map (rows_of aux) ks)). { apply zsum_nonneg. intros x Hx. apply in_map_iff in Hx as (y & <- & Hy). apply rows_nonneg, Hk, Hy. }
  cbn [cout]. unfold m_bool. rewrite Ez. cbn [orb negb]. rewrite (K ks 0); [|auto|lia|lia]. cbn [rbind]. rewrite Z.add_0_l.
  assert (Eo : (if aux || op_join d || op_scan d then actual d else CVal 0) = CVal own) by (unfold own, actual; rewrite Ez; now destruct (_ || _)).
  rewrite Eo. rewrite (cop_exact Add own (zsum (map (rows_of aux) ks)) (own + zsum (map (rows_of aux) ks))) by first [reflexivity|lia]. rewrite E. f_equal. f_equal. lia.
Qed.
Print Assumptions C86_cout_partial.
Example ex_cout : measured ex_plan /\ cout false ex_plan = Ok (CVal 74) /\ cout true ex_plan = Ok (CVal 95).
Proof. split; [|split; vm_compute; reflexivity]. intros n Hn. apply iternodes_spec in Hn. cbn in Hn. repeat destruct Hn as [<-|Hn]; try (destruct Hn); eexists; (split; [reflexivity|lia]). Qed.
(** The q-error lies between the neighbouring integers of (larger + 1) / (smaller + 1). *)
Theorem C86_qerror_partial : forall p e a, est (data p) = CVal e -> m_card (meas (data p)) = CVal a -> 0 <= e < 2 ^ 53 - 1 -> 0 <= a < 2 ^ 53 - 1 ->
  exists q, qerror p = Ok (CVal q) /\ 1 <= q /\ (Z.max e a + 1) / (Z.min e a + 1) <= q <= (Z.max e a + 1) / (Z.min e a + 1) + 1 /\ (e = a -> q = 1).
Proof.
  intros p e a He Ha Be Ba. unfold qerror, m_bool. rewrite Ha. cbn [orb negb]. unfold actual. rewrite He, Ha.
  assert (Emax : cmax (CVal e) (CVal a) = CVal (Z.max e a)). { unfold cmax, cgt, ccmp. rewrite Z.gtb_ltb. destruct (Z.ltb_spec e a); f_equal; lia. }
  assert (Emin : cmin (CVal e) (CVal a) = CVal (Z.min e a)). { unfold cmin, clt, ccmp. destruct (Z.ltb_spec a e); f_equal; lia. }
  rewrite Emax, Emin.
  assert (A : forall z, 0 <= z < 2 ^ 53 - 1 -> cop Add (CVal z) (ONum (NInt 1)) = Ok (CVal (z + 1))).
  { intros z Hz. change (cop Add (CVal z) (ONum (NInt 1))) with (cop Add (CVal z) (OCard (CVal 1))). apply cop_exact; [reflexivity|lia|lia|lia]. }
  rewrite !A by lia. cbn [rbind]. set (n := Z.max e a + 1). set (d := Z.min e a + 1). assert (Hd : 0 < d) by lia.
  destruct (cop_div n d (n / d) (if e =? a then 1 else n / d + 1)) as (q & Eq & Hq); [lia|lia| |].
  - destruct (Z.eqb_spec e a) as [<-|]; [subst n d; rewrite Z.max_id, Z.min_id, Z.div_same by lia; lia|]. pose proof (Z.mul_div_le n d Hd). pose proof (Z.mul_succ_div_gt n d Hd). nia.
  - exists q. split; [exact Eq|]. assert (1 <= n / d) by (apply Z.div_le_lower_bound; lia). destruct (Z.eqb_spec e a) as [<-|]; lia.
Qed.
Print Assumptions C86_qerror_partial.
(** Both operands are cardinalities, therefore the quotient is rounded to an integer: an estimate of 2 rows instead of 3 has q-error 1. *)
Theorem C86_qerror_rounded_refuted : exists p, est (data p) = CVal 2 /\ m_card (meas (data p)) = CVal 3 /\ qerror p = Ok (CVal 1).
Proof. exists (Node (ex_data 1 None None (CVal 2) (CVal 3)) [] None). split; [reflexivity|]. split; [reflexivity|]. vm_compute. reflexivity. Qed.
Print Assumptions C86_qerror_rounded_refuted.
(** Without measurements both metrics are NaN. *)
Theorem C86_not_executed : forall aux p, meas (data p) = no_measures -> cout aux p = Ok CNan /\ qerror p = Ok CNan.
Proof. intros aux [d ks s] H. cbn [data] in H. unfold qerror. cbn [cout data]. rewrite H. split; reflexivity. Qed.
Print Assumptions C86_not_executed.
Example ex_qerror : qerror (ex_scan 0) = Ok (CVal 2).
Proof. vm_compute. reflexivity. Qed.
