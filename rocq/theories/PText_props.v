(** C259–C262: the texts about a query plan. *)
From Coq Require Import String Ascii List Bool Arith Lia.
From Verif Require Import PyBase PText_model PText_spec PText_proofs.
Import ListNotations.
Open Scope list_scope.

Definition ex_node (ty : string) (table : option string) : node :=
  {| n_type := str ty; n_scan := match table with Some _ => true | None => false end;
     n_table := match table with Some t => str t | None => str "None" end;
     n_card := str "10"; n_cost := str "2.5"; n_analyze := None; n_hits := None; n_misses := Some (str "3"); n_workers := None;
     n_lookup := None; n_index := None; n_sort := [str "a.x"];
     n_attr := fun f => if deqb f (str "node_type") then Ok (str ty) else Raise AttributeError |}.
Definition scan_a := Plan (ex_node "SeqScan" (Some "a"%string)) [] None.
Definition scan_b := Plan (ex_node "IdxScan" (Some "b"%string)) [] None.
Definition ex_plan := Plan (ex_node "Aggregate" None) [Plan (ex_node "HashJoin" None) [scan_a; scan_b] None] None.
(** the same scan as a second child, and as a subplan *)
Definition ex_child := Plan (ex_node "Result" None) [scan_a; scan_b] None.
Definition ex_sub := Plan (ex_node "Result" None) [scan_a] (Some scan_b).

(** *** ast() *)
Theorem C259_ast_lines : forall p, (forall n, In n (all_nodes p) -> one_line (header n)) ->
  lines (ast p) = map ast_line (preorder 0 (main_tree p)).
Proof. exact ast_lines. Qed.
Print Assumptions C259_ast_lines.
Theorem C259_ast_determines_partial : forall p q,
  (forall n, In n (all_nodes p) -> one_line (header n)) -> (forall n, In n (all_nodes q) -> one_line (header n)) ->
  ast p = ast q -> rose_map header (main_tree p) = rose_map header (main_tree q).
Proof. exact ast_inj. Qed.
Print Assumptions C259_ast_determines_partial.
(** the nodes of subplans are missing *)
Theorem C259_ast_refuted : exists p n, In n (all_nodes p) /\ one_line (header n) /\
  (forall l a b, In l (lines (ast p)) -> l <> a ++ header n ++ b) /\ exists q, ast q = ast p /\ List.length (all_nodes q) <> List.length (all_nodes p).
Proof.
  exists ex_sub, (ex_node "IdxScan" (Some "b"%string)). split; [vm_compute; tauto|]. split.
  { vm_compute. intros F. repeat destruct F as [F|F]; try discriminate. exact F. }
  split.
  - intros l a b Hl E. assert (I1 : In "I"%char l) by (rewrite E; apply in_or_app; right; apply in_or_app; left; vm_compute; tauto).
    vm_compute in Hl. destruct Hl as [<- | [<- | []]]; vm_compute in I1; repeat destruct I1 as [I1|I1]; try discriminate; exact I1.
  - exists (Plan (ex_node "Result" None) [scan_a] None). split; [reflexivity | discriminate].
Qed.
Print Assumptions C259_ast_refuted.
Example C259_case : lines (ast ex_plan) =
  [str "Aggregate"; str "  ->  HashJoin"; str "    ->  SeqScan(a)"; str "    ->  IdxScan(b)"].
Proof. reflexivity. Qed.
Example C259_case_clean : forall n, In n (all_nodes ex_plan) -> one_line (header n).
Proof.
  intros n H F. vm_compute in H. repeat destruct H as [<-|H]; try (vm_compute in F; repeat destruct F as [F|F]; try discriminate; exact F). destruct H.
Qed.

(** *** inspect() *)
Theorem C260_inspect_lines : forall fields p t, clean fields p -> inspect p fields = Ok t ->
  lines t = flat_map (inspect_block fields) (preorder 0 (full_tree p)).
Proof.
  intros fields p t C E. unfold inspect in E. rewrite (explainify_ok fields p (explainify_fine fields p _ _ E)) in E. injection E as <-.
  apply lines_join; [apply block_nonnil | apply block_clean; exact C].
Qed.
Print Assumptions C260_inspect_lines.
(** the text tells everything about the tree in which subplans are counted as last children *)
Theorem C260_inspect_full : forall fields p q t, clean fields p -> clean fields q -> inspect p fields = Ok t -> inspect q fields = Ok t ->
  rose_map (look fields) (full_tree p) = rose_map (look fields) (full_tree q).
Proof. exact inspect_inj. Qed.
Print Assumptions C260_inspect_full.
Theorem C260_inspect_determines_partial : forall fields p q t, clean fields p -> clean fields q -> plain p -> plain q ->
  inspect p fields = Ok t -> inspect q fields = Ok t ->
  rose_map (fun n => (header n, shown fields n)) (main_tree p) = rose_map (fun n => (header n, shown fields n)) (main_tree q).
Proof.
  intros fields p q t Cp Cq Pp Pq Ep Eq. pose proof (inspect_inj fields p q t Cp Cq Ep Eq) as H.
  rewrite (plain_full p Pp), (plain_full q Pq), !rose_map_map in H.
  apply (f_equal (rose_map (fun x : text * list text * bool => fst x))) in H. rewrite !rose_map_map in H. exact H.
Qed.
Print Assumptions C260_inspect_determines_partial.
(** the metadata below the headers is as informative: all values can be read from it *)
Theorem C260_metadata : forall n m, plain_values n -> plain_values m -> shown [] n = shown [] m -> same_metadata n m.
Proof. exact default_inj. Qed.
Print Assumptions C260_metadata.
Example C260_metadata_case : plain_values (ex_node "SeqScan" (Some "a"%string)) /\ plain_values (ex_node "IdxScan" None).
Proof.
  split; (split; [|split; [|split; [|split]]]; [|intros c t H; discriminate | intros h H; discriminate | intros i H; discriminate | intros k [<- | []]];
    intros F; vm_compute in F; repeat destruct F as [F|F]; try discriminate; exact F).
Qed.
(** a subplan looks like one more child *)
Theorem C260_inspect_refuted : exists p q t, explain p = Ok t /\ explain q = Ok t /\
  clean [] p /\ clean [] q /\ rose_map header (main_tree p) <> rose_map header (main_tree q).
Proof.
  assert (CL : forall p, p = ex_child \/ p = ex_sub -> clean [] p).
  { intros p Hp n H. assert (H' : In n (all_nodes ex_child)) by (destruct Hp as [-> | ->]; exact H). vm_compute in H'.
    repeat destruct H' as [<-|H']; try (split; [|intros c Hc; vm_compute in Hc; repeat destruct Hc as [<-|Hc]];
      try (intros F; vm_compute in F; repeat destruct F as [F|F]; try discriminate; exact F); destruct Hc). destruct H'. }
  exists ex_child, ex_sub. eexists. split; [vm_compute; reflexivity|]. split; [vm_compute; reflexivity|].
  split; [apply CL; left; reflexivity|]. split; [apply CL; right; reflexivity|]. discriminate.
Qed.
Print Assumptions C260_inspect_refuted.
Example C260_case : rmap lines (explain ex_plan) = Ok
  [str "Aggregate"; str "  Estimated Cardinality=10, Estimated Cost=2.5"; str "  Cache Hits=nan, Cache Misses=3"; str "  Sort Keys=a.x";
   str "  ->  HashJoin"; str "        Estimated Cardinality=10, Estimated Cost=2.5"; str "        Cache Hits=nan, Cache Misses=3"; str "        Sort Keys=a.x";
   str "        ->  SeqScan(a)"; str "              Estimated Cardinality=10, Estimated Cost=2.5"; str "              Cache Hits=nan, Cache Misses=3";
   str "              Sort Keys=a.x";
   str "        ->  IdxScan(b)"; str "              Estimated Cardinality=10, Estimated Cost=2.5"; str "              Cache Hits=nan, Cache Misses=3";
   str "              Sort Keys=a.x"].
Proof. reflexivity. Qed.
(** a subplan below a node without children leaves an empty line *)
Example C260_case_blank : rmap lines (inspect (Plan (ex_node "Result" None) [] (Some scan_b)) [str "node_type"]) = Ok
  [str "Result"; str "   [node_type=Result]"; []; str "  ->  IdxScan(b)"; str "     [node_type=IdxScan]"].
Proof. reflexivity. Qed.

(** *** the fields of inspect() *)
Theorem C261_inspect_works : forall fields p,
  (exists t, inspect p fields = Ok t) <-> (forall n f, In n (all_nodes p) -> In f fields -> exists v, n_attr n f = Ok v).
Proof.
  intros fields p. split.
  - intros [t E] n f Hn Hf. exact (explainify_fine fields p _ _ E n Hn f Hf).
  - intros H. eexists. apply explainify_ok. intros n Hn f Hf. exact (H n f Hn Hf).
Qed.
Print Assumptions C261_inspect_works.
Theorem C261_inspect_fails : forall fields p e, inspect p fields = Raise e ->
  exists n f, In n (all_nodes p) /\ In f fields /\ n_attr n f = Raise e.
Proof. intros fields p e H. exact (explainify_raise fields p 0 e H). Qed.
Print Assumptions C261_inspect_fails.
Theorem C261_every_node : forall fields p t n, clean fields p -> inspect p fields = Ok t -> In n (all_nodes p) ->
  exists before after k m, lines t = before ++ (k ++ header n) :: map (fun c => m ++ c) (shown fields n) ++ after /\
    (forall c, In c m -> c = " "%char) /\ (k = [] \/ exists j, k = spaces j ++ str "->  ").
Proof.
  intros fields p t n C E Hn. rewrite (C260_inspect_lines fields p t C E).
  destruct (nodes_full p 0 n Hn) as (d & b & _ & Hin). apply in_split in Hin as (l1 & l2 & ->).
  rewrite flat_map_app2. cbn [flat_map inspect_block].
  exists (flat_map (inspect_block fields) l1), ((if b then [[]] else []) ++ flat_map (inspect_block fields) l2).
  exists (if Nat.eqb d 0 then [] else spaces (6 * d - 4) ++ str "->  ").
  exists (spaces (match fields with [] => 6 * d + 2 | _ => 6 * d - 4 + 3 end)). split; [|split].
  - rewrite <- app_comm_cons, <- app_assoc. destruct (Nat.eqb d 0); [reflexivity|]. rewrite <- !app_assoc. reflexivity.
  - intros c Hc. apply repeat_spec in Hc. exact Hc.
  - destruct (Nat.eqb d 0); [left; reflexivity | right; eexists; reflexivity].
Qed.
Print Assumptions C261_every_node.
Example C261_case : inspect ex_plan [str "node_type"; str "unknown"] = Raise AttributeError /\
  exists t, inspect ex_sub [str "node_type"; str "node_type"] = Ok t /\ clean [str "node_type"; str "node_type"] ex_sub.
Proof.
  split; [reflexivity|]. eexists. split; [vm_compute; reflexivity|]. intros n H. vm_compute in H.
  repeat destruct H as [<-|H]; try (split; [|intros c Hc; vm_compute in Hc; repeat destruct Hc as [<-|Hc]];
      try (intros F; vm_compute in F; repeat destruct F as [F|F]; try discriminate; exact F); destruct Hc). destruct H.
Qed.

(** *** plan_summary()["phys_ops"] *)
Lemma iternodes_count (x : text) p : plain p ->
  count_occ text_dec (map n_type (iternodes p)) x = count_occ text_dec (map n_type (all_nodes p)) x.
Proof.
  induction p as [n ks sub IH _] using plan_ind2. intros [-> H]. cbn [iternodes all_nodes]. rewrite app_nil_r, map_app, count_occ_app.
  assert (K : count_occ text_dec (map n_type (flat_map iternodes ks)) x
            = count_occ text_dec (map n_type (flat_map all_nodes ks)) x).
  { induction ks as [|k ks IHk]; [reflexivity|]. destruct H as [H0 H1]. cbn [flat_map]. rewrite !map_app, !count_occ_app.
    rewrite (Forall_inv IH H0). f_equal. apply IHk; [exact (Forall_inv_tail IH) | exact H1]. }
  rewrite K. cbn [map count_occ]. destruct (text_dec (n_type n) x); lia.
Qed.
Theorem C262_phys_ops_partial : forall p x, plain p ->
  match dget (phys_ops p) x with Some c => c | None => 0 end = count_occ text_dec (map n_type (all_nodes p)) x /\
  (In x (dkeys (phys_ops p)) <-> In x (map n_type (all_nodes p))).
Proof.
  intros p x H. unfold phys_ops. rewrite <- (iternodes_count x p H).
  assert (G : dget (counter (map n_type (iternodes p)) []) x =
    match count_occ text_dec (map n_type (iternodes p)) x with 0 => None | S c => Some (S c) end)
    by (rewrite counter_get; destruct (count_occ _ _ x); reflexivity).
  split.
  - rewrite G. destruct (count_occ _ (map n_type (iternodes p)) x); reflexivity.
  - rewrite (count_occ_In text_dec (map n_type (all_nodes p)) x), <- (iternodes_count x p H).
    destruct (count_occ text_dec (map n_type (iternodes p)) x) eqn:O.
    + split; [|lia]. intros F. exfalso. apply dget_key in F. contradiction.
    + split; [lia|]. intros _. apply dget_key. rewrite G. discriminate.
Qed.
Print Assumptions C262_phys_ops_partial.
Theorem C262_phys_ops_refuted : exists p x, In x (map n_type (all_nodes p)) /\ dget (phys_ops p) x = None.
Proof. exists ex_sub, (str "IdxScan"). split; [vm_compute; tauto | reflexivity]. Qed.
Print Assumptions C262_phys_ops_refuted.
Example C262_case : plain ex_plan /\ phys_ops (Plan (ex_node "HashJoin" None) [ex_plan; scan_a] None) =
  [(str "SeqScan", 2); (str "IdxScan", 1); (str "HashJoin", 2); (str "Aggregate", 1)].
Proof. split; [cbn; tauto | reflexivity]. Qed.
