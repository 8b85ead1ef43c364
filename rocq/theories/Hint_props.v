(** Property theorems for C29 (operator assignments), C30 (plan parameters), C62 (equality of single assignments), C63
    (integrating workers) and C64 (operator assignments as JSON). *)
From Coq Require Import List Bool Arith ZArith Lia.
From Verif Require Import PyBase FSet Dicts_model Hint_model Hint_spec Hint_proofs.
Import ListNotations.

(** * C29 *)
(** The last assignment to a scan or join is the one that get returns; no other entry matters.  Missing: looking up a single
    table as an iterable, and disabling operators with overwriting (both refuted below). *)
Theorem C29_last_partial : forall cs p, Forall wf_call cs -> Forall no_overwrite cs -> poa_calls poa_empty cs = Ok p ->
  (forall t d, poa_get p (GTab t) d = Ok (match after (scan_entry t) (fun a => removes PScan (sa_op a)) None cs with Some a => Some (inl a) | None => d end)) /\
  (forall h l d, List.length (dedup l) <> 1 -> poa_get p (GIter h l) d = Ok (match after (join_entry l) (fun a => removes PJoin (ja_op a)) None cs with Some a => Some (inr a) | None => d end)) /\
  (forall t, poa_contains p (GTab t) = Ok (match after (scan_entry t) (fun a => removes PScan (sa_op a)) None cs with Some a => true | None => false end)) /\
  (forall h l, List.length (dedup l) <> 1 -> poa_contains p (GIter h l) = Ok (match after (join_entry l) (fun a => removes PJoin (ja_op a)) None cs with Some a => true | None => false end)) /\
  (forall k, (forall h l, k = GIter h l -> List.length (dedup l) <> 1) -> poa_get p k None = Ok (poa_item p k)).
Proof.
  intros cs p Hw Hn H.
  assert (HS : forall t, dget (scans p) t = after (scan_entry t) (fun a => removes PScan (sa_op a)) None cs).
  { intros t. rewrite (after_no_overwrite _ PScan sa_op) by assumption. now rewrite (scan_calls _ _ _ t H). }
  assert (HJ : forall l, dget (joins p) (mkfs l) = after (join_entry l) (fun a => removes PJoin (ja_op a)) None cs).
  { intros l. rewrite (after_no_overwrite _ PJoin ja_op) by assumption. now rewrite (join_calls _ _ _ l Hw H). }
  repeat split.
  - intros t d. cbn. now rewrite HS.
  - intros h l d Hl. cbn. rewrite mkfs_dedup. apply Nat.eqb_neq in Hl. rewrite Hl, HJ. reflexivity.
  - intros t. cbn. unfold dmem. rewrite HS. reflexivity.
  - intros h l Hl. cbn. rewrite mkfs_dedup. apply Nat.eqb_neq in Hl. rewrite Hl. unfold dmem. rewrite HJ. reflexivity.
  - intros [t|h l] Hk; cbn; [reflexivity|]. rewrite mkfs_dedup. specialize (Hk h l eq_refl). apply Nat.eqb_neq in Hk. now rewrite Hk.
Qed.
Print Assumptions C29_last_partial.
Definition hist1 : list call :=
  [KAdd (OScan 100 3 1); KAdd (OJoin 101 7 [1; 2]); KAdd (OInter 9 [1; 2]); KSet (PJoin 8) false false; KAdd (OSA (mksa 102 4 1 (Some 2))); KAdd (OJA (mkja 103 6 [1; 2] (Some ([1], [2])) None))].
Example C29_ex : exists p, Forall wf_call hist1 /\ Forall no_overwrite hist1 /\ poa_calls poa_empty hist1 = Ok p /\
  poa_get p (GTab 1) None = Ok (Some (inl (mksa 102 4 1 (Some 2)))) /\ poa_get p (GIter true [2; 1]) None = Ok (Some (inr (mkja 103 6 [1; 2] (Some ([1], [2])) None))).
Proof.
  eexists. split; [repeat constructor; discriminate|]. split; [repeat constructor|]. split; [reflexivity|]. split; reflexivity.
Qed.
(** Intermediates follow the complete history, including entries removed by disabling their operator. *)
Theorem C29_intermediates : forall cs p, Forall wf_call cs -> poa_calls poa_empty cs = Ok p ->
  forall l, dget (inters p) (mkfs l) = after (inter_entry l) (removes PInter) None cs.
Proof. intros cs p Hw H l. now rewrite (inter_calls _ _ _ l empty_wf Hw H). Qed.
Print Assumptions C29_intermediates.
Example C29_intermediates_ex : exists p, poa_calls poa_empty [KAdd (OInter 9 [1; 2]); KAdd (OInter 8 [3; 2]); KSet (PInter 9) false true] = Ok p /\ inters p = [([2; 3], 8)].
Proof. eexists. split; reflexivity. Qed.
(** The global setting of an operator is the one given last, and an operator is reported as available iff it is enabled
    globally or not set at all and included by default. *)
Theorem C29_global : forall cs p ops d o, poa_calls poa_empty cs = Ok p ->
  (In o (poa_enabled ops p d) <-> In o ops /\
    match fold_left (fun cur c => match c with KSet o' en _ => if deqb o' o then Some en else cur | _ => cur end) cs None with Some b => b = true | None => d = true end).
Proof.
  intros cs p ops d o H. unfold poa_enabled. rewrite filter_In, (glob_calls _ _ _ o H). change (dget (glob poa_empty) o) with (@None bool).
  destruct (fold_left _ cs None); reflexivity.
Qed.
Print Assumptions C29_global.
(** Calls fail only for joins of fewer than two tables. *)
Theorem C29_errors : forall cs p, (exists q, poa_calls p cs = Ok q) <-> Forall (fun c => match c with KAdd (OJoin _ _ tabs) => 2 <= List.length tabs | _ => True end) cs.
Proof.
  induction cs as [|c cs IH]; intros p; cbn [poa_calls]; [split; [constructor|eauto]|].
  assert (Hc : match c with KAdd (OJoin _ _ tabs) => 2 <= List.length tabs | _ => True end <-> exists q, poa_call p c = Ok q).
  { destruct c as [[id op t|id op tabs|op tabs|a|a]|o en ow]; cbn; try (split; [eauto|auto]; fail). unfold mk_join. destruct (Nat.ltb_spec (length tabs) 2); cbn; split; eauto; [lia|intros [q Hq]; discriminate]. }
  split.
  - intros [q H]. apply rbind_Ok in H as [r [Hr H]]. constructor; [apply Hc; eauto|]. apply (IH r). eauto.
  - intros H. inversion H as [|? ? H1 H2]; subst. apply Hc in H1 as [r Hr]. rewrite Hr. cbn. now apply IH.
Qed.
Print Assumptions C29_errors.
(** Refuted: disabling an operator with overwrite_fine_grained_selection keeps the scans and joins that use it. *)
Theorem C29_overwrite_refuted : forall n t id, exists p, poa_calls poa_empty [KAdd (OScan id n t); KSet (PScan n) false true] = Ok p /\
  after (scan_entry t) (fun a => removes PScan (sa_op a)) None [KAdd (OScan id n t); KSet (PScan n) false true] = None /\
  poa_get p (GTab t) None = Ok (Some (inl (mksa id n t None))).
Proof.
  intros n t id. eexists. split; [reflexivity|]. split.
  - cbn [after scan_entry]. rewrite Nat.eqb_refl. cbn [removes sa_op]. rewrite deqb_refl. reflexivity.
  - cbn. destruct (eqd t t); [reflexivity|congruence].
Qed.
Print Assumptions C29_overwrite_refuted.
(** Refuted: a single table in an iterable is never found, not even by default, and raises for lists and sets. *)
Theorem C29_single_refuted : forall id n t d, exists p, poa_calls poa_empty [KAdd (OScan id n t)] = Ok p /\
  poa_get p (GTab t) d = Ok (Some (inl (mksa id n t None))) /\ poa_get p (GIter true [t]) d = Ok None /\ poa_get p (GIter false [t]) d = Raise TypeError /\
  poa_contains p (GIter true [t]) = Ok false /\ poa_contains p (GIter false [t]) = Raise TypeError.
Proof. intros id n t d. eexists. split; [reflexivity|]. cbn. destruct (eqd t t); [|congruence]. repeat split. Qed.
Print Assumptions C29_single_refuted.
(** Merging keeps every entry of both assignments, the other one wins. *)
Theorem C29_merge : forall p q, poa_wf p -> poa_wf q ->
  (forall o, dget (glob (poa_merge p q)) o = match dget (glob q) o with Some v => Some v | None => dget (glob p) o end) /\
  (forall t, dget (scans (poa_merge p q)) t = match dget (scans q) t with Some v => Some v | None => dget (scans p) t end) /\
  (forall l, dget (joins (poa_merge p q)) l = match dget (joins q) l with Some v => Some v | None => dget (joins p) l end) /\
  (forall l, dget (inters (poa_merge p q)) l = match dget (inters q) l with Some v => Some v | None => dget (inters p) l end) /\ poa_wf (poa_merge p q).
Proof. intros p q Hp Hq. destruct (Hq). repeat (split; [intros x; cbn; now apply dmerge_spec|]). now apply merge_wf. Qed.
Print Assumptions C29_merge.
(** ... in terms of the lookups *)
Theorem C29_merge_get : forall p q k d, poa_wf p -> poa_wf q -> (forall h l, k = GIter h l -> List.length (dedup l) <> 1) ->
  poa_get (poa_merge p q) k d = rbind (poa_get p k d) (poa_get q k).
Proof.
  intros p q [t|h l] d Hp Hq Hk; destruct (C29_merge p q Hp Hq) as (_ & HS & HJ & _); cbn [poa_get].
  - rewrite HS. cbn. destruct (dget (scans q) t); reflexivity.
  - specialize (Hk h l eq_refl). rewrite <- mkfs_dedup in Hk. apply Nat.eqb_neq in Hk. rewrite Hk, HJ. cbn. rewrite Hk. destruct (dget (joins q) (mkfs l)); reflexivity.
Qed.
Print Assumptions C29_merge_get.
(** Every assignment built by calls and merges is well-formed. *)
Theorem C29_wf : forall cs p, Forall wf_call cs -> poa_calls poa_empty cs = Ok p -> poa_wf p.
Proof. intros cs p Hc. apply calls_wf; [exact empty_wf|assumption]. Qed.
Print Assumptions C29_wf.
Example C29_merge_ex : exists p q, poa_calls poa_empty hist1 = Ok p /\ poa_calls poa_empty [KAdd (OScan 200 5 1); KAdd (OScan 201 5 2)] = Ok q /\
  poa_get (poa_merge p q) (GTab 1) None = Ok (Some (inl (mksa 200 5 1 None))) /\ poa_get (poa_merge p q) (GIter true [1; 2]) None = poa_get p (GIter true [1; 2]) None.
Proof. do 2 eexists. split; [reflexivity|]. split; [reflexivity|]. split; reflexivity. Qed.
(** global_settings_only keeps the global settings and nothing about particular tables; clone keeps everything. *)
Theorem C29_global_only : forall p k d, poa_get (poa_global_only p) k d = poa_get (mkpoa (glob p) [] [] []) k d /\ glob (poa_global_only p) = glob p /\
  scans (poa_global_only p) = [] /\ joins (poa_global_only p) = [] /\ inters (poa_global_only p) = [] /\ poa_clone p = p.
Proof. intros [g j n s] k d. repeat split. Qed.
Print Assumptions C29_global_only.
(** Independence: in every program over [n] variables that creates, changes, clones and merges assignments in memory, each
    variable behaves as if it held a value of its own; in particular changes to a clone do not affect the original. *)
Theorem C29_independent : forall n cs, Forall (fun c => forall v, In v (cmd_vars c) -> v < n) cs ->
  forall v, v < n -> view (h_run (h_init n) cs) v = s_run (fun _ => poa_empty) cs v.
Proof. intros n cs Hc v Hv. apply (run_view n); [assumption|apply init_apart|reflexivity|assumption]. Qed.
Print Assumptions C29_independent.
Example C29_independent_ex : let cs := [CAdd 0 (OScan 100 3 1); CClone 0 1; CAdd 0 (OScan 101 4 1); CSet 1 (PScan 3) false true] in
  Forall (fun c => forall v, In v (cmd_vars c) -> v < 2) cs /\
  scans (view (h_run (h_init 2) cs) 0) = [(1, mksa 101 4 1 None)] /\ scans (view (h_run (h_init 2) cs) 1) = [(1, mksa 100 3 1 None)] /\ glob (view (h_run (h_init 2) cs) 0) = [].
Proof. split; [repeat (apply Forall_cons; [cbn; intros v Hv; lia|]); apply Forall_nil|]. repeat split. Qed.
(** A clone is equal to the original, and equal assignments agree on all scans, joins and global settings.  Missing:
    intermediates. *)
Theorem C29_equality_partial : forall p q, poa_wf p -> poa_wf q -> coherent p q ->
  poa_eqb p (poa_clone p) = true /\ (poa_eqb p q = true ->
    (forall k, rmap (option_map f_content) (poa_get p k None) = rmap (option_map f_content) (poa_get q k None)) /\ (forall o, dget (glob p) o = dget (glob q) o)).
Proof.
  intros p q Hp Hq Hc. split; [unfold poa_clone; destruct p; now apply poa_eqb_refl|]. intros H. destruct (poa_eqb_sound p q Hp Hq Hc H) as (HG & HS & HJ). split; [|assumption].
  intros [t|h l]; cbn [poa_get].
  - cbn. specialize (HS t). destruct (dget (scans p) t), (dget (scans q) t); cbn in *; congruence.
  - destruct (length (mkfs l) =? 1); [reflexivity|]. cbn. specialize (HJ (mkfs l)). destruct (dget (joins p) (mkfs l)), (dget (joins q) (mkfs l)); cbn in *; congruence.
Qed.
Print Assumptions C29_equality_partial.
(** Refuted: intermediates are ignored by the comparison. *)
Theorem C29_equality_refuted : exists p q, poa_calls poa_empty [KAdd (OInter 9 [1; 2])] = Ok p /\ poa_calls poa_empty [KAdd (OInter 8 [1; 2])] = Ok q /\
  poa_eqb p q = true /\ dget (inters p) [1; 2] <> dget (inters q) [1; 2].
Proof. do 2 eexists. split; [reflexivity|]. split; [reflexivity|]. split; [reflexivity|discriminate]. Qed.
Print Assumptions C29_equality_refuted.
(** Refuted: equal assignments have different hashes if the operators were assigned in another order. *)
Theorem C29_hash_refuted : exists p q (hop : physop -> Z) hb ht hfs hsa hja htup,
  poa_calls poa_empty [KAdd (OSA (mksa 1 3 1 (Some 1))); KAdd (OSA (mksa 2 3 2 (Some 1)))] = Ok p /\
  poa_calls poa_empty [KAdd (OSA (mksa 3 3 2 (Some 1))); KAdd (OSA (mksa 4 3 1 (Some 1)))] = Ok q /\ poa_eqb p q = true /\
  (forall a b, sa_hashkey a = sa_hashkey b -> hsa a = hsa b) /\ poa_hash hop hb ht hfs hsa hja htup p <> poa_hash hop hb ht hfs hsa hja htup q.
Proof.
  do 2 eexists. exists (fun _ => 0%Z), (fun _ => 0%Z), Z.of_nat, (fun _ => 0%Z), (fun a => Z.of_nat (sa_tab a)), (fun _ => 0%Z), (fun l => fold_left (fun acc z => (acc * 31 + z)%Z) l 7%Z).
  split; [reflexivity|]. split; [reflexivity|]. split; [reflexivity|]. split; [intros a b [= _ H _]; now rewrite H|]. vm_compute. discriminate.
Qed.
Print Assumptions C29_hash_refuted.

(** * C30 *)
(** Merging keeps all cardinalities, worker hints and settings, preferring the other parameterization.  Missing: the
    execution mode. *)
Theorem C30_merge_partial : forall (C V : Type) (p q : pparams C V), dwf (pp_cards q) -> dwf (pp_workers q) -> dwf (pp_settings q) ->
  (forall k, dget (pp_cards (pp_merge p q)) k = match dget (pp_cards q) k with Some v => Some v | None => dget (pp_cards p) k end) /\
  (forall k, dget (pp_workers (pp_merge p q)) k = match dget (pp_workers q) k with Some v => Some v | None => dget (pp_workers p) k end) /\
  (forall k, dget (pp_settings (pp_merge p q)) k = match dget (pp_settings q) k with Some v => Some v | None => dget (pp_settings p) k end) /\
  (pp_mode p = None -> pp_mode q = None -> pp_mode (pp_merge p q) = None).
Proof. intros C V p q H1 H2 H3. repeat split; intros; cbn; now apply dmerge_spec. Qed.
Print Assumptions C30_merge_partial.
Example C30_ex : let p := mkpp [([1], 10)] [([1; 2], 4)] [(0, true)] None in let q := mkpp [([1], 20); ([2], 5)] [] [(1, false)] None in
  dwf (pp_cards q) /\ pp_merge p q = mkpp [([1], 20); ([2], 5)] [([1; 2], 4)] [(0, true); (1, false)] None.
Proof. split; [repeat constructor; cbn; intuition discriminate|reflexivity]. Qed.
(** Refuted: the execution mode is always dropped. *)
Theorem C30_mode_refuted : forall (C V : Type) (p q : pparams C V), pp_mode (pp_merge p q) = None.
Proof. reflexivity. Qed.
Print Assumptions C30_mode_refuted.
(** The setters change exactly the entry they are called for; set_system_settings requires exactly one way of giving settings. *)
Theorem C30_setters : forall (C V : Type) (p : pparams C V) tabs c w,
  (forall l, dget (pp_cards (pp_add_card p tabs c)) (mkfs l) = if seteqb tabs l then Some c else dget (pp_cards p) (mkfs l)) /\
  (forall l, dget (pp_workers (pp_set_workers p tabs w)) (mkfs l) = if seteqb tabs l then Some w else dget (pp_workers p) (mkfs l)) /\
  pp_workers (pp_add_card p tabs c) = pp_workers p /\ pp_cards (pp_set_workers p tabs w) = pp_cards p /\
  pp_mode (pp_add_card p tabs c) = pp_mode p /\ pp_mode (pp_set_workers p tabs w) = pp_mode p /\
  (forall name (kw : dict nat V), dwf kw -> match pp_set_system p name kw with
     | Ok q => pp_cards q = pp_cards p /\ pp_workers q = pp_workers p /\ pp_mode q = pp_mode p /\ (name = None <-> kw <> []) /\
         forall k, dget (pp_settings q) k = match name with Some (n, v) => if k =? n then Some v else dget (pp_settings p) k | None => match dget kw k with Some v => Some v | None => dget (pp_settings p) k end end
     | Raise e => e = ValueError /\ (name = None <-> kw = [])
     end).
Proof.
  intros C V p tabs c w. split; [|split; [|do 4 (split; [reflexivity|])]].
  - intros l. cbn. now rewrite dset_spec, eqd_seteqb.
  - intros l. cbn. now rewrite dset_spec, eqd_seteqb.
  - intros [[n v]|] [|e kw] Hkw; cbn.
    + repeat split; try congruence. intros k. rewrite dset_spec. destruct (eqd k n) as [->|E]; [now rewrite Nat.eqb_refl|]. now destruct (Nat.eqb_spec k n).
    + split; [reflexivity|split; discriminate].
    + split; [reflexivity|split; reflexivity].
    + do 3 (split; [reflexivity|]). split; [split; [discriminate|reflexivity]|]. intros k. exact (dmerge_spec (pp_settings p) (e :: kw) k Hkw).
Qed.
Print Assumptions C30_setters.
(** drop_workers removes the worker hints and nothing else. *)
Theorem C30_drop_workers : forall (C V : Type) (p : pparams C V), pp_workers (pp_drop_workers p) = [] /\ pp_cards (pp_drop_workers p) = pp_cards p /\
  pp_settings (pp_drop_workers p) = pp_settings p /\ pp_mode (pp_drop_workers p) = pp_mode p.
Proof. repeat split. Qed.
Print Assumptions C30_drop_workers.

(** * C62 *)
(** Two assignments are equal iff they agree in everything and have workers: a symmetric and transitive relation that agrees with
    the hash, and a directional join never equals a plain one. *)
Theorem C62_scan_partial : forall a b, (sa_eqb a b = true <-> sa_content a = sa_content b /\ sa_par a <> None) /\ (sa_eqb a b = true -> sa_hashkey a = sa_hashkey b).
Proof. intros a b. split; [apply sa_eqb_iff|]. intros H. apply sa_eqb_content in H. exact H. Qed.
Print Assumptions C62_scan_partial.
Theorem C62_join_partial : forall a b, (ja_eqb a b = true <-> ja_content a = ja_content b /\ ja_par a <> None) /\ (ja_eqb a b = true -> ja_hashkey a = ja_hashkey b) /\
  (ja_eqb a b = true -> ja_dir a = ja_dir b).
Proof.
  intros a b. split; [apply ja_eqb_iff|]. split; intros H; apply ja_eqb_content in H; unfold ja_content, ja_hashkey in *; congruence.
Qed.
Print Assumptions C62_join_partial.
Theorem C62_equivalence_partial : forall a b c : jassign, ja_eqb a b = ja_eqb b a /\ (ja_eqb a b = true -> ja_eqb b c = true -> ja_eqb a c = true) /\ (ja_par a <> None -> ja_eqb a a = true).
Proof.
  intros a b c. split; [|split].
  - apply eq_true_iff_eq. rewrite !ja_eqb_iff. unfold ja_content. split; intros [H Hn]; (split; congruence).
  - rewrite !ja_eqb_iff. unfold ja_content. intros [H1 H2] [H3 H4]. split; congruence.
  - intros H. apply ja_eqb_iff. auto.
Qed.
Print Assumptions C62_equivalence_partial.
Example C62_ex : ja_eqb (mkja 1 5 [1; 2] None (Some 3)) (mkja 2 5 [1; 2] None (Some 3)) = true /\ ja_eqb (mkja 1 5 [1; 2] None (Some 3)) (mkja 1 5 [1; 2] (Some ([1], [2])) (Some 3)) = false.
Proof. split; reflexivity. Qed.
(** Refuted: without workers (the default) an assignment is not equal to anything, not even to itself. *)
Theorem C62_reflexive_refuted : (forall a, sa_par a = None -> sa_eqb a a = false) /\ (forall a, ja_par a = None -> ja_eqb a a = false) /\
  (forall id op t b, sa_eqb (mksa id op t None) b = false).
Proof.
  split; [|split].
  - intros a H. unfold sa_eqb. rewrite H. now rewrite andb_false_r.
  - intros a H. unfold ja_eqb. rewrite H. cbn. now rewrite andb_false_r.
  - intros id op t b. unfold sa_eqb. cbn. now rewrite andb_false_r.
Qed.
Print Assumptions C62_reflexive_refuted.
(** The constructors reject joins of fewer than two tables and directional joins without an inner or outer side, and store the
    union of both sides. *)
Theorem C62_constructors : forall id op l i o par,
  ((exists a, mk_join id op l par = Ok a) <-> 2 <= List.length l) /\
  (forall a, mk_dirjoin id op i o par = Ok a -> seteq (ja_join a) (i ++ o) /\ exists i' o', ja_dir a = Some (i', o') /\ seteq i' i /\ seteq o' o) /\
  ((exists a, mk_dirjoin id op i o par = Ok a) <-> i <> [] /\ o <> [] /\ 2 <= List.length (dedup (i ++ o))).
Proof.
  intros id op l i o par. split; [|split].
  - unfold mk_join. destruct (Nat.ltb_spec (length l) 2); split; eauto; [intros [a Ha]; discriminate|lia].
  - intros a H. apply mk_dirjoin_wf in H as [-> _]. cbn [ja_join ja_dir]. split; [intros x; apply mkfs_In|]. exists (mkfs i), (mkfs o). split; [reflexivity|]. split; intros x; apply mkfs_In.
  - unfold mk_dirjoin. destruct i as [|x i]; [split; [intros [a Ha]; discriminate|tauto]|]. destruct o as [|y o]; [split; [intros [a Ha]; discriminate|tauto]|].
    assert (E : mkfs (mkfs (x :: i) ++ mkfs (y :: o)) = mkfs ((x :: i) ++ y :: o)) by (apply mkfs_eq; intros z; rewrite !in_app_iff, !mkfs_In; reflexivity).
    rewrite E, mkfs_dedup. destruct (Nat.ltb_spec (length (dedup ((x :: i) ++ y :: o))) 2) as [Hl|Hl].
    + split; [intros [a Ha]; discriminate|intros (_ & _ & H); lia].
    + split; [intros _; repeat split; try discriminate; exact Hl|eauto].
Qed.
Print Assumptions C62_constructors.

(** * C63 *)
(** What holds: every join with a worker hint gets these workers and keeps its operator and direction, everything else is
    unchanged; a hint without matching join raises iff asked to.  Missing: scans. *)
Theorem C63_joins_partial : forall fresh p ws, poa_wf p -> dwf ws -> (forall k w, In (k, w) ws -> k = mkfs k) ->
  (exists q, poa_integrate fresh p ws false = Ok q /\ glob q = glob p /\ inters q = inters p /\ scans q = scans p /\
    forall l, 2 <= List.length (dedup l) -> option_map ja_content (dget (joins q) (mkfs l)) =
      match dget (joins p) (mkfs l) with
      | Some a => Some (ja_op a, ja_join a, ja_dir a, match dget ws (mkfs l) with Some w => Some w | None => ja_par a end)
      | None => None
      end) /\
  ((exists k w, In (k, w) ws /\ (List.length k = 1 \/ dget (joins p) k = None)) -> poa_integrate fresh p ws true = Raise ValueError) /\
  ((forall k w, In (k, w) ws -> List.length k <> 1 /\ dget (joins p) k <> None) -> poa_integrate fresh p ws true = poa_integrate fresh p ws false).
Proof.
  intros fresh p ws Hp Hw Hk. split; [|split].
  - destruct (integrate_ok ws fresh p Hp Hw Hk) as (q & Hq & _ & Hg & Hi & Hs & Hj). exists q. repeat (split; [assumption|]). intros l Hl. rewrite <- mkfs_dedup in Hl. rewrite (Hj _ Hl).
    destruct (dget (joins p) (mkfs l)); [|reflexivity]. destruct (dget ws (mkfs l)); reflexivity.
  - now apply integrate_fail.
  - now apply integrate_nofail.
Qed.
Print Assumptions C63_joins_partial.
Example C63_ex : exists p, poa_calls poa_empty hist1 = Ok p /\ poa_wf p /\ exists q, poa_integrate 500 p [([1; 2], 6)] true = Ok q /\ joins q = [([1; 2], mkja 500 6 [1; 2] (Some ([1], [2])) (Some 6))].
Proof.
  eexists. split; [reflexivity|]. split; [apply (C29_wf hist1); [|reflexivity]; repeat constructor; discriminate|]. eexists. split; reflexivity.
Qed.
(** Refuted: the workers of a scan are never integrated, and with fail_on_missing an assigned scan counts as missing. *)
Theorem C63_scans_refuted : forall id op t w fresh, let p := poa_set_scan poa_empty (mksa id op t None) in
  poa_integrate fresh p [([t], w)] false = Ok p /\ poa_integrate fresh p [([t], w)] true = Raise ValueError.
Proof. intros id op t w fresh p. split; reflexivity. Qed.
Print Assumptions C63_scans_refuted.

(** * C64 *)
(** What holds: reading the JSON form keeps the global settings, the intermediates and the operator of every scan and join.
    Missing: workers and directions. *)
Theorem C64_json_partial : forall fresh p, poa_wf p -> (forall k a, In (k, a) (joins p) -> 2 <= List.length k) ->
  exists q, poa_read fresh (poa_json p) = Ok q /\ (forall o, dget (glob q) o = dget (glob p) o) /\ (forall l, dget (inters q) l = dget (inters p) l) /\
    (forall t, option_map sa_op (dget (scans q) t) = option_map sa_op (dget (scans p) t)) /\ (forall l, option_map ja_op (dget (joins q) l) = option_map ja_op (dget (joins p) l)).
Proof.
  intros fresh p Hp Hl. destruct (json_ok fresh p Hp Hl) as (q & Hq & Hg & Hi & Hs & Hj & _). exists q. repeat (split; [assumption|]). split.
  - intros t. specialize (Hs t). destruct (dget (scans p) t); [destruct Hs as [i [_ ->]]; reflexivity|now rewrite Hs].
  - intros l. specialize (Hj l). destruct (dget (joins p) l); [destruct Hj as [i [_ ->]]; reflexivity|now rewrite Hj].
Qed.
Print Assumptions C64_json_partial.
Example C64_ex : exists p q, poa_calls poa_empty hist1 = Ok p /\ poa_read 500 (poa_json p) = Ok q /\ scans q = [(1, mksa 500 4 1 None)] /\ joins q = [([1; 2], mkja 501 6 [1; 2] None None)].
Proof. do 2 eexists. split; [reflexivity|]. split; [reflexivity|]. split; reflexivity. Qed.
(** Refuted: whenever any scan or join is assigned, the result differs from the original; and the workers and directions are gone. *)
Theorem C64_json_refuted : forall fresh p q, poa_wf p -> (forall k a, In (k, a) (joins p) -> 2 <= List.length k) ->
  (forall k a, In (k, a) (scans p) -> sa_id a < fresh) -> (forall k a, In (k, a) (joins p) -> ja_id a < fresh) -> poa_read fresh (poa_json p) = Ok q ->
  (scans p <> [] \/ joins p <> [] -> poa_eqb p q = false) /\
  (forall t a, dget (scans q) t = Some a -> sa_par a = None) /\ (forall l a, dget (joins q) l = Some a -> ja_par a = None /\ ja_dir a = None).
Proof.
  intros fresh p q Hp Hl Is Ij Hr. destruct (json_ok fresh p Hp Hl) as (q' & Hq & Hg & Hi & Hs & Hj & Hw). rewrite Hr in Hq. injection Hq as <-.
  split; [|split].
  - intros Hne. destruct (poa_eqb p q) eqn:E; [|reflexivity]. exfalso. unfold poa_eqb in E. rewrite !andb_true_iff in E. destruct E as [[_ E2] E3]. destruct (Hp). destruct (Hw). destruct Hne as [Hne|Hne].
    + destruct (scans p) as [|[t a] r] eqn:Es; [congruence|]. rewrite <- Es in *. assert (Ht : In (t, a) (scans p)) by (rewrite Es; now left). pose proof Ht as Hin. apply In_dget in Ht; [|assumption].
      eapply dict_eqb_sound with (k := t) in E2; [|assumption|assumption]. specialize (Hs t). rewrite Ht in *. destruct Hs as [i [Hi' Hs]]. rewrite Hs in E2. unfold sa_same in E2. cbn in E2.
      specialize (Is _ _ Hin). apply orb_true_iff in E2 as [E2|E2]; [apply Nat.eqb_eq in E2; lia|]. apply sa_eqb_iff in E2 as [E2 E4]. apply E4. unfold sa_content in E2. cbn in E2. congruence.
    + destruct (joins p) as [|[t a] r] eqn:Es; [congruence|]. rewrite <- Es in *. assert (Ht : In (t, a) (joins p)) by (rewrite Es; now left). pose proof Ht as Hin. apply In_dget in Ht; [|assumption].
      eapply dict_eqb_sound with (k := t) in E3; [|assumption|assumption]. specialize (Hj t). rewrite Ht in *. destruct Hj as [i [Hi' Hj]]. rewrite Hj in E3. unfold ja_same in E3. cbn in E3.
      specialize (Ij _ _ Hin). apply orb_true_iff in E3 as [E3|E3]; [apply Nat.eqb_eq in E3; lia|]. apply ja_eqb_iff in E3 as [E3 E4]. apply E4. unfold ja_content in E3. cbn in E3. congruence.
  - intros t a H. specialize (Hs t). destruct (dget (scans p) t); [destruct Hs as [i [_ Hs]]; rewrite Hs in H; now injection H as <-|congruence].
  - intros l a H. specialize (Hj l). destruct (dget (joins p) l); [destruct Hj as [i [_ Hj]]; rewrite Hj in H; now injection H as <-|congruence].
Qed.
Print Assumptions C64_json_refuted.
