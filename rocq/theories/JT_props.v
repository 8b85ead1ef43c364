(** Property theorems for C26, C27, C28 and C61 (join trees). *)
From Coq Require Import List Bool Arith Lia String Sorting.Sorted.
From Verif Require Import PyBase Ident_model Ident_proofs JT_model JT_spec JT_proofs.
Import ListNotations.

(** ((0 x 1) x 2) x (3 x 4), annotations are numbers. *)
Definition sc (x : nat) : jt nat nat := JScan false x (x + 10).
Definition jn (o i : jt nat nat) : jt nat nat := JJoin false o i 7.
Definition bushy5 : jt nat nat := jn (jn (jn (sc 0) (sc 1)) (sc 2)) (jn (sc 3) (sc 4)).

(** ** C26 *)
(** tables() lists the scanned tables without repetition, so len() is their number. *)
Theorem C26_tables : forall (T A : Type) (ET : EqD T) (t : jt T A),
  (forall x, In x (jt_tables t) <-> scanned x t) /\ NoDup (jt_tables t) /\ jt_len t = List.length (jt_tables t) /\
  forall l, NoDup l -> (forall x, In x l <-> scanned x t) -> jt_len t = List.length l.
Proof.
  intros T A ET t. split; [apply tables_scanned|]. split; [apply tables_nodup|]. split; [reflexivity|]. intros l Hl Hx. unfold jt_len.
  apply Nat.le_antisymm; apply NoDup_incl_length; auto; [apply tables_nodup| |]; intros x H; [apply Hx; now apply tables_scanned|apply tables_scanned; now apply Hx].
Qed.
Print Assumptions C26_tables.
Example C26_ex_tables : jt_tables (jn bushy5 (sc 2)) = [0; 1; 3; 4; 2] /\ jt_len (jn bushy5 (sc 2)) = 5.
Proof. split; reflexivity. Qed.
(** iternodes() visits the positions of all nodes once each, parents first, outer before inner. *)
Theorem C26_iternodes : forall (T A : Type) (t : jt T A), exists ps,
  StronglySorted before ps /\ (forall p, In p ps <-> node_pos t p) /\ map Some (jt_iternodes t) = map (at_pos t) ps.
Proof. intros T A t. exists (node_positions t). apply node_positions_ok. Qed.
Print Assumptions C26_iternodes.
(** ([before] is irreflexive, so no position is visited twice.) *)
Lemma before_irrefl p : ~ before p p.
Proof. intros H. remember p as q eqn:E in H at 2. assert (E' : p = q) by auto. clear E. induction H; try discriminate. injection E' as E'. auto. Qed.
Theorem C26_once : forall ps, StronglySorted before ps -> NoDup ps.
Proof.
  induction 1 as [|p ps Hs IH Hp]; constructor; [|assumption]. intros Hin. rewrite Forall_forall in Hp. exact (before_irrefl p (Hp p Hin)).
Qed.
Print Assumptions C26_once.
(** itertables() gives the tables of all base table positions in the same order. *)
Theorem C26_itertables : forall (T A : Type) (t : jt T A), exists ps,
  StronglySorted before ps /\ (forall p, In p ps <-> scan_pos t p) /\ map Some (jt_itertables t) = map (fun p => match at_pos t p with Some (JScan _ x _) => Some x | _ => None end) ps.
Proof. intros T A t. exists (scan_positions t). apply scan_positions_ok. Qed.
Print Assumptions C26_itertables.
(** iterjoins() gives all joins once each, every join after the joins below it, outer before inner. *)
Theorem C26_iterjoins : forall (T A : Type) (t : jt T A), exists ps,
  StronglySorted before_exec ps /\ (forall p, In p ps <-> join_pos t p) /\ map Some (jt_iterjoins t) = map (at_pos t) ps.
Proof. intros T A t. exists (join_positions t). apply join_positions_ok. Qed.
Print Assumptions C26_iterjoins.
Example C26_ex_iter : map (@jt_tables nat nat _) (jt_iternodes bushy5) = [[0;1;2;3;4]; [0;1;2]; [0;1]; [0]; [1]; [2]; [3;4]; [3]; [4]] /\
  jt_itertables bushy5 = [0;1;2;3;4] /\ map (@jt_tables nat nat _) (jt_iterjoins bushy5) = [[0;1]; [0;1;2]; [3;4]; [0;1;2;3;4]].
Proof. repeat split. Qed.
(** lookup() never fails: it returns the first node, in reading order, with exactly the given tables, and None only if there
    is none. *)
Theorem C26_lookup : forall (T A : Type) (ET : EqD T) (t : jt T A) needle, exists r, jt_lookup t needle = Ok r /\
  match r with
  | Some s => exists p, at_pos t p = Some s /\ seteq (jt_tables s) needle /\ forall q u, at_pos t q = Some u -> seteq (jt_tables u) needle -> q = p \/ before p q
  | None => forall s, subtree s t -> ~ seteq (jt_tables s) needle
  end.
Proof. intros. apply lookup_ok. Qed.
Print Assumptions C26_lookup.
(** The [in] operator tells whether there is a node with exactly these tables (for at least one table). *)
Theorem C26_contains : forall (T A : Type) (ET : EqD T) (t : jt T A) needle, needle <> [] ->
  exists b, jt_contains t needle = Ok b /\ (b = true <-> exists s, subtree s t /\ seteq (jt_tables s) needle).
Proof.
  intros T A ET t needle Hne. unfold jt_contains. destruct (lookup_ok t needle) as [r [-> H]]. eexists. split; [reflexivity|]. destruct r as [s|].
  - destruct H as [p [H1 [H2 _]]]. split; [intros _; exists s; split; [now exists p|assumption]|intros _]. destruct s as [lg| |]; [|reflexivity|reflexivity]. exfalso.
    destruct needle as [|x l]; [congruence|]. destruct (proj2 (H2 x) (or_introl eq_refl)).
  - split; [discriminate|]. intros [s [Hs Heq]]. destruct (H s Hs Heq).
Qed.
Print Assumptions C26_contains.
Example C26_ex_lookup : jt_lookup bushy5 [2; 0; 1] = Ok (Some (jn (jn (sc 0) (sc 1)) (sc 2))) /\ jt_lookup bushy5 [1; 2] = Ok None /\ jt_lookup bushy5 [4] = Ok (Some (sc 4)).
Proof. repeat split. Qed.
(** join_with(): the tables of the result are those of both trees, in order; nothing of the two trees is changed, and unless
    one of them is empty they become the children of a new join with the given annotation. *)
Theorem C26_join_with : forall (T A : Type) (ET : EqD T) (none : A) (t p : jt T A) a inner,
  exists r, jt_join_with none t (inl p) a None inner = Ok r /\
  jt_itertables r = (if inner then jt_itertables t ++ jt_itertables p else jt_itertables p ++ jt_itertables t) /\
  (jt_empty p = true -> r = t) /\ (jt_empty p = false -> jt_empty t = true -> r = p) /\
  (jt_empty p = false -> jt_empty t = false -> r = JJoin false (if inner then t else p) (if inner then p else t) a).
Proof.
  intros T A ET none t p a inner. destruct p as [lg'|lg' x' b'|lg' o' i' b'].
  - exists t. split; [reflexivity|]. cbn. rewrite app_nil_r. destruct inner; repeat split; intros; try reflexivity; discriminate.
  - destruct t as [lg|lg x b|lg o i b]; cbn; eexists; (split; [reflexivity|]); destruct inner; cbn; rewrite ?app_nil_r; repeat split; intros; try reflexivity; discriminate.
  - destruct t as [lg|lg x b|lg o i b]; cbn; eexists; (split; [reflexivity|]); destruct inner; cbn; rewrite ?app_nil_r; repeat split; intros; try reflexivity; discriminate.
Qed.
Print Assumptions C26_join_with.
(** ... joining a table is joining its scan, and an annotation for the partner replaces the one it has. *)
Theorem C26_join_with_table : forall (T A : Type) (ET : EqD T) (none : A) (t : jt T A) x a pa inner,
  jt_join_with none t (inr x) a pa inner = jt_join_with none t (inl (JScan false x none)) a pa inner /\
  (forall p b, jt_empty p = false -> exists p', jt_update p b = Ok p' /\ jt_join_with none t (inl p) a (Some b) inner = jt_join_with none t (inl p') a None inner /\ jt_itertables p' = jt_itertables p).
Proof.
  intros T A ET none t x a pa inner. split.
  - destruct t, pa, inner; reflexivity.
  - intros p b Hp. destruct p as [lg|lg y c|lg o i c]; [discriminate| |]; eexists; (split; [reflexivity|]); (split; [|reflexivity]); destruct t; reflexivity.
Qed.
Print Assumptions C26_join_with_table.
Example C26_ex_join : jt_join_with 0 bushy5 (inr 9) 1 (Some 5) false = Ok (JJoin false (JScan false 9 5) bushy5 1) /\
  jt_join_with 0 (JEmpty false) (inl bushy5) 1 None true = Ok bushy5.
Proof. split; reflexivity. Qed.
(** Equality compares the shape and the tables, and equal trees have equal hashes. *)
Theorem C26_equality : forall (T A : Type) (teqb : T -> T -> bool) (htab : T -> nat) (htup : list nat -> nat) (hnone : nat),
  (forall x y, teqb x y = true -> htab x = htab y) -> forall t u : jt T A, jt_eqb teqb t u = true -> jt_hash htab htup hnone t = jt_hash htab htup hnone u.
Proof.
  intros T A teqb htab htup hnone Ht t. induction t as [lg|lg x a|lg o IHo i IHi a]; intros [lg'|lg' x' a'|lg' o' i' a']; cbn; intros H; try discriminate; [reflexivity| |].
  - apply andb_true_iff in H as [_ H]. now rewrite (Ht _ _ H).
  - apply andb_true_iff in H as [H H2]. apply andb_true_iff in H as [_ H1]. now rewrite (IHo _ H1), (IHi _ H2).
Qed.
Print Assumptions C26_equality.
(** jointree_from_sequence builds the tree with the given leaves. *)
Fixpoint seq_tables {T} (s : tseq T) : list T := match s with TTab x => [x] | TPair o i => seq_tables o ++ seq_tables i end.
Theorem C26_from_sequence : forall (T A : Type) (none : A) (s : tseq T), jt_itertables (jt_from_sequence none s) = seq_tables s /\ proper (jt_from_sequence none s) /\
  (forall s', jt_from_sequence none s = jt_from_sequence none s' -> s = s').
Proof.
  intros T A none s. split; [|split].
  - induction s as [x|o IHo i IHi]; cbn; congruence.
  - induction s as [x|o IHo i IHi]; cbn; [intros lg H; apply subtree_scan in H; discriminate|apply proper_join; auto].
  - induction s as [x|o IHo i IHi]; intros [x'|o' i']; cbn; intros H; try discriminate; injection H; intros; f_equal; auto.
Qed.
Print Assumptions C26_from_sequence.

(** plan_depth is the number of nodes on the longest way from the root. *)
Theorem C26_depth : forall (T A : Type) (t : jt T A), (forall p, node_pos t p -> List.length p < jt_depth t) /\
  (jt_depth t <> 0 -> exists p, node_pos t p /\ S (List.length p) = jt_depth t).
Proof.
  intros T A. unfold node_pos. induction t as [l|l x a|l o [IHo1 IHo2] i [IHi1 IHi2] a]; cbn [jt_depth].
  - split; [|congruence]. intros [|b p]; cbn; contradiction.
  - split; [|exists []; cbn; auto]. intros [|b p]; cbn; [lia|contradiction].
  - split.
    + intros [|b p]; cbn; [lia|]. destruct b; intros H; [specialize (IHi1 _ H)|specialize (IHo1 _ H)]; lia.
    + intros _. destruct (Nat.max_spec (jt_depth o) (jt_depth i)) as [[Hm ->]|[Hm ->]].
      * destruct IHi2 as [p [Hp El]]; [lia|]. exists (true :: p). cbn. auto.
      * destruct (Nat.eq_dec (jt_depth o) 0) as [E|E]; [exists []; cbn; rewrite E; auto|]. destruct (IHo2 E) as [p [Hp El]]. exists (false :: p). cbn. auto.
Qed.
Print Assumptions C26_depth.
Example C26_depth_ex : jt_depth (JJoin false (JScan false 1 tt) (JJoin false (JScan false 2 tt) (JScan false 3 tt) tt) tt) = 3. Proof. reflexivity. Qed.
(** is_base_join holds exactly for joins of two base tables. *)
Theorem C26_base_join : forall (T A : Type) (t : jt T A), jt_is_base_join t = Ok true <-> exists l o i a, t = JJoin l o i a /\ is_scan_tree o /\ is_scan_tree i.
Proof.
  intros T A t. split.
  - destruct t as [l|l x a|l o i a]; try discriminate. intros H. exists l, o, i, a. destruct o, i; try discriminate. cbn. auto.
  - intros (l & o & i & a & -> & Ho & Hi). destruct o; try contradiction. destruct i; try contradiction. reflexivity.
Qed.
Print Assumptions C26_base_join.
(** update_annotation replaces the annotation of the root and nothing else; only the empty tree is refused. *)
Definition root_annotation {T A} (t : jt T A) : option A := match t with JEmpty _ => None | JScan _ _ a | JJoin _ _ _ a => Some a end.
Theorem C26_update : forall (T A : Type) (t : jt T A) a, match jt_update t a with
  | Ok t' => root_annotation t' = Some a /\ (forall b p, at_pos t' (b :: p) = at_pos t (b :: p)) /\ (forall l x c, t = JScan l x c -> t' = JScan false x a) /\ (root_annotation t <> None)
  | Raise e => e = StateError /\ root_annotation t = None
  end.
Proof. intros T A [l|l x c|l o i c] a; cbn; repeat split; auto; try discriminate; intros ? ? ? [= _ <- _]; reflexivity. Qed.
Print Assumptions C26_update.

(** ** C27 *)
(** A linear tree is always recognised as linear; is_bushy() is the negation of is_linear(), so a tree reported as bushy is
    bushy.  For trees with at most four leaves is_linear() is exact.  Missing: larger trees, refuted below. *)
Theorem C27_linear_partial : forall (T A : Type) (t : jt T A), proper t -> exists b, jt_is_linear t = Ok b /\ jt_is_bushy t = Ok (negb b) /\
  (linear t -> b = true) /\ (List.length (jt_itertables t) <= 4 -> b = true -> linear t).
Proof.
  intros T A t Hp. unfold jt_is_bushy. destruct t as [lg|lg x a|lg o i a]; cbn.
  - exfalso. apply (Hp lg). apply subtree_refl.
  - exists true. repeat split; auto. intros _ _. apply linear_scan.
  - exists (jt_is_scan o || jt_is_scan i). split; [reflexivity|]. split; [reflexivity|]. rewrite orb_true_iff, !is_scan_iff. split.
    + intros H. apply linear_join in H as [H _]. assumption.
    + rewrite app_length. intros Hl Hs. apply proper_join in Hp as [Ho Hi]. apply linear_join. split; [assumption|].
      destruct (proper_leaves o Ho) as [Lo _], (proper_leaves i Hi) as [Li _]. split; apply small_linear; auto; lia.
Qed.
Print Assumptions C27_linear_partial.
Example C27_ex : proper (jn (jn (sc 0) (sc 1)) (jn (sc 2) (sc 3))) /\ jt_is_linear (jn (jn (sc 0) (sc 1)) (jn (sc 2) (sc 3))) = Ok false.
Proof. split; [|reflexivity]. repeat (apply proper_join; split); intros lg H; apply subtree_scan in H; discriminate. Qed.
(** Refuted: only the root is looked at. *)
Theorem C27_linear_refuted : exists t : jt nat nat, proper t /\ jt_is_linear t = Ok true /\ ~ linear t.
Proof.
  exists (jn (jn (jn (sc 0) (sc 1)) (jn (sc 2) (sc 3))) (sc 4)). split; [|split; [reflexivity|]].
  - repeat (apply proper_join; split); intros lg H; apply subtree_scan in H; discriminate.
  - intros H. destruct (H false (jn (sc 0) (sc 1)) (jn (sc 2) (sc 3)) 7) as [[]|[]]. exists [false]. reflexivity.
Qed.
Print Assumptions C27_linear_refuted.

(** ** C28 *)
Lemma load_table_ok x : mk_table (t_full x) (t_alias x) (t_virtual x) (t_schema x) = Ok x -> t_schema x = ""%string -> load_table_json (t_json x) = Ok (Some x).
Proof. destruct x as [f al v s]. cbn. intros H ->. now rewrite H. Qed.
(** C28, what holds: for a plain join tree without empty parts over tables without schema, reading the JSON form gives the
    very same tree, including the annotations.  Missing: LogicalJoinTrees, empty trees (refuted below). *)
Lemma jsize_pos j : 1 <= jsize j. Proof. destruct j; cbn; lia. Qed.
Lemma read_jt_ok (t : jtj) : proper t -> plain t -> (forall x, scanned x t -> mk_table (t_full x) (t_alias x) (t_virtual x) (t_schema x) = Ok x /\ t_schema x = ""%string) ->
  forall n, jsize (jt_json t) <= n -> read_jt n (jt_json t) = Ok t.
Proof.
  induction t as [lg|lg x a|lg o IHo i IHi a]; intros Hp Hpl Ht n Hn.
  - exfalso. apply (Hp lg). apply subtree_refl.
  - destruct n as [|n]; [cbn in Hn; lia|]. destruct (Ht x) as [H1 H2]; [exists lg, a; apply subtree_refl|].
    assert (lg = false) by (apply (Hpl (JScan lg x a)); apply subtree_refl). subst. cbn [read_jt jt_json]. cbn [jget dget]. cbn. rewrite H2 in H1. rewrite H1. cbn. destruct x; cbn in *; now subst.
  - destruct n as [|n]; [cbn in Hn; lia|]. assert (lg = false) by (apply (Hpl (JJoin lg o i a)); apply subtree_refl). subst.
    assert (Hs : forall s, subtree s o \/ subtree s i -> subtree s (JJoin false o i a)) by (intros s Hs; apply subtree_join; tauto).
    apply proper_join in Hp as [Ho Hi]. cbn [jt_json jsize fold_right snd] in Hn. 
    assert (Eo : read_jt n (jt_json o) = Ok o) by (apply IHo; [assumption|intros s Hx; apply Hpl; auto|intros x [l [b Hx]]; apply Ht; exists l, b; auto|lia]).
    assert (Ei : read_jt n (jt_json i) = Ok i) by (apply IHi; [assumption|intros s Hx; apply Hpl; auto|intros x [l [b Hx]]; apply Ht; exists l, b; auto|lia]).
    cbn [read_jt jt_json]. cbn [jget dget]. cbn. rewrite Eo. cbn. rewrite Ei. reflexivity.
Qed.
Theorem C28_roundtrip_partial : forall t : jtj, proper t -> plain t ->
  (forall x, scanned x t -> mk_table (t_full x) (t_alias x) (t_virtual x) (t_schema x) = Ok x /\ t_schema x = ""%string) -> read_jointree_json (jt_json t) = Ok t.
Proof. intros t Hp Hpl Ht. unfold read_jointree_json. now apply read_jt_ok. Qed.
Print Assumptions C28_roundtrip_partial.
Definition tR := mktref "r" "R1" false "". Definition tS := mktref "s" "" false "".
Example C28_ex : let t := JJoin false (JScan false tR (JBool true)) (JScan false tS JNull) (JStr "x") in
  proper t /\ plain t /\ read_jointree_json (jt_json t) = Ok t.
Proof.
  split; [|split; [|reflexivity]].
  - apply proper_join; split; intros lg H; apply subtree_scan in H; discriminate.
  - intros s H. apply subtree_join in H as [->|[H|H]]; [reflexivity| |]; apply subtree_scan in H; now subst.
Qed.
(** Refuted: a LogicalJoinTree is read as a plain join tree, which is never equal to it; the JSON form of the empty tree cannot
    be read at all; and (see C18) the schema of tables is lost. *)
Theorem C28_roundtrip_refuted :
  (forall x a, t_schema x = ""%string -> mk_table (t_full x) (t_alias x) (t_virtual x) (t_schema x) = Ok x ->
     exists t', read_jointree_json (jt_json (JScan true x a)) = Ok t' /\ jt_eqb t_eqb (JScan true x a) t' = false /\ jt_eqb t_eqb t' (JScan true x a) = false) /\
  (forall lg, read_jointree_json (jt_json (JEmpty lg)) = Raise AttributeError) /\
  (let x := mktref "r" "" false "public" in exists t', read_jointree_json (jt_json (JScan false x JNull)) = Ok t' /\ jt_eqb t_eqb (JScan false x JNull) t' = false).
Proof.
  split; [|split].
  - intros x a Hs Hx. exists (JScan false x a). split; [|split; reflexivity]. unfold read_jointree_json. cbn [jt_json jsize]. cbn [read_jt jget dget]. cbn. rewrite Hs in Hx. rewrite Hx. cbn. destruct x; cbn in *; now subst.
  - intros []; reflexivity.
  - eexists. split; reflexivity.
Qed.
Print Assumptions C28_roundtrip_refuted.

(** ** C61 *)
(** The results of joining and annotating LogicalJoinTrees are LogicalJoinTrees: refuted, they are always plain join trees
    (which have no [cardinality]). *)
Theorem C61_logical_refuted : forall (T A : Type) (ET : EqD T) (none : A) (t p r : jt T A) a b inner,
  jt_empty t = false -> jt_empty p = false -> (jt_join_with none t (inl p) a None inner = Ok r \/ jt_update t b = Ok r) -> lgflag r = false.
Proof.
  intros T A ET none t p r a b inner Ht Hp [H|H].
  - destruct p; [discriminate| |]; destruct t; try discriminate; cbn in H; injection H as <-; destruct inner; reflexivity.
  - destruct t; [discriminate| |]; cbn in H; injection H as <-; reflexivity.
Qed.
Print Assumptions C61_logical_refuted.
(** What holds: joining with an empty tree returns the other tree itself, and lookup and the traversals return the nodes as
    they are, so they keep their class. *)
Theorem C61_logical_partial : forall (T A : Type) (ET : EqD T) (none : A) (t : jt T A) a inner lg,
  (jt_join_with none t (inl (JEmpty lg)) a None inner = Ok t) /\ (jt_empty t = false -> jt_join_with none (JEmpty lg) (inl t) a None inner = Ok t) /\ (forall needle s, jt_lookup t needle = Ok (Some s) -> subtree s t) /\ (forall s, In s (jt_iternodes t) \/ In s (jt_iterjoins t) -> subtree s t).
Proof.
  intros T A ET none t a inner lg. split; [reflexivity|]. split; [now destruct t|]. split.
  - intros needle s H. destruct (lookup_ok t needle) as [r [E Hr]]. rewrite E in H. injection H as ->. destruct Hr as [p [Hp _]]. now exists p.
  - intros s [H|H].
    + destruct (node_positions_ok t) as [_ [_ Hm]]. apply (in_map Some) in H. rewrite Hm in H. apply in_map_iff in H as [p [Hp _]]. now exists p.
    + destruct (join_positions_ok t) as [_ [_ Hm]]. apply (in_map Some) in H. rewrite Hm in H. apply in_map_iff in H as [p [Hp _]]. now exists p.
Qed.
Print Assumptions C61_logical_partial.
Example C61_ex : let l := JJoin true (JScan true 0 3) (JScan true 1 4) 12 in jt_join_with 0 l (inl (JScan true 2 5)) 60 None true = Ok (JJoin false l (JScan true 2 5) 60) /\ jt_lookup l [1] = Ok (Some (JScan true 1 4)).
Proof. split; reflexivity. Qed.
