(** C25, C73: the mutable join graph. *)
From Coq Require Import List Bool Arith Lia Permutation.
From Verif Require Import PyBase JG_model JG_spec JG_proofs.
Import ListNotations.

Section Props.
  Context {T C : Type} {ET : EqD T} {EC : EqD C} (tab : C -> T) (between : T -> list T -> option (@jpred C)) (order : list T -> list T).
  Context (tables : list T) (es : list (T * T * @jpred C)) (kind : C -> ikind).
  Notation jstep := (jstep tab between order).

  Definition inv (w : @world T C) (s : @sets T) : Prop :=
    world_ok w /\ length (w_graphs w) = fst s /\ forall i g, nth_error (w_graphs w) i = Some g ->
      dkeys (g_nodes g) = dedup tables /\ g_edges g = es /\ dkeys (g_index g) = columns_of_edges es /\ (forall t, free_in (w_heap w) g t = negb (mem t (snd s i))) /\ (forall t, In t (snd s i) -> In t tables).
  Lemma inv_start : inv (start tables es kind) one_empty.
  Proof.
    unfold start. destruct (new_graph empty_heap tables es kind) as [g h] eqn:E. apply new_spec in E. destruct E as (G & K & E & I & F). split; [|split; [reflexivity|]].
    - split; cbn.
      + intros [|i] g' Hi; [injection Hi as <-; exact G|]. destruct i; discriminate.
      + intros [|i] [|j] g1 g2 H1 H2 Hne; try contradiction; [destruct j; discriminate|destruct i; discriminate|destruct i; discriminate].
    - intros [|i] g' Hi; [|destruct i; discriminate]. injection Hi as <-. cbn [snd one_empty w_heap]. repeat split; auto. intros t []. 
  Qed.
  Lemma ok_lengths : forall h h' (g : @jg T C), length (h_free h) <= length (h_free h') -> length (h_index h) <= length (h_index h') -> graph_ok h g -> graph_ok h' g.
  Proof. intros h h' g H1 H2 (A & B & D & E & F & G). repeat split; auto; intros a Ha; [specialize (F a Ha)|specialize (G a Ha)]; lia. Qed.
  (** One step: views of other graphs do not change. *)
  Lemma mark_others : forall w i g t edge j g', world_ok w -> nth_error (w_graphs w) i = Some g -> nth_error (w_graphs w) j = Some g' -> i <> j ->
    same_view (w_heap w) g' (fst (mark_joined tab between order (w_heap w) g t edge)) g'.
  Proof.
    intros w i g t edge j g' [Hok Hap] Hi Hj Hne. pose proof (mark_step tab between order (w_heap w) g t edge) as Hm. destruct (dget (g_nodes g) t) as [a|] eqn:Ea; [|rewrite Hm; apply view_cells; reflexivity].
    destruct Hm as (H1 & H2 & H3). destruct (Hap i j g g' Hi Hj Hne) as [P1 P2]. apply view_cells.
    - intros x Hx. unfold free_at. rewrite H1. cbn. rewrite update_nth. destruct (Nat.eqb_spec x a) as [->|]; [|reflexivity]. exfalso. apply (P1 a); [now apply In_dvalues in Ea|exact Hx].
    - intros x Hx. destruct (H3 x) as (_ & _ & H4). symmetry. apply H4. intros Hin. exact (P2 x Hin Hx).
  Qed.
  Lemma mark_world : forall w i g t edge, world_ok w -> nth_error (w_graphs w) i = Some g -> world_ok (mkw (fst (mark_joined tab between order (w_heap w) g t edge)) (w_graphs w)).
  Proof.
    intros w i g t edge [Hok Hap] Hi. split; cbn; [|exact Hap]. intros j g' Hj. pose proof (mark_step tab between order (w_heap w) g t edge) as Hm. destruct (dget (g_nodes g) t) as [a|]; [|rewrite Hm; cbn; now apply (Hok j)].
    destruct Hm as (H1 & H2 & _). apply (ok_lengths (w_heap w)); [rewrite H1; cbn; now rewrite update_length|rewrite H2; cbn; lia|now apply (Hok j)].
  Qed.
  Lemma clone_world : forall (w : @world T C) i (g g' : @jg T C) h', world_ok w -> nth_error (w_graphs w) i = Some g -> clone (w_heap w) g = (g', h') ->
    world_ok (mkw h' (w_graphs w ++ [g'])) /\ same_view (w_heap w) g h' g' /\ forall j g0, nth_error (w_graphs w) j = Some g0 -> same_view (w_heap w) g0 h' g0.
  Proof.
    intros w i g g' h' [Hok Hap] Hi E. destruct (clone_spec (w_heap w) g g' h' (Hok i g Hi) E) as (G & V & (vs & F) & (xs & I) & L1 & L2). split; [|split; [exact V|]].
    - assert (Hold : forall j g0, nth_error (w_graphs w) j = Some g0 -> apart g0 g' /\ apart g' g0).
      { intros j g0 Hj. destruct (Hok j g0 Hj) as (_ & _ & _ & _ & B1 & B2). split; split; intros a Ha Ha'; [specialize (B1 a Ha); specialize (L1 a Ha')|specialize (B2 a Ha); specialize (L2 a Ha')|specialize (B1 a Ha'); specialize (L1 a Ha)|specialize (B2 a Ha'); specialize (L2 a Ha)]; lia. }
      assert (Hnth : forall j g0, nth_error (w_graphs w ++ [g']) j = Some g0 -> nth_error (w_graphs w) j = Some g0 \/ (j = length (w_graphs w) /\ g0 = g')).
      { intros j g0 Hj. destruct (Nat.lt_ge_cases j (length (w_graphs w))) as [Hl|Hl]; [left; now rewrite nth_error_app1 in Hj|]. rewrite nth_error_app2 in Hj by exact Hl. destruct (j - length (w_graphs w)) as [|k] eqn:Ek; [right; split; [lia|now injection Hj]|destruct k; discriminate]. }
      split; cbn [w_heap w_graphs].
      + intros j g0 Hj. apply Hnth in Hj as [Hj|[_ ->]]; [|exact G]. apply (ok_lengths (w_heap w)); [rewrite F, app_length; lia|rewrite I, app_length; lia|now apply (Hok j)].
      + intros j k g1 g2 H1 H2 Hne. apply Hnth in H1 as [H1|[E1 ->]]; apply Hnth in H2 as [H2|[E2 ->]]; [now apply (Hap j k)|now apply (Hold j)|now apply (Hold k)|lia].
    - intros j g0 Hj. destruct (Hok j g0 Hj) as (_ & _ & _ & _ & B1 & B2). apply view_cells; intros a Ha; [unfold free_at; rewrite F; now rewrite app_nth1 by now apply B1|unfold index_at; rewrite I; now rewrite app_nth1 by now apply B2].
  Qed.
  Lemma mark_free : forall h g t edge a, graph_ok h g -> dget (g_nodes g) t = Some a -> forall t', free_in (fst (mark_joined tab between order h g t edge)) g t' = if deqb t' t then false else free_in h g t'.
  Proof.
    intros h g t edge a (W1 & W2 & N1 & N2 & L1 & L2) Ea t'. pose proof (mark_step tab between order h g t edge) as Hm. rewrite Ea in Hm. destruct Hm as (H1 & _ & _). unfold free_in, is_free. destruct (deqb t' t) eqn:Et.
    - apply deqb_true in Et. subst t'. rewrite Ea. unfold free_at. rewrite H1. cbn. rewrite update_nth, Nat.eqb_refl. now rewrite (proj2 (Nat.ltb_lt _ _) (L1 a (In_dvalues _ _ _ Ea))).
    - apply deqb_false in Et. destruct (dget (g_nodes g) t') as [b|] eqn:Eb; [|reflexivity]. unfold free_at. rewrite H1. cbn. rewrite update_nth. destruct (Nat.eqb_spec b a) as [->|]; [|reflexivity]. exfalso. apply Et. destruct (dget_nth _ _ _ Ea) as (n & A1 & A2), (dget_nth _ _ _ Eb) as (m & B1 & B2).
      assert (n = m) by (apply (NoDup_nth_error (dvalues (g_nodes g))); [exact N1|apply nth_error_Some; congruence|congruence]). subst. congruence.
  Qed.
  Lemma inv_step : forall w s o, inv w s -> inv (jstep w o) (marks tables s o).
  Proof.
    intros w [n f] o (Hw & Hl & Hg). cbn [fst snd] in *. destruct o as [i t edge|i]; cbn [JG_model.jstep marks].
    - destruct (nth_error (w_graphs w) i) as [g|] eqn:Ei.
      + split; [now apply (mark_world w i)|]. split; [exact Hl|]. cbn [w_graphs w_heap snd]. intros j g' Hj. destruct (Hg j g' Hj) as (K & Ee & I & F & M). split; [exact K|]. split; [exact Ee|]. split; [exact I|]. destruct (Nat.eqb_spec j i) as [->|Hne]; cbn [andb].
        * rewrite Ei in Hj. injection Hj as <-. destruct (mem t tables) eqn:Em.
          -- apply mem_In in Em. assert (Hk : In t (dkeys (g_nodes g))) by (rewrite K; now apply dedup_In). destruct (dget (g_nodes g) t) as [a|] eqn:Ea; [|exfalso; exact (proj1 (dget_None _ _) Ea Hk)]. split.
             ++ intros t'. rewrite (mark_free _ _ _ _ a (proj1 Hw i g Ei) Ea), F. destruct (deqb t' t) eqn:Et.
                ** apply deqb_true in Et. subst. symmetry. apply negb_false_iff, mem_In. now left.
                ** apply deqb_false in Et. f_equal. destruct (mem t' (f i)) eqn:E1, (mem t' (t :: f i)) eqn:E2; try reflexivity; [apply mem_In in E1; apply mem_nIn in E2; exfalso; apply E2; now right|apply mem_nIn in E1; apply mem_In in E2; destruct E2 as [E2|E2]; congruence].
             ++ intros t' [<-|Ht']; [exact Em|now apply M].
          -- split; [|exact M]. intros t'. rewrite <- F. pose proof (mark_step tab between order (w_heap w) g t edge) as Hm. destruct (dget (g_nodes g) t) as [a|] eqn:Ea; [|now rewrite Hm]. exfalso. apply mem_nIn in Em. apply Em. apply (proj1 (dedup_In _ _)). rewrite <- K. unfold dkeys. apply dget_In in Ea. apply in_map_iff. now exists (t, a).
        * split; [|exact M]. intros t'. rewrite <- F. symmetry. apply (mark_others w i g t edge j g' Hw Ei Hj). auto.
      + split; [exact Hw|]. split; [exact Hl|]. intros j g' Hj. cbn [snd]. assert (Hne : j <> i) by congruence. rewrite (proj2 (Nat.eqb_neq j i) Hne). cbn [andb]. now apply Hg.
    - destruct (nth_error (w_graphs w) i) as [g|] eqn:Ei.
      + assert (Hi : i < n) by (rewrite <- Hl; apply nth_error_Some; congruence). rewrite (proj2 (Nat.ltb_lt i n) Hi). destruct (clone (w_heap w) g) as [g' h'] eqn:Ec. destruct (clone_world w i g g' h' Hw Ei Ec) as (Hw' & V & Vo). split; [exact Hw'|]. split; [cbn; rewrite app_length; cbn; lia|]. cbn [snd w_graphs w_heap]. intros j g0 Hj.
        destruct (Nat.lt_ge_cases j n) as [Hlt|Hge].
        * rewrite nth_error_app1 in Hj by lia. assert (Hne : j <> n) by lia. rewrite (proj2 (Nat.eqb_neq j n) Hne). destruct (Hg j g0 Hj) as (K & Ee & I & F & M). repeat split; auto. intros t'. rewrite <- F. symmetry. now apply (Vo j).
        * rewrite nth_error_app2 in Hj by lia. destruct (j - length (w_graphs w)) as [|k] eqn:Ek; [|destruct k; discriminate]. injection Hj as <-. assert (j = n) by lia. subst j. rewrite Nat.eqb_refl. destruct (Hg i g Ei) as (K & Ee & I & F & M). destruct V as (V1 & V2 & V3 & V4 & V5). repeat split; [congruence|congruence|congruence| |exact M]. intros t'. now rewrite <- V3.
      + assert (Hi : ~ i < n) by (rewrite <- Hl; intros H; apply nth_error_Some in H; congruence). apply Nat.ltb_nlt in Hi. rewrite Hi. split; [exact Hw|]. split; [exact Hl|exact Hg].
  Qed.
  Lemma inv_reach : forall ops, inv (fold_left jstep ops (start tables es kind)) (fold_left (marks tables) ops one_empty).
  Proof. intros ops. induction ops as [|o ops IH] using rev_ind; [apply inv_start|]. rewrite !fold_left_app. cbn. now apply inv_step. Qed.

  (** C25: after any sequence of marks and clones, the joined tables of each graph are exactly those marked in it (and in its
      origin before cloning), free tables are the others. *)
  Theorem C25_states : forall ops, let w := fold_left jstep ops (start tables es kind) in let s := fold_left (marks tables) ops one_empty in
    length (w_graphs w) = fst s /\ forall i g, nth_error (w_graphs w) i = Some g ->
      (forall t, In t (joined_tables (w_heap w) g) <-> In t (snd s i)) /\ (forall t, In t (free_tables (w_heap w) g) <-> In t tables /\ ~ In t (snd s i)) /\ NoDup (joined_tables (w_heap w) g ++ free_tables (w_heap w) g).
  Proof.
    intros ops w s. pose proof (inv_reach ops) as (Hw & Hl & Hg). fold w s in Hw, Hl, Hg. split; [exact Hl|]. intros i g Hi. destruct (Hg i g Hi) as (K & Ee & I & F & M). unfold joined_tables, free_tables. rewrite K. split; [|split].
    - intros t. rewrite filter_In, F, negb_involutive, mem_In. split; [tauto|]. intros H. split; [apply dedup_In; now apply M|exact H].
    - intros t. rewrite filter_In, F, negb_true_iff. split; intros [H1 H2]; (split; [now apply (proj1 (dedup_In _ _)) in H1 || now apply (proj2 (dedup_In _ _)) |now apply mem_nIn]).
    - assert (Hn : forall (p : T -> bool) l, NoDup l -> NoDup (filter (fun t => negb (p t)) l ++ filter p l)).
      { intros p l Hl'. induction Hl' as [|x l Hx Hl' IH]; [constructor|]. cbn. destruct (p x); cbn.
        - apply (NoDup_Add (a := x) (l := filter (fun t => negb (p t)) l ++ filter p l)); [apply Add_app|]. split; [exact IH|]. intros Hin. apply in_app_iff in Hin as [Hin|Hin]; apply filter_In in Hin; tauto.
        - constructor; [|exact IH]. intros Hin. apply in_app_iff in Hin as [Hin|Hin]; apply filter_In in Hin; tauto. }
      apply Hn, dedup_NoDup.
  Qed.
  (** C25: a table never becomes free again. *)
  Theorem C25_monotone : forall ops ops' i g g', let w := fold_left jstep ops (start tables es kind) in let w' := fold_left jstep ops' w in
    nth_error (w_graphs w) i = Some g -> nth_error (w_graphs w') i = Some g' -> incl (joined_tables (w_heap w) g) (joined_tables (w_heap w') g').
  Proof.
    intros ops ops' i g g' w w' Hi Hi' t Ht. destruct (C25_states ops) as [Hl Hs]. fold w in Hl, Hs. apply (proj1 (Hs i g Hi)) in Ht. destruct (C25_states (ops ++ ops')) as [_ Hs']. rewrite !fold_left_app in Hs'. fold w in Hs'. fold w' in Hs'. apply (proj1 (Hs' i g' Hi')).
    assert (Hlen : i < fst (fold_left (marks tables) ops one_empty)) by (rewrite <- Hl; apply nth_error_Some; congruence). clear - Ht Hlen. revert Ht Hlen. generalize (fold_left (marks tables) ops one_empty). induction ops' as [|o ops' IH]; intros [n f] Ht Hlen; [exact Ht|]. cbn [fold_left]. cbn [fst snd] in *. destruct o as [j t' e|j]; cbn [marks].
    - apply IH; cbn [fst snd]; [|exact Hlen]. destruct ((i =? j) && mem t' tables); [now right|exact Ht].
    - destruct (j <? n); apply IH; cbn [fst snd]; try exact Ht; try lia. destruct (Nat.eqb_spec i n); [lia|exact Ht].
  Qed.
  (** C25: available join paths lead from a joined to a free table along an edge of the query, and all such edges are available;
      as long as no table is joined, all edges are available (in both directions, if requested). *)
  Theorem C25_paths : (forall e, In e es -> In (fst (fst e)) tables /\ In (snd (fst e)) tables) -> forall ops i g both, let w := fold_left jstep ops (start tables es kind) in let joined := snd (fold_left (marks tables) ops one_empty) i in
    nth_error (w_graphs w) i = Some g -> forall s t p, In (s, t, p) (available_join_paths (w_heap w) g both) <->
      (joined = [] /\ (if both then joined_by es s t p else In (s, t, p) es)) \/ (joined_by es s t p /\ In s joined /\ In t tables /\ ~ In t joined).
  Proof.
    intros He ops i g both w joined Hi s t p. pose proof (inv_reach ops) as (Hw & Hl & Hg). fold w in Hw, Hl, Hg. destruct (Hg i g Hi) as (K & Ee & I & F & M). fold joined in F, M.
    assert (Hinit : initial (w_heap w) g = match joined with [] => true | _ => false end).
    { unfold initial. rewrite K. destruct joined as [|t0 l] eqn:Ej.
      - apply forallb_forall. intros x _. now rewrite F.
      - apply not_true_is_false. intros H. rewrite forallb_forall in H. specialize (H t0). rewrite F in H. assert (Hm : mem t0 (t0 :: l) = true) by (apply mem_In; now left). rewrite Hm in H. discriminate H. apply dedup_In, M. now left. }
    unfold available_join_paths. rewrite Hinit, Ee. unfold joined_by. destruct joined as [|t0 l] eqn:Ej.
    - rewrite in_flat_map. split.
      + intros ([[s' t'] p'] & Hin & H). left. split; [reflexivity|]. destruct both; cbn in H.
        * destruct H as [H|[H|[]]]; injection H as <- <- <-; auto.
        * destruct H as [H|[]]. injection H as <- <- <-. exact Hin.
      + intros [[_ H]|(_ & [] & _)]. destruct both.
        * destruct H as [H|H]; [exists (s, t, p)|exists (t, s, p)]; (split; [exact H|cbn; auto]).
        * exists (s, t, p). split; [exact H|now left].
    - rewrite in_flat_map. split.
      + intros ([[s' t'] p'] & Hin & H). right. cbn [fst snd] in H. rewrite !F in H. destruct (He _ Hin) as [Hs Ht]. cbn in Hs, Ht. destruct (mem s' (t0 :: l)) eqn:E1, (mem t' (t0 :: l)) eqn:E2; cbn in H; try contradiction; destruct H as [H|[]]; injection H as <- <- <-.
        * apply mem_In in E1. apply mem_nIn in E2. auto.
        * apply mem_nIn in E1. apply mem_In in E2. auto.
      + intros [[H _]|(H & H1 & H2 & H3)]; [discriminate|]. apply mem_In in H1. apply mem_nIn in H3. destruct H as [H|H].
        * exists (s, t, p). split; [exact H|]. cbn [fst snd]. rewrite !F, H1, H3. now left.
        * exists (t, s, p). split; [exact H|]. cbn [fst snd]. rewrite !F, H1, H3. now left.
  Qed.
  (** C25: a clone looks like its origin; afterwards, changes to any one graph do not affect any other one -- neither its tables
      nor its index information. *)
  Theorem C25_clone : forall ops i g, let w := fold_left jstep ops (start tables es kind) in nth_error (w_graphs w) i = Some g ->
    exists g', w_graphs (jstep w (Clone i)) = w_graphs w ++ [g'] /\ same_view (w_heap w) g (w_heap (jstep w (Clone i))) g' /\
    forall j g0, nth_error (w_graphs w) j = Some g0 -> same_view (w_heap w) g0 (w_heap (jstep w (Clone i))) g0.
  Proof.
    intros ops i g w Hi. pose proof (inv_reach ops) as (Hw & _ & _). fold w in Hw. cbn [JG_model.jstep]. rewrite Hi. destruct (clone (w_heap w) g) as [g' h'] eqn:Ec. destruct (clone_world w i g g' h' Hw Hi Ec) as (_ & V & Vo). exists g'. auto.
  Qed.
  Theorem C25_separate : forall ops i t edge j g, let w := fold_left jstep ops (start tables es kind) in i <> j -> nth_error (w_graphs w) j = Some g ->
    same_view (w_heap w) g (w_heap (jstep w (Mark i t edge))) g.
  Proof.
    intros ops i t edge j g w Hne Hj. pose proof (inv_reach ops) as (Hw & _ & _). fold w in Hw. cbn [JG_model.jstep]. destruct (nth_error (w_graphs w) i) as [gi|] eqn:Hi; [|apply view_cells; reflexivity]. now apply (mark_others w i gi t edge j g).
  Qed.
  (** C25: an index that became invalid stays so, and its kind never changes. *)
  Theorem C25_indexes : forall ops i t edge g c, let w := fold_left jstep ops (start tables es kind) in nth_error (w_graphs w) i = Some g ->
    let a := info (w_heap w) g (Some c) in let b := info (w_heap (jstep w (Mark i t edge))) g (Some c) in ix_kind b = ix_kind a /\ (ix_invalid a = true -> ix_invalid b = true).
  Proof.
    intros ops i t edge g c w Hi a b. subst a b. cbn [JG_model.jstep]. rewrite Hi. cbn [w_heap]. pose proof (mark_step tab between order (w_heap w) g t edge) as Hm. destruct (dget (g_nodes g) t) as [x|]; [|rewrite Hm; split; auto].
    destruct Hm as (_ & _ & H). unfold info. destruct (dget (g_index g) c) as [y|]; [|split; auto]. destruct (H y) as (H1 & H2 & _). split; [exact H1|exact H2].
  Qed.
  (** C73: marking a table of the graph succeeds, if all columns of the join predicate belong to the graph. *)
  Lemma known_index : forall (g : @jg T C) edge p, dkeys (g_index g) = columns_of_edges es -> known es edge -> In p edge -> (exists a, dget (g_index g) (fst p) = Some a) /\ exists a, dget (g_index g) (snd p) = Some a.
  Proof.
    intros g edge p K Hk Hp. destruct (Hk p Hp) as (e & q & r & He & Hq & Hr & H1 & H2).
    assert (Hc : forall c q, In q (snd e) -> c = fst q \/ c = snd q -> exists a, dget (g_index g) c = Some a).
    { intros c q0 Hq0 Hc. assert (Hin : In c (dkeys (g_index g))). { rewrite K. apply dedup_In. apply in_flat_map. exists e. split; [exact He|]. apply in_flat_map. exists q0. split; [exact Hq0|]. cbn. destruct Hc as [->| ->]; auto. }
      destruct (dget (g_index g) c) as [a|] eqn:Ea; [eauto|]. exfalso. exact (proj1 (dget_None _ _) Ea Hin). }
    split; [now apply (Hc _ q)|now apply (Hc _ r)].
  Qed.
  Theorem C73_succeeds_partial : (forall t l e, between t l = Some e -> known es e) -> forall ops i t edge g, let w := fold_left jstep ops (start tables es kind) in nth_error (w_graphs w) i = Some g ->
    In t tables -> (forall e, edge = Some e -> known es e) -> snd (mark_joined tab between order (w_heap w) g t edge) = None.
  Proof.
    intros Hb ops i t edge g w Hi Ht Hedge. pose proof (inv_reach ops) as (Hw & _ & Hg). fold w in Hw, Hg. destruct (Hg i g Hi) as (K & _ & I & _). unfold mark_joined.
    destruct (dget (g_nodes g) t) as [a|] eqn:Ea; [|exfalso; apply (proj1 (dget_None _ _) Ea); rewrite K; now apply dedup_In]. cbn zeta. match goal with |- context [if ?b then _ else _] => destruct b end; [reflexivity|].
    match goal with |- snd (match ?m with Some _ => _ | None => _ end) = None => destruct m as [e|] eqn:Ee end; [|reflexivity]. assert (Hk : known es e) by (destruct edge as [e'|]; [injection Ee as <-; now apply Hedge|now apply Hb in Ee]). clear - Hk I. generalize (order (partner_tables tab e t)) (set_free (w_heap w) a false). intros ps. revert t.
    induction ps as [|p ps IH]; intros cur h; [reflexivity|]. cbn [partners_loop].
    assert (Hp : forall pk fk ps h, incl ps e -> snd (invalidate_pairs tab h g cur pk fk ps) = None).
    { clear IH. intros pk fk ps'. induction ps' as [|[c1 c2] ps' IH]; intros h0 Hincl; [reflexivity|]. cbn [invalidate_pairs]. destruct (known_index g e (c1, c2) I Hk (Hincl _ (or_introl eq_refl))) as [[a1 A1] [a2 A2]]. cbn in A1, A2. unfold invalidate. destruct (deqb (tab c1) cur), pk, fk; rewrite ?A1, ?A2; apply IH; intros x Hx; apply Hincl; now right. }
    destruct (is_pk_fk_join tab h g cur p && is_pk_fk_join tab h g p cur); [apply IH|]. specialize (Hp (is_pk_fk_join tab h g cur p) (is_pk_fk_join tab h g p cur) e h (fun x H => H)). destruct (invalidate_pairs tab h g cur _ _ e) as [h0 [ex|]]; [discriminate|]. destruct (is_pk_fk_join tab h g cur p); apply IH.
  Qed.
  (** C73: with at most one join partner, the outcome does not depend on the iteration order of the partners. *)
  Theorem C73_order_partial : forall order1 order2 h g t e, Permutation (order1 (partner_tables tab e t)) (partner_tables tab e t) -> Permutation (order2 (partner_tables tab e t)) (partner_tables tab e t) ->
    length (partner_tables tab e t) <= 1 -> mark_joined tab between order1 h g t (Some e) = mark_joined tab between order2 h g t (Some e).
  Proof.
    intros o1 o2 h g t e H1 H2 Hl. unfold mark_joined. destruct (dget (g_nodes g) t) as [a|]; [|reflexivity]. cbn zeta. match goal with |- context [if ?b then _ else _] => destruct b end; [reflexivity|].
    destruct (partner_tables tab e t) as [|p [|]]; cbn in Hl; [| |lia].
    - apply Permutation_sym, Permutation_nil in H1. apply Permutation_sym, Permutation_nil in H2. now rewrite H1, H2.
    - apply Permutation_sym, Permutation_length_1_inv in H1. apply Permutation_sym, Permutation_length_1_inv in H2. now rewrite H1, H2.
  Qed.
End Props.
Print Assumptions C25_states.
Print Assumptions C25_monotone.
Print Assumptions C25_paths.
Print Assumptions C25_clone.
Print Assumptions C25_separate.
Print Assumptions C25_indexes.
Print Assumptions C73_succeeds_partial.
Print Assumptions C73_order_partial.

(** Columns are pairs of a table and a number.  Table 0 has foreign keys to the tables 1 and 2; both have another primary key
    column, that is joined with table 3. *)
Definition ex_tables : list nat := [0; 1; 2; 3].
Definition ex_edges : list (nat * nat * list ((nat * nat) * (nat * nat))) := [(0, 1, [((0, 0), (1, 0))]); (0, 2, [((0, 1), (2, 0))]); (1, 3, [((1, 1), (3, 0))]); (2, 3, [((2, 1), (3, 1))])].
Definition ex_kind (c : nat * nat) : ikind := match fst c with 0 => Secondary | 1 | 2 => Primary | _ => NoIndex end.
Definition ex_between (t : nat) (ts : list nat) : option (list ((nat * nat) * (nat * nat))) :=
  match filter (fun p : (nat * nat) * (nat * nat) => (Nat.eqb (fst (fst p)) t && mem (fst (snd p)) ts) || (Nat.eqb (fst (snd p)) t && mem (fst (fst p)) ts)) (flat_map snd ex_edges) with [] => None | l => Some l end.
Definition ex_run (order : list nat -> list nat) (ops : list (@jop nat (nat * nat))) : world := fold_left (jstep fst ex_between order) ops (start ex_tables ex_edges ex_kind).
Definition ex_view (w : @world nat (nat * nat)) (i : nat) : option (list nat * list (nat * nat)) :=
  option_map (fun g => (joined_tables (w_heap w) g, map (fun p => fst p) (available_join_paths (w_heap w) g false))) (nth_error (w_graphs w) i).
Example C25_case : let w := ex_run (fun l => l) [Mark 0 1 None; Clone 0; Mark 0 3 None; Mark 1 0 None] in
  ex_view w 0 = Some ([1; 3], [(1, 0); (3, 2)]) /\ ex_view w 1 = Some ([0; 1], [(0, 2); (1, 3)]).
Proof. split; reflexivity. Qed.
Example C73_case : (forall t l e, ex_between t l = Some e -> known ex_edges e).
Proof.
  intros t l e H. unfold ex_between in H. destruct (filter _ _) as [|x r] eqn:Ef; [discriminate|]. injection H as <-. intros p Hp. assert (Hin : In p (flat_map snd ex_edges)) by (rewrite <- Ef in Hp; apply filter_In in Hp; tauto).
  apply in_flat_map in Hin as (e & He & Hq). exists e, p, p. split; [exact He|]. split; [exact Hq|]. split; [exact Hq|]. split; [now left|now right].
Qed.
(** C73 fails: a join predicate with more than two columns is not part of the graph, but mark_joined looks up its columns. *)
Theorem C73_key_refuted : exists (between : nat -> list nat -> option (list ((nat * nat) * (nat * nat)))) w g, w = fold_left (jstep fst between (fun l => l)) [Mark 0 0 None] (start [0; 1] [] ex_kind) /\ nth_error (w_graphs w) 0 = Some g /\
  snd (mark_joined fst between (fun l => l) (w_heap w) g 1 None) = Some KeyError.
Proof. exists (fun _ _ => Some [((0, 0), (1, 0))]). eexists _, _. split; [reflexivity|]. split; reflexivity. Qed.
Print Assumptions C73_key_refuted.
(** C73 fails: if the new table has foreign keys to two joined tables, only the partner that comes first counts as a primary
    key/foreign key join.  Which indexes stay valid depends on the iteration order of a set. *)
Theorem C73_order_refuted : forall w w', w = ex_run (fun l => l) [Mark 0 1 None; Mark 0 2 None; Mark 0 0 None] -> w' = ex_run (@rev nat) [Mark 0 1 None; Mark 0 2 None; Mark 0 0 None] ->
  option_map (fun g => (ix_invalid (info (w_heap w) g (Some (1, 1))), ix_invalid (info (w_heap w) g (Some (2, 1))))) (nth_error (w_graphs w) 0) = Some (true, false) /\
  option_map (fun g => (ix_invalid (info (w_heap w') g (Some (1, 1))), ix_invalid (info (w_heap w') g (Some (2, 1))))) (nth_error (w_graphs w') 0) = Some (false, true).
Proof. intros w w' -> ->. split; reflexivity. Qed.
Print Assumptions C73_order_refuted.
