(** Property theorems for C254 - C257 (annotated join graphs, strategies of joins_between, simplified joins). *)
From Coq Require Import List Bool Arith Lia String.
From Verif Require Import PyBase Graph Pred_model Pred_spec Pred_proofs QPred_model QPred_spec QPred_proofs QPred2_proofs QPred3_proofs Pred_props QPred_props Expr_model QGraph_model QGraph_spec QGraph_proofs.
Import ListNotations.

Section J.
  Context {E : Type} (ecols : E -> list col).
  Notation pred := (pred E).

  Lemma occurs_contains f t : occurs ecols t f = contains_table ecols f t.
  Proof.
    apply Bool.eq_iff_eq_true. unfold occurs, contains_table. rewrite mem_In. unfold ptabs. rewrite In_ctabs, existsb_exists.
    split; intros (c & Hc & Ht); exists c; (split; [assumption|]); now apply deqb_eq.
  Qed.
  Lemma node_filter_spec fs t : stands_for (node_filter ecols fs t) fs (occurs ecols t).
  Proof.
    unfold stands_for, node_filter, filters_for.
    rewrite (filter_ext (fun f => contains_table ecols f t) (occurs ecols t)) by (intros; symmetry; apply occurs_contains).
    set (l := filter (occurs ecols t) fs). split.
    - split.
      + intros H p Hp. destruct (occurs ecols t p) eqn:O; [|reflexivity]. assert (Hl : In p l) by (apply filter_In; auto).
        destruct l as [|a [|b l]]; [contradiction|discriminate|discriminate].
      + intros H. assert (Hl : l = []); [|now rewrite Hl]. destruct l as [|a l'] eqn:F; [reflexivity|]. assert (Ha : In a (filter (occurs ecols t) fs)) by (fold l; rewrite F; now left).
        apply filter_In in Ha as [Ha K]. rewrite (H a Ha) in K. discriminate.
    - intros p Hp I r. destruct l as [|a [|b m]]; [discriminate| |]; injection Hp as <-; cbn [map sem]; [|reflexivity].
      cbn. destruct (sem I r a); reflexivity.
  Qed.

  Lemma last_ex {A} (Q : A -> Prop) l x : (forall y, In y l -> Q y \/ ~ Q y) -> In x l -> Q x -> exists z, last_with Q l z.
  Proof.
    intros D Hx HQ. assert (K : (exists z, last_with Q l z) \/ forall y, In y l -> ~ Q y).
    { clear Hx HQ. induction l as [|y l IH]; [right; intros ? []|]. destruct IH as [(z & l1 & l2 & -> & H)|H]; [intros; apply D; now right| |].
      - left. exists z, (y :: l1), l2. auto.
      - destruct (D y (or_introl eq_refl)) as [K|K]; [left; exists y, [], l; auto|right; intros w [<-|Hw]; auto]. }
    destruct K as [K|K]; [exact K|]. destruct (K x Hx HQ).
  Qed.
  Lemma pair_tabs_dec (l : list (col * col)) a b : pair_tabs l a b \/ ~ pair_tabs l a b.
  Proof.
    unfold pair_tabs. induction l as [|[c d] l IHl]; [right; intros (c & d & [[]|[]] & _)|].
    destruct IHl as [(c' & d' & H1 & H2)|IHl]; [left; exists c', d'; split; [destruct H1; [left|right]; now right|exact H2]|].
    destruct (eqd (c_tab c) (Some a)) as [E1|E1], (eqd (c_tab d) (Some b)) as [E2|E2].
    1: left; exists c, d; split; [left; now left|auto].
    all: destruct (eqd (c_tab d) (Some a)) as [E3|E3], (eqd (c_tab c) (Some b)) as [E4|E4];
      try (left; exists d, c; split; [right; now left|auto]; fail);
      right; intros (c' & d' & [[H1|H1]|[H1|H1]] & H2 & H3); try (injection H1 as <- <-; congruence); apply IHl; exists c', d'; auto.
  Qed.
  Lemma add_pairs_spec (j : pred) ps : forall g h, add_pairs j ps g = Ok h ->
    (forall x y, In (x, y) ps -> c_tab x <> None /\ c_tab y <> None) /\
    (forall a b, pair_tabs ps a b -> edge_label (g_edges h) a b = Some j) /\
    (forall a b, ~ pair_tabs ps a b -> edge_label (g_edges h) a b = edge_label (g_edges g) a b) /\
    (forall n a, dget (g_nodes g) n = Some a -> dget (g_nodes h) n = Some a) /\
    (forall n, dget (g_nodes h) n <> None <-> dget (g_nodes g) n <> None \/ exists b, pair_tabs ps n b).
  Proof.
    induction ps as [|[x y] ps IH]; intros g h; cbn [add_pairs].
    - intros [= <-]. split; [intros ? ? []|]. split; [intros a b H; now apply pair_tabs_nil in H|]. split; [reflexivity|].
      split; [auto|]. intros n. split; [auto|]. intros [H|(b & H)]; [exact H|now apply pair_tabs_nil in H].
    - destruct (c_tab x) as [t|] eqn:Hx; [|discriminate]. destruct (c_tab y) as [u|] eqn:Hy; [|discriminate]. intros H.
      destruct (IH _ _ H) as (I0 & I1 & I2 & I3 & I4).
      assert (P : forall a b, pair_tabs ((x, y) :: ps) a b <-> (a = t /\ b = u \/ a = u /\ b = t) \/ pair_tabs ps a b).
      { intros a b. unfold pair_tabs. split.
        - intros (c & d & H1 & H2 & H3). destruct H1 as [[H1|H1]|[H1|H1]].
          + injection H1 as <- <-. left. left. split; congruence.
          + right. exists c, d. auto.
          + injection H1 as <- <-. left. right. split; congruence.
          + right. exists c, d. auto.
        - intros [[[-> ->]|[-> ->]]|(c & d & H1 & H2 & H3)].
          + exists x, y. split; [left; now left|auto].
          + exists y, x. split; [right; now left|auto].
          + exists c, d. split; [|auto]. destruct H1 as [H1|H1]; [left|right]; now right. }
      split; [|split; [|split; [|split]]].
      + intros c d [Hc|Hc]; [injection Hc as <- <-; split; congruence|eauto].
      + intros a b Hab. destruct (pair_tabs_dec ps a b) as [Hd|Hd]; [now apply I1|]. rewrite (I2 a b Hd). rewrite add_edge_label.
        apply P in Hab as [Hab|Hab]; [|contradiction]. replace (same_edge a b (t, u, j)) with true; [reflexivity|]. symmetry. apply same_edge_iff. tauto.
      + intros a b Hab. rewrite I2 by (intros K; apply Hab; apply P; auto). rewrite add_edge_label.
        destruct (same_edge a b (t, u, j)) eqn:S1; [|reflexivity]. apply same_edge_iff in S1. destruct Hab. apply P. tauto.
      + intros n a Hn. apply I3. rewrite add_edge_node, Hn. reflexivity.
      + intros n. rewrite I4, add_edge_node. split.
        * intros [H1|(b & H1)]; [|right; exists b; apply P; auto]. destruct (dget (g_nodes g) n) eqn:G; [left; discriminate|].
          destruct (eqd n t) as [->|]; [right; exists u; apply P; auto|]. destruct (eqd n u) as [->|]; [right; exists t; apply P; auto|]. congruence.
        * intros [H1|(b & H1)].
          -- left. destruct (dget (g_nodes g) n); [discriminate|congruence].
          -- apply P in H1 as [[[-> ->]|[-> ->]]|H1]; [left|left|right; eauto].
             ++ destruct (dget (g_nodes g) t); [discriminate|]. destruct (eqd t t); [discriminate|congruence].
             ++ destruct (dget (g_nodes g) u); [discriminate|]. destruct (eqd u t); [discriminate|]. destruct (eqd u u); [discriminate|congruence].
  Qed.

  Definition binds_all (js : list pred) : Prop := forall j, In j js -> exists ps, join_partners ecols j = Ok ps /\ forall x y, In (x, y) ps -> c_tab x <> None /\ c_tab y <> None.
  Lemma add_pairs_ok (j : pred) ps : (forall x y, In (x, y) ps -> c_tab x <> None /\ c_tab y <> None) -> forall g, exists h, add_pairs j ps g = Ok h.
  Proof.
    induction ps as [|[x y] ps IH]; intros H g; cbn [add_pairs]; [eauto|]. destruct (H x y (or_introl eq_refl)) as [Hx Hy].
    destruct (c_tab x); [|congruence]. destruct (c_tab y); [|congruence]. apply IH. intros; apply H; now right.
  Qed.
  Lemma add_joins_ok js : forall g, binds_all js <-> exists h, add_joins ecols js g = Ok h.
  Proof.
    induction js as [|j js IH]; intros g; cbn [add_joins].
    - split; [eauto|]. intros _ j [].
    - split.
      + intros H. destruct (H j (or_introl eq_refl)) as (ps & Hp & Hb). rewrite Hp. cbn. destruct (add_pairs_ok j ps Hb g) as (h & ->). cbn.
        apply IH. intros k Hk. apply H. now right.
      + intros (h & H) k Hk. destruct (join_partners ecols j) as [ps|] eqn:Hp; cbn in H; [|discriminate].
        destruct (add_pairs j ps g) as [h1|] eqn:Ha; cbn in H; [|discriminate]. destruct Hk as [<-|Hk].
        * exists ps. split; [exact Hp|]. apply (add_pairs_spec j ps g h1 Ha).
        * assert (B : binds_all js) by (apply (IH h1); eauto). exact (B k Hk).
  Qed.
  Lemma add_joins_spec js : forall g h, add_joins ecols js g = Ok h ->
    (forall a b l, edge_label (g_edges h) a b = Some l <->
       last_with (links ecols a b) js l \/ (edge_label (g_edges g) a b = Some l /\ forall j, In j js -> ~ links ecols a b j)) /\
    (forall n a, dget (g_nodes g) n = Some a -> dget (g_nodes h) n = Some a) /\
    (forall n, dget (g_nodes h) n <> None <-> dget (g_nodes g) n <> None \/ exists j u, In j js /\ links ecols n u j).
  Proof.
    induction js as [|j js IH]; intros g h; cbn [add_joins].
    - intros [= <-]. split; [|split].
      + intros a b l. split; [intros H; right; split; [exact H|intros ? []]|]. intros [(l1 & l2 & H & _)|[H _]]; [now destruct l1|exact H].
      + auto.
      + intros n. split; [auto|]. intros [H|(j & u & [] & _)]. exact H.
    - destruct (join_partners ecols j) as [ps|] eqn:Hp; cbn [rbind]; [|discriminate].
      destruct (add_pairs j ps g) as [g1|] eqn:Ha; cbn [rbind]; [|discriminate]. intros H.
      destruct (add_pairs_spec j ps g g1 Ha) as (_ & A1 & A2 & A3 & A4). destruct (IH g1 h H) as (B1 & B2 & B3).
      assert (HL : forall a b, pair_tabs ps a b <-> links ecols a b j) by (intros; now apply join_partners_links).
      split; [|split].
      + intros a b l. rewrite B1. split.
        * intros [(l1 & l2 & -> & Q1 & Q2)|[H1 H2]].
          -- left. exists (j :: l1), l2. auto.
          -- destruct (pair_tabs_dec ps a b) as [Hd|Hd].
             ++ rewrite (A1 a b Hd) in H1. injection H1 as <-. left. exists [], js. split; [reflexivity|]. split; [now apply HL|exact H2].
             ++ rewrite (A2 a b Hd) in H1. right. split; [exact H1|]. intros k [<-|Hk]; [|auto]. intros K. apply Hd, HL, K.
        * intros [(l1 & l2 & E1 & Q1 & Q2)|[H1 H2]].
          -- destruct l1 as [|k l1]; injection E1 as <- ->.
             ++ right. split; [apply A1, HL, Q1|exact Q2].
             ++ left. exists l1, l2. auto.
          -- right. split; [rewrite A2; [exact H1|]|intros k Hk; apply H2; now right]. intros K. apply (H2 j (or_introl eq_refl)), HL, K.
      + intros n a Hn. apply B2, A3, Hn.
      + intros n. rewrite B3, A4. split.
        * intros [[H1|(b & H1)]|(k & u & Hk & Hl)]; [auto| |]; right; [exists j, b|exists k, u]; (split; [simpl; auto|]); [now apply HL|exact Hl].
        * intros [H1|(k & u & [<-|Hk] & Hl)]; [auto| |]; [left; right; exists u; now apply HL|right; eauto].
  Qed.
  Lemma add_joins_joined js : forall g h, add_joins ecols js g = Ok h -> forall a b l, joined h a b l -> joined g a b l \/ (In l js /\ links ecols a b l).
  Proof.
    induction js as [|j js IH]; intros g h; cbn [add_joins]; [intros [= <-]; auto|].
    destruct (join_partners ecols j) as [ps|] eqn:Hp; cbn [rbind]; [|discriminate].
    destruct (add_pairs j ps g) as [g1|] eqn:Ha; cbn [rbind]; [|discriminate]. intros H a b l Hl.
    destruct (IH g1 h H a b l Hl) as [K|(K1 & K2)]; [|right; split; [now right|exact K2]].
    enough (X : joined g a b l \/ (l = j /\ pair_tabs ps a b)).
    { destruct X as [X|(-> & X)]; [auto|]. right. split; [now left|]. now apply (join_partners_links ecols j a b ps Hp). }
    clear - Ha K. revert g Ha. induction ps as [|[x y] ps IH]; intros g Ha; cbn [add_pairs] in Ha; [injection Ha as <-; auto|].
    destruct (c_tab x) as [t|] eqn:Hx; [|discriminate]. destruct (c_tab y) as [u|] eqn:Hy; [|discriminate].
    destruct (IH _ Ha) as [X|(-> & c & d & X1 & X2)].
    - apply joined_add in X as [(X & _)|(-> & X)]; [auto|]. right. split; [reflexivity|]. destruct X as [(-> & ->)|(-> & ->)]; [exists x, y|exists y, x]; (split; [|auto]); [left|right]; now left.
    - right. split; [reflexivity|]. exists c, d. split; [destruct X1; [left|right]; now right|exact X2].
  Qed.
  Lemma init_nodes fs ts : forall (g : jgraph (E:=E)) n,
    dget (g_nodes (fold_left (fun g t => add_node g t (node_filter ecols fs t)) ts g)) n =
    if mem n ts then Some (Some (node_filter ecols fs n)) else dget (g_nodes g) n.
  Proof.
    induction ts as [|t ts IH]; intros g n; cbn [fold_left]; [reflexivity|]. rewrite IH. cbn [add_node g_nodes]. rewrite dset_spec.
    assert (Mc : mem n (t :: ts) = deqb n t || mem n ts) by reflexivity. rewrite Mc. unfold deqb. destruct (eqd n t) as [->|]; cbn [orb]; [|reflexivity].
    now destruct (mem t ts).
  Qed.
  Lemma init_edges fs ts : forall (g : jgraph (E:=E)), g_edges (fold_left (fun g t => add_node g t (node_filter ecols fs t)) ts g) = g_edges g.
  Proof. induction ts as [|t ts IH]; intros g; cbn [fold_left]; [reflexivity|]. rewrite IH. reflexivity. Qed.
End J.

(** C254: the join graph exists iff no join refuses to tell its partners and every partner column is bound to a table. *)
Theorem C254_exists : forall (E : Type) (ecols : E -> list col) (fs js : list (pred E)) (ts : list tbl),
  (exists g, join_graph ecols fs js ts = Ok g) <->
  (forall j, In j js -> exists ps, join_partners ecols j = Ok ps /\ forall x y, In (x, y) ps -> c_tab x <> None /\ c_tab y <> None).
Proof. intros E ecols fs js ts. unfold join_graph. symmetry. apply add_joins_ok. Qed.
Print Assumptions C254_exists.
(** C254: its nodes are the tables of the predicates, each annotated with the conjunction of the filters on it (or nothing, if there
    are none); two tables are connected iff some join predicate relates them.  The annotation of the edge is the last one, in
    the iteration order of the set of joins, of the join predicates between the two tables.  Missing: that the annotation
    covers all of them (false, see below). *)
Theorem C254_join_graph_partial : forall (E : Type) (ecols : E -> list col) (fs js : list (pred E)) (ts : list tbl) g,
  (forall j t, In j js -> In t (ptabs ecols j) -> In t ts) -> join_graph ecols fs js ts = Ok g ->
  (forall t, In t (dkeys (g_nodes g)) <-> In t ts) /\
  (forall t, In t ts -> exists a, dget (g_nodes g) t = Some (Some a) /\ stands_for a fs (occurs ecols t)) /\
  (forall t u, has_edge (g_edges g) t u = true <-> exists j, In j js /\ links ecols t u j) /\
  (forall t u l, edge_label (g_edges g) t u = Some l <-> last_with (links ecols t u) js l).
Proof.
  intros E ecols fs js ts g Hts H. unfold join_graph in H. destruct (add_joins_spec ecols js _ _ H) as (B1 & B2 & B3).
  assert (HL : forall t u l, edge_label (g_edges g) t u = Some l <-> last_with (links ecols t u) js l).
  { intros t u l. rewrite B1, init_edges. cbn. split; [intros [K|[K _]]; [exact K|discriminate]|auto]. }
  split; [|split; [|split]].
  - intros t. rewrite <- dget_key, B3, init_nodes. split.
    + intros [K|(j & u & Hj & Hl)]; [destruct (mem t ts) eqn:M; [now apply mem_In|cbn in K; congruence]|]. apply (Hts j); [exact Hj|]. eapply links_tab. exact Hl.
    + intros K. left. apply mem_In in K. rewrite K. discriminate.
  - intros t Ht. exists (node_filter ecols fs t). split; [|apply node_filter_spec]. apply B2. rewrite init_nodes. apply mem_In in Ht. now rewrite Ht.
  - intros t u. rewrite has_edge_label. split.
    + destruct (edge_label (g_edges g) t u) as [l|] eqn:L; [|congruence]. intros _. apply HL in L as (l1 & l2 & -> & Q & _). exists l. split; [|exact Q]. apply in_app_iff. right. now left.
    + intros (j & Hj & Hl). enough (K : exists l, last_with (links ecols t u) js l) by (destruct K as (l & K); apply HL in K; congruence).
      assert (BA : forall j, In j js -> exists ps, join_partners ecols j = Ok ps).
      { intros k Hk. destruct (proj2 (add_joins_ok ecols js _) (ex_intro _ g H) k Hk) as (ps & K & _). eauto. }
      apply last_ex with j; [|exact Hj|exact Hl]. intros k Hk. destruct (BA k Hk) as (ps & Hp).
      destruct (pair_tabs_dec ps t u) as [D|D]; [left|right; intros D'; apply D]; now apply (join_partners_links ecols k t u ps Hp).
  - exact HL.
Qed.
Print Assumptions C254_join_graph_partial.
Example C254_ex : let js := [exj1; exj3] in let fs := [PBin OpLt Rb (K 3); PBin OpEq Ta (K 1); PBin OpGt Rb (K 0)] in
  (forall j t, In j js -> In t (ptabs xcols j) -> In t [2; 0; 1]) /\
  exists g, join_graph xcols fs js [2; 0; 1] = Ok g /\
    dget (g_nodes g) 0 = Some (Some (Some (PAnd [PBin OpLt Rb (K 3); PBin OpGt Rb (K 0)]))) /\ dget (g_nodes g) 1 = Some (Some None) /\
    edge_label (g_edges g) 1 0 = Some exj1 /\ edge_label (g_edges g) 1 2 = Some exj3 /\ edge_label (g_edges g) 0 2 = None.
Proof.
  cbn zeta. split; [intros j t [<-|[<-|[]]]; vm_compute; tauto|]. eexists. split; [vm_compute; reflexivity|]. vm_compute. auto.
Qed.
(** With two join predicates between R and S, the edge is annotated with one of them only, whatever the iteration order: there is a
    row which passes the annotation and fails the WHERE clause. *)
Theorem C254_edge_refuted : forall js, js = [exj1; exj2] \/ js = [exj2; exj1] ->
  exists g l (r : row XI), join_graph xcols [] js [0; 1] = Ok g /\ edge_label (g_edges g) 0 1 = Some l /\ sem XI r l = T3 /\ sem XI r (PAnd [exj1; exj2]) = F3.
Proof.
  intros js [->| ->].
  - eexists _, exj2, (fun c => Some (match c_tab c with Some 0 => 0 | _ => 1 end)). split; [vm_compute; reflexivity|]. split; [vm_compute; reflexivity|]. split; vm_compute; reflexivity.
  - eexists _, exj1, (fun _ => Some 0). split; [vm_compute; reflexivity|]. split; [vm_compute; reflexivity|]. split; vm_compute; reflexivity.
Qed.
Print Assumptions C254_edge_refuted.

(** C255 *)
Lemma norm_pair_or x y : norm_pair (x, y) = (x, y) \/ norm_pair (x, y) = (y, x).
Proof. unfold norm_pair. cbn [fst snd]. destruct (col_ltb y x); auto. Qed.
Lemma norm_pair_sym x y : norm_pair (x, y) = norm_pair (y, x).
Proof.
  unfold norm_pair, col_ltb, col_key. cbn [fst snd]. destruct x as [[t|] n], y as [[u|] m]; cbn -[Nat.ltb Nat.eqb];
    repeat match goal with |- context [Nat.ltb ?a ?b] => destruct (Nat.ltb_spec a b) | |- context [Nat.eqb ?a ?b] => destruct (Nat.eqb_spec a b) end;
    cbn; try reflexivity; try lia; repeat f_equal; try lia.
Qed.
Section M.
  Context {E : Type} (ecols : E -> list col) (base : tbl -> tbl).
  Notation pred := (pred E).
  Lemma col2join_keys js : forall d d', col2join ecols js d = Ok d' ->
    (forall j, In j js -> jp_ok ecols j) /\
    (forall k, In k (dkeys d') <-> In k (dkeys d) \/ exists j ps p, In j js /\ join_partners ecols j = Ok ps /\ In p ps /\ k = norm_pair p).
  Proof.
    induction js as [|j js IH]; intros d d'; cbn [col2join].
    - intros [= <-]. split; [intros ? []|]. intros k. split; [auto|]. intros [H|(j & ps & p & [] & _)]. exact H.
    - destruct (join_partners ecols j) as [ps|] eqn:Hp; cbn [rbind]; [|discriminate]. intros H. destruct (IH _ _ H) as (A & B).
      split; [intros k [<-|Hk]; [exists ps; exact Hp|auto]|]. intros k. rewrite B.
      assert (F : forall qs d, In k (dkeys (fold_left (fun d p => dset d (norm_pair p) j) qs d)) <-> In k (dkeys d) \/ exists p, In p qs /\ k = norm_pair p).
      { induction qs as [|q qs IHq]; intros d0; cbn [fold_left]; [split; [auto|intros [K|(p & [] & _)]; exact K]|]. rewrite IHq, dkeys_dset. split.
        - intros [[->|K]|(p & K & ->)]; [right; exists q; simpl; auto|auto|right; exists p; simpl; auto].
        - intros [K|(p & [<-|K] & ->)]; eauto. }
      rewrite F. split.
      + intros [[K|(p & K & ->)]|(j' & ps' & p & Hj & K)]; [auto| |]; right; [exists j, ps, p; simpl; auto|exists j', ps', p; simpl; tauto].
      + intros [K|(j' & ps' & p & [<-|Hj] & K1 & K2 & ->)]; [auto| |].
        * rewrite Hp in K1. injection K1 as <-. left. right. eauto.
        * right. exists j', ps', p. auto.
  Qed.
  Lemma col2join_ok js : (forall j, In j js -> jp_ok ecols j) -> forall d, exists d', col2join ecols js d = Ok d'.
  Proof.
    induction js as [|j js IH]; intros H d; cbn [col2join]; [eauto|]. destruct (H j (or_introl eq_refl)) as (ps & ->). cbn. apply IH. intros; apply H; now right.
  Qed.
  Definition dropped (p : col * col) : col * col := norm_pair (drop_table_alias base (fst p), drop_table_alias base (snd p)).
  Lemma tab2join_keys (d : col_joins (E:=E)) k : In k (dkeys (tab2join base d)) <-> exists p, In p (dkeys d) /\ k = dropped p.
  Proof.
    unfold tab2join.
    assert (F : forall d (m : dict (col * col) (col_joins (E:=E))), In k (dkeys (fold_left (fun m e => let k := norm_pair (drop_table_alias base (fst (fst e)), drop_table_alias base (snd (fst e))) in
                            dset m k (dset (match dget m k with Some x => x | None => [] end) (fst e) (snd e))) d m)) <-> In k (dkeys m) \/ exists p, In p (dkeys d) /\ k = dropped p).
    { clear d. induction d as [|[p j] d IH]; intros m; cbn [fold_left]; [split; [auto|intros [K|(p & [] & _)]; exact K]|]. rewrite IH. cbv zeta. cbn [fst snd]. rewrite dkeys_dset. split.
      - intros [[->|K]|(q & K & ->)]; [right; exists p; split; [now left|reflexivity]|auto|right; exists q; split; [now right|reflexivity]].
      - intros [K|(q & [<-|K] & ->)]; [auto|left; left; reflexivity|right; eauto]. }
    rewrite F. cbn. split; [intros [[]|K]; exact K|auto].
  Qed.
  Lemma add_merged_spec es : forall (g h : mgraph (E:=E)), add_merged es g = Ok h ->
    (forall a b l, In (a, b, l) es -> a <> b) /\
    (forall n m, edge_label (g_edges h) n m <> None <-> edge_label (g_edges g) n m <> None \/ exists a b l, In (a, b, l) es /\ ((n = GC a /\ m = GC b) \/ (n = GC b /\ m = GC a))) /\
    (forall t, dget (g_nodes h) (GT t) = dget (g_nodes g) (GT t)).
  Proof.
    induction es as [|[[a b] l] es IH]; intros g h; cbn [add_merged].
    - intros [= <-]. split; [intros ? ? ? []|]. split; [|reflexivity]. intros n m. split; [auto|]. intros [H|(a & b & l & [] & _)]. exact H.
    - destruct (deqb a b) eqn:D; [discriminate|]. intros H. destruct (IH _ _ H) as (A & B & C). split; [|split].
      + intros a' b' l' [K|K]; [injection K as <- <- <-; now apply deqb_neq|eauto].
      + intros n m. rewrite B, add_edge_label. destruct (same_edge n m (GC a, GC b, l)) eqn:S1.
        * split; [intros _|intros _; left; discriminate]. right. exists a, b, l. apply same_edge_iff in S1. split; [now left|exact S1].
        * split.
          -- intros [K|(a' & b' & l' & K & K2)]; [auto|]. right. exists a', b', l'. split; [now right|exact K2].
          -- intros [K|(a' & b' & l' & [K|K] & K2)]; [auto| |right; eauto 6].
             injection K as <- <- <-. assert (X : same_edge n m (GC a, GC b, l) = true) by (now apply same_edge_iff). rewrite S1 in X. discriminate.
      + intros t. rewrite C, add_edge_node. destruct (dget (g_nodes g) (GT t)); [reflexivity|].
        destruct (eqd (GT t) (GC a)); [discriminate|]. destruct (eqd (GT t) (GC b)); [discriminate|]. reflexivity.
  Qed.
  Lemma add_merged_ok es : (forall a b l, In (a, b, l) es -> a <> b) -> forall g : mgraph (E:=E), exists h, add_merged es g = Ok h.
  Proof.
    induction es as [|[[a b] l] es IH]; intros H g; cbn [add_merged]; [eauto|]. assert (H0 : a <> b) by (exact (H a b l (or_introl eq_refl))). apply deqb_neq in H0. rewrite H0. apply IH. intros a' b' l' K. exact (H a' b' l' (or_intror K)).
  Qed.
  Lemma group_aliases_spec fs ts : forall b, match dget (group_aliases ecols base fs ts) b with
    | None => forall t, In t ts -> base t <> b
    | Some a => (exists t, In t ts /\ base t = b) /\ forall t f, dget a t = Some f <-> In t ts /\ base t = b /\ f = node_filter ecols fs t
    end.
  Proof.
    unfold group_aliases. intros b.
    assert (F : forall ts2 ts1 d, (match dget d b with None => forall t, In t ts1 -> base t <> b
      | Some a => (exists t, In t ts1 /\ base t = b) /\ forall t f, dget a t = Some f <-> In t ts1 /\ base t = b /\ f = node_filter ecols fs t end) ->
      match dget (fold_left (fun d t => dset d (base t) (dset (match dget d (base t) with Some a => a | None => [] end) t (node_filter ecols fs t))) ts2 d) b with
      | None => forall t, In t (ts1 ++ ts2) -> base t <> b
      | Some a => (exists t, In t (ts1 ++ ts2) /\ base t = b) /\ forall t f, dget a t = Some f <-> In t (ts1 ++ ts2) /\ base t = b /\ f = node_filter ecols fs t end).
    { induction ts2 as [|t ts2 IH]; intros ts1 d H; cbn [fold_left]; [now rewrite app_nil_r|].
      replace (ts1 ++ t :: ts2) with ((ts1 ++ [t]) ++ ts2) by (rewrite <- app_assoc; reflexivity). apply IH. rewrite dset_spec.
      destruct (eqd b (base t)) as [->|Hb].
      - split; [exists t; split; [apply in_app_iff; right; now left|reflexivity]|]. intros u f. rewrite dset_spec, in_app_iff. cbn [In]. destruct (eqd u t) as [->|Hu].
        + split; [intros [= <-]; auto|intros (_ & _ & ->); reflexivity].
        + destruct (dget d (base t)) as [a|].
          * destruct H as [_ H]. rewrite H. split; [intros (K1 & K2 & K3); auto|]. intros ([K1|[K1|[]]] & K2 & K3); [auto|congruence].
          * cbn. split; [discriminate|]. intros ([K1|[K1|[]]] & K2 & K3); [destruct (H u K1 K2)|congruence].
      - destruct (dget d b) as [a|].
        + destruct H as [(u & Hu & Hbu) H]. split; [exists u; split; [apply in_app_iff; auto|exact Hbu]|]. intros v f. rewrite H, in_app_iff. cbn. split; [tauto|].
          intros ([K1|[<-|[]]] & K2 & K3); [auto|congruence].
        + intros u Hu. apply in_app_iff in Hu as [Hu|[<-|[]]]; [auto|congruence]. }
    apply (F ts [] []). cbn. intros t [].
  Qed.
  Lemma merged_nodes (es : dict tbl (alias_filters (E:=E))) : NoDup (map fst es) -> forall (g : mgraph (E:=E)) t,
    dget (g_nodes (fold_left (fun g e => add_node g (GT (fst e)) (snd e)) es g)) (GT t) =
    match dget es t with Some a => Some (Some a) | None => dget (g_nodes g) (GT t) end /\
    g_edges (fold_left (fun g e => add_node g (GT (fst e)) (snd e)) es g) = g_edges g.
  Proof.
    induction es as [|[u a] es IH]; intros Hnd g t; cbn [fold_left]; [split; reflexivity|]. inversion Hnd as [|? ? N1 N2]; subst.
    destruct (IH N2 (add_node g (GT u) a) t) as (I1 & I2). split; [|exact I2]. cbn [fst snd] in I1 |- *. rewrite I1. cbn [add_node g_nodes dget].
    rewrite dset_spec. destruct (eqd t u) as [->|Hu].
    - destruct (dget es u) eqn:G; [exfalso; apply N1; apply dget_In in G; apply in_map_iff; eexists; split; [|exact G]; reflexivity|].
      destruct (eqd (GT u) (GT u)); [reflexivity|congruence].
    - destruct (dget es t); [reflexivity|]. destruct (eqd (GT t) (GT u)) as [K|]; [injection K as ->; congruence|reflexivity].
  Qed.
  Lemma group_aliases_wf fs ts : NoDup (map fst (group_aliases ecols base fs ts)).
  Proof.
    unfold group_aliases. assert (F : forall d : dict tbl (alias_filters (E:=E)), dwf d -> dwf (fold_left (fun d t => dset d (base t) (dset (match dget d (base t) with Some a => a | None => [] end) t (node_filter ecols fs t))) ts d)).
    { induction ts as [|t ts IH]; intros d H; cbn [fold_left]; [exact H|]. apply IH. now apply dwf_dset. }
    apply F. constructor.
  Qed.
End M.

(** C255: what merge_aliases=True does.  The graph exists iff no join refuses to tell its partners and no join compares the same
    column of two aliases of one table.  There is a node for every base table, which lists exactly the aliases of the table,
    each with the conjunction of its filters.  All edges are between columns; two columns are connected iff a join predicate
    compares these columns of some aliases.  Missing: edges between the tables (there are none, see below). *)
Theorem C255_merged_partial : forall (E : Type) (ecols : E -> list col) (base : tbl -> tbl) (fs js : list (pred E)) (ts : list tbl),
  ((exists g, join_graph_merged ecols base fs js ts = Ok g) <->
   (forall j, In j js -> jp_ok ecols j) /\ (forall j x y, In j js -> pairs_columns ecols j x y -> drop_table_alias base x <> drop_table_alias base y)) /\
  forall g, join_graph_merged ecols base fs js ts = Ok g ->
  (forall b, match dget (g_nodes g) (GT b) with
             | None => forall t, In t ts -> base t <> b
             | Some None => False
             | Some (Some a) => (exists t, In t ts /\ base t = b) /\
                                forall t, (dget a t <> None <-> In t ts /\ base t = b) /\ forall f, dget a t = Some f -> stands_for f fs (occurs ecols t)
             end) /\
  (forall n m, has_edge (g_edges g) n m = true <->
     exists j x y, In j js /\ pairs_columns ecols j x y /\ n = GC (drop_table_alias base x) /\ m = GC (drop_table_alias base y)).
Proof.
  intros E ecols base fs js ts. unfold join_graph_merged.
  assert (Keys : forall d, col2join ecols js [] = Ok d -> forall a b, (exists l, In (a, b, l) (tab2join base d)) <-> exists j ps p, In j js /\ join_partners ecols j = Ok ps /\ In p ps /\ (a, b) = dropped base (norm_pair p)).
  { intros d Hd a b. destruct (col2join_keys ecols js [] d Hd) as (_ & K). transitivity (In (a, b) (dkeys (tab2join base d))).
    - unfold dkeys. rewrite in_map_iff. split; [intros (l & H); exists (a, b, l); auto|]. intros ([[a' b'] l] & H & H'). cbn in H. injection H as -> ->. eauto.
    - rewrite tab2join_keys. split.
      + intros (p & Hp & E1). apply K in Hp as [[]|(j & ps & q & Hj & Hps & Hq & ->)]. exists j, ps, q. auto.
      + intros (j & ps & q & Hj & Hps & Hq & E1). exists (norm_pair q). split; [apply K; right; exists j, ps, q; auto|exact E1]. }
  assert (Drop : forall x y a b, (a, b) = dropped base (norm_pair (x, y)) -> (a = drop_table_alias base x /\ b = drop_table_alias base y) \/ (a = drop_table_alias base y /\ b = drop_table_alias base x)).
  { intros x y a b H. unfold dropped in H. destruct (norm_pair_or x y) as [N|N]; rewrite N in H; cbn [fst snd] in H;
      destruct (norm_pair_or (drop_table_alias base x) (drop_table_alias base y)) as [N1|N1];
      destruct (norm_pair_or (drop_table_alias base y) (drop_table_alias base x)) as [N2|N2]; rewrite ?N1, ?N2 in H; injection H as -> ->; auto. }
  split.
  - split.
    + intros (g & H). destruct (col2join ecols js []) as [d|] eqn:Hd; cbn [rbind] in H; [|discriminate].
      destruct (col2join_keys ecols js [] d Hd) as (J & _). split; [exact J|]. destruct (add_merged_spec _ _ _ H) as (A & _).
      intros j x y Hj (ps & Hps & Hxy) Heq.
      assert (W : forall x y, In (x, y) ps -> drop_table_alias base x <> drop_table_alias base y).
      { clear x y Hxy Heq. intros x y Hxy Heq. destruct (dropped base (norm_pair (x, y))) as [a b] eqn:Ed.
        assert (X : exists l, In (a, b, l) (tab2join base d)) by (apply (Keys d eq_refl); exists j, ps, (x, y); auto).
        destruct X as (l & X). apply A in X. apply X. symmetry in Ed. apply Drop in Ed as [[-> ->]|[-> ->]]; congruence. }
      destruct Hxy as [Hxy|Hxy]; apply W in Hxy; congruence.
    + intros (J & W). destruct (col2join_ok ecols js J []) as (d & Hd). rewrite Hd. cbn [rbind]. apply add_merged_ok.
      intros a b l H. assert (X : exists j ps p, In j js /\ join_partners ecols j = Ok ps /\ In p ps /\ (a, b) = dropped base (norm_pair p)) by (apply (Keys d Hd); eauto).
      destruct X as (j & ps & [x y] & Hj & Hps & Hp & Ed). assert (D : drop_table_alias base x <> drop_table_alias base y) by (apply (W j); [exact Hj|exists ps; auto]).
      apply Drop in Ed as [[-> ->]|[-> ->]]; congruence.
  - intros g H. destruct (col2join ecols js []) as [d|] eqn:Hd; cbn [rbind] in H; [|discriminate].
    destruct (add_merged_spec _ _ _ H) as (A & B & C). split.
    + intros b. rewrite C. destruct (merged_nodes (group_aliases ecols base fs ts) (group_aliases_wf ecols base fs ts) g_empty b) as (-> & _).
      pose proof (group_aliases_spec ecols base fs ts b) as G. destruct (dget (group_aliases ecols base fs ts) b) as [a|]; [|cbn; exact G].
      destruct G as (G1 & G2). split; [exact G1|]. intros t. split.
      * split; [destruct (dget a t) as [f|] eqn:F; [intros _; apply G2 in F; tauto|congruence]|]. intros (K1 & K2). assert (X : dget a t = Some (node_filter ecols fs t)) by (apply G2; auto). congruence.
      * intros f F. apply G2 in F as (_ & _ & ->). apply node_filter_spec.
    + intros n m. rewrite has_edge_label, B. destruct (merged_nodes (group_aliases ecols base fs ts) (group_aliases_wf ecols base fs ts) g_empty 0) as (_ & ->). cbn. split.
      * intros [K|(a & b & l & K & K2)]; [congruence|]. assert (X : exists j ps p, In j js /\ join_partners ecols j = Ok ps /\ In p ps /\ (a, b) = dropped base (norm_pair p)) by (apply (Keys d eq_refl); eauto).
        destruct X as (j & ps & [x y] & Hj & Hps & Hp & Ed). apply Drop in Ed.
        assert (P1 : pairs_columns ecols j x y) by (exists ps; auto). assert (P2 : pairs_columns ecols j y x) by (exists ps; auto).
        destruct K2 as [[-> ->]|[-> ->]], Ed as [[-> ->]|[-> ->]]; [exists j, x, y|exists j, y, x|exists j, y, x|exists j, x, y]; auto.
      * intros (j & x & y & Hj & (ps & Hps & Hxy) & -> & ->). right.
        assert (W : forall x y, In (x, y) ps -> exists a b l, In (a, b, l) (tab2join base d) /\ ((a = drop_table_alias base x /\ b = drop_table_alias base y) \/ (a = drop_table_alias base y /\ b = drop_table_alias base x))).
        { clear x y Hxy. intros x y Hxy. destruct (dropped base (norm_pair (x, y))) as [a b] eqn:Ed.
          assert (X : exists l, In (a, b, l) (tab2join base d)) by (apply (Keys d eq_refl); exists j, ps, (x, y); auto).
          destruct X as (l & X). exists a, b, l. split; [exact X|]. apply Drop. now symmetry. }
        destruct Hxy as [Hxy|Hxy]; apply W in Hxy as (a & b & l & X & [[-> ->]|[-> ->]]); do 3 eexists; (split; [exact X|]); auto.
Qed.
Print Assumptions C255_merged_partial.
(** Aliases 0 and 1 of the table 10, 2 is an alias of 12. *)
Definition exbase (t : tbl) : tbl := match t with 0 | 1 => 10 | 2 => 12 | _ => t end.
(** SELECT ... FROM R r0, R r1, T t WHERE r1.b = t.a AND r0.a = t.a AND r0.b = 1 *)
Example C255_ex : let js := [exj3; PBin OpEq Ra Ta] in let fs := [PBin OpEq Rb (K 1)] in
  (forall j, In j js -> jp_ok xcols j) /\
  exists g, join_graph_merged xcols exbase fs js [0; 1; 2] = Ok g /\
    dget (g_nodes g) (GT 10) = Some (Some [(0, Some (PBin OpEq Rb (K 1))); (1, None)]) /\ dget (g_nodes g) (GT 12) = Some (Some [(2, None)]) /\
    has_edge (g_edges g) (GC (mkcol (Some 10) 1)) (GC (mkcol (Some 12) 0)) = true /\
    has_edge (g_edges g) (GC (mkcol (Some 10) 0)) (GC (mkcol (Some 12) 0)) = true.
Proof. cbn zeta. split; [intros j [<-|[<-|[]]]; eexists; vm_compute; reflexivity|]. eexists. split; [vm_compute; reflexivity|]. vm_compute. auto. Qed.
(** Documented: the nodes are base tables and the edges join them.  In fact no merged join graph has an edge between tables, the
    graph of a query with a single join has columns as nodes and is disconnected, and the self join on one column fails. *)
Theorem C255_merged_refuted :
  (forall (E : Type) (ecols : E -> list col) base (fs js : list (pred E)) ts g t u, join_graph_merged ecols base fs js ts = Ok g -> has_edge (g_edges g) (GT t) (GT u) = false) /\
  (exists g, join_graph_merged xcols exbase [] [exj3] [1; 2] = Ok g /\ links xcols 1 2 exj3 /\ In (GC (mkcol (Some 10) 1)) (dkeys (g_nodes g)) /\
             has_edge (g_edges g) (GT 10) (GT 12) = false) /\
  join_graph_merged xcols exbase [] [exj1] [0; 1] = Raise ValueError.
Proof.
  split; [|split].
  - intros E ecols base fs js ts g t u H. destruct (has_edge (g_edges g) (GT t) (GT u)) eqn:X; [|reflexivity].
    apply (proj2 (proj2 (C255_merged_partial E ecols base fs js ts) g H)) in X as (j & x & y & _ & _ & K & _). discriminate.
  - eexists. split; [vm_compute; reflexivity|]. split; [|split; [vm_compute; auto|vm_compute; reflexivity]].
    split; [discriminate|]. split; [exists (mkcol (Some 1) 1)|exists (mkcol (Some 2) 0)]; simpl; auto.
  - vm_compute. reflexivity.
Qed.
Print Assumptions C255_merged_refuted.

(** C256 *)
Section B.
  Context {E : Type} (ecols : E -> list col).
  Notation pred := (pred E).
  Lemma jp_go ps l : (fix go l := match l with [] => Ok [] | q :: r => rbind (join_partners ecols q) (fun x => rbind (go r) (fun y => Ok (x ++ y))) end) ps = Ok l ->
    forall q, In q ps -> jp_ok ecols q.
  Proof.
    revert l. induction ps as [|p ps IH]; intros l H q Hq; [contradiction|]. destruct (join_partners ecols p) as [x|] eqn:Hp; cbn in H; [|discriminate].
    destruct ((fix go l := match l with [] => Ok [] | q :: r => rbind (join_partners ecols q) (fun x => rbind (go r) (fun y => Ok (x ++ y))) end) ps) as [y|] eqn:Hy; [|discriminate].
    destruct Hq as [<-|Hq]; [exists x; exact Hp|]. eapply IH; eauto.
  Qed.
  Lemma many_of (s : list tbl) t u : NoDup s -> In t s -> In u s -> t <> u -> many s = true.
  Proof.
    intros Hn Ht Hu Hd. unfold many. destruct s as [|a [|b s]]; [contradiction| |reflexivity]. destruct Ht as [<-|[]], Hu as [<-|[]]. congruence.
  Qed.
  Lemma links_is_join p t u : jp_ok ecols p -> links ecols t u p -> is_join ecols p = true.
  Proof.
    unfold links. induction p as [op a b|a lo hi|a vs|op a|p IH|ps IH|ps IH] using pred_ind'; intros (l & Hl) H.
    1-3: cbn [join_partners] in Hl; match type of Hl with (if ?b then _ else _) = _ => destruct b eqn:J end; [reflexivity|discriminate].
    - cbn [some_leaf] in H. destruct H as (Hd & (c & Hc & Ht) & (d & Hdd & Hu)). cbn [is_join]. apply many_of with t u; [apply dedup_NoDup|..|exact Hd]; apply In_ctabs; eauto.
    - cbn [is_join]. apply IH; [exists l; exact Hl|exact H].
    - cbn [is_join]. cbn [join_partners] in Hl. pose proof (jp_go ps l Hl) as Hq. apply existsb_exists. clear Hl l. cbn [some_leaf] in H.
      induction ps as [|q ps IHps]; [contradiction|]. destruct H as [H|H].
      + exists q. split; [now left|]. apply (Forall_inv IH); [apply Hq; now left|exact H].
      + destruct IHps as (q' & Hq' & J); [exact (Forall_inv_tail IH)|exact H|intros; apply Hq; now right|]. exists q'. split; [now right|exact J].
    - cbn [is_join]. cbn [join_partners] in Hl. pose proof (jp_go ps l Hl) as Hq. apply existsb_exists. clear Hl l. cbn [some_leaf] in H.
      induction ps as [|q ps IHps]; [contradiction|]. destruct H as [H|H].
      + exists q. split; [now left|]. apply (Forall_inv IH); [apply Hq; now left|exact H].
      + destruct IHps as (q' & Hq' & J); [exact (Forall_inv_tail IH)|exact H|intros; apply Hq; now right|]. exists q'. split; [now right|exact J].
  Qed.
  Lemma joins_table_spec p t : jp_ok ecols p -> (forall c, In c (pcols ecols p) -> c_tab c <> None) ->
    exists b, joins_table ecols p t = Ok b /\ (b = true <-> exists u, links ecols t u p).
  Proof.
    intros (l & Hl) Hb. unfold joins_table. destruct (is_join ecols p) eqn:J; cbn [negb].
    - rewrite Hl. cbn. eexists. split; [reflexivity|]. rewrite existsb_exists. split.
      + intros ([x y] & Hxy & H). destruct (partner_cols ecols p l Hl x y Hxy) as [Hx Hy]. apply Hb in Hx. apply Hb in Hy.
        destruct (c_tab x) as [a|] eqn:Ex; [|congruence]. destruct (c_tab y) as [b|] eqn:Ey; [|congruence].
        unfold belongs_to in H. rewrite orb_true_iff, !deqb_eq in H.
        destruct H as [H|H]; rewrite ?Ex, ?Ey in H; injection H as <-; [exists b|exists a]; apply (join_partners_links ecols p _ _ l Hl); [exists x, y|exists y, x]; auto.
      + intros (u & H). apply (join_partners_links ecols p t u l Hl) in H as (x & y & Hxy & Ht & Hu). unfold belongs_to.
        destruct Hxy as [Hxy|Hxy]; [exists (x, y)|exists (y, x)]; (split; [exact Hxy|]); rewrite Ht, Hu, orb_true_iff, !deqb_eq; auto.
    - exists false. split; [reflexivity|]. split; [discriminate|]. intros (u & H). apply links_is_join in H; [congruence|exists l; exact Hl].
  Qed.
  Lemma filterM_spec {X} (f : X -> res bool) (l : list X) : (forall x, In x l -> exists b, f x = Ok b) -> exists l', filterM f l = Ok l' /\ forall x, In x l' <-> In x l /\ f x = Ok true.
  Proof.
    induction l as [|x l IH]; intros H; cbn [filterM]; [exists []; split; [reflexivity|cbn; tauto]|]. destruct (H x (or_introl eq_refl)) as (b & Hb).
    destruct IH as (l' & Hl & HI); [intros; apply H; now right|]. rewrite Hb, Hl. cbn [rbind]. eexists. split; [reflexivity|]. intros y. destruct b; cbn [In]; rewrite HI.
    - split; [intros [<-|K]; [auto|tauto]|]. intros ([<-|K] & K2); auto.
    - split; [tauto|]. intros ([<-|K] & K2); [congruence|auto].
  Qed.
End B.

(** C256: for joins between exactly two tables, the legacy strategy finds a conjunction with the same value as the default one, and
    finds nothing iff the default finds nothing.  For collections of tables it returns the very same predicates.
    Missing: joins of three or more tables (false, see below). *)
Theorem C256_legacy_partial : forall (E : Type) (ecols : E -> list col) (js : list (pred E)) ts m,
  (forall j, In j js -> two_table ecols j) -> (forall j, In j js -> jp_ok ecols j) ->
  (forall j t, In j js -> In t (ptabs ecols j) -> In t ts) -> query_predicates ecols js ts = Ok m ->
  forall x y, exists l, legacy_single ecols js x y = Ok l /\ (l = [] <-> map_joins_between m [x] [y] = []) /\
    forall (I : interp E) r, all3 (map (sem I r) l) = all3 (map (sem I r) (map_joins_between m [x] [y])).
Proof.
  intros E ecols js ts m H2 Hok Hts Hm x y. unfold legacy_single.
  assert (Hdef : forall I : interp E, (forall r, all3 (map (sem I r) (map_joins_between m [x] [y])) = all3 (map (sem I r) (grp ecols js x y))) /\ (map_joins_between m [x] [y] = [] <-> grp ecols js x y = [])).
  { intros I. apply (C08_exact_partial E ecols I js ts m [x] [y] (grp ecols js x y) H2 Hok Hts Hm). intros j. unfold grp. rewrite filter_In. unfold tabs_are. rewrite seteqb_seteq. split.
    - intros [Hj Hs]. split; [exact Hj|]. exists x, y. cbn. auto.
    - intros (Hj & a & b & [<-|[]] & [<-|[]] & Hs). auto. }
  assert (Habs : interp E) by (exact {| V := unit; val := fun _ _ => tt; opsem := fun _ _ _ => T3; unsem := fun _ _ => T3 |}).
  destruct (deqb x y) eqn:D.
  - apply deqb_true in D. subst y. exists []. split; [reflexivity|].
    assert (G : grp ecols js x x = []).
    { destruct (grp ecols js x x) as [|j g] eqn:G; [reflexivity|]. assert (Hj : In j (grp ecols js x x)) by (rewrite G; now left).
      apply filter_In in Hj as [Hj Hs]. unfold tabs_are in Hs. apply seteqb_seteq in Hs. destruct (H2 j Hj) as [_ (a & b & Hab & Hs2 & _)].
      assert (In a [x; x]) by (apply Hs, Hs2; simpl; auto). assert (In b [x; x]) by (apply Hs, Hs2; simpl; auto). cbn in *. intuition congruence. }
    split; [rewrite (proj2 (Hdef Habs)), G; tauto|]. intros I r. rewrite (proj1 (Hdef I)), G. reflexivity.
  - apply deqb_neq in D. pose proof (joins_for_spec ecols Habs x js) as Hj. destruct (joins_for ecols js x) as [l|e] eqn:Hl; cbn [rbind].
    2: { destruct Hj as (_ & j & Hj & _ & K). destruct K. now apply Hok. }
    destruct (joins_for_two ecols js H2 Hok x l Hl) as (J1 & J2). destruct Hj as (_ & Hj). rewrite Forall_forall in Hj.
    assert (Hb : forall g, In g l -> forall c, In c (pcols ecols g) -> c_tab c <> None).
    { intros g Hg c Hc. destruct (J1 g Hg) as (u & _ & Hcr).
      assert (X : exists j, In j (filter (fun j => tabs_are ecols j x u) js) /\ In c (pcols ecols j)).
      { destruct (filter (fun j => tabs_are ecols j x u) js) as [|a [|b r]]; [discriminate|injection Hcr as <-; exists a; simpl; auto|].
        injection Hcr as <-. cbn [pcols] in Hc. apply in_flat_map in Hc. exact Hc. }
      destruct X as (j & Hj' & Hc'). apply filter_In in Hj' as [Hj' _]. exact (proj1 (H2 j Hj') c Hc'). }
    destruct (filterM_spec (fun j => joins_table ecols j y) l) as (l' & Hf & HI).
    { intros g Hg. destruct (joins_table_spec ecols g y (Hj g Hg) (Hb g Hg)) as (b & K & _). eauto. }
    exists l'. split; [exact Hf|].
    assert (Hin : forall g, In g l' <-> create_and (grp ecols js x y) = Ok g).
    { intros g. rewrite HI. split.
      - intros (Hg & K). destruct (joins_table_spec ecols g y (Hj g Hg) (Hb g Hg)) as (b & K1 & K2). rewrite K in K1. injection K1 as <-.
        destruct (proj1 K2 eq_refl) as (u & Lk). destruct (J1 g Hg) as (v & Hv & Hcr). destruct (proj1 (create_and_links ecols _ g y u Hcr) Lk) as (q & Hq & Lk').
        apply filter_In in Hq as [Hq Hs]. unfold tabs_are in Hs. apply seteqb_seteq in Hs. apply links_tab in Lk'. apply Hs in Lk'.
        destruct Lk' as [Ey|[Ey|[]]]; [congruence|]. rewrite Ey in Hcr. exact Hcr.
      - intros Hcr. assert (X : exists j, In j (grp ecols js x y)). { destruct (grp ecols js x y) as [|j0 r0]; [discriminate|]. exists j0. now left. }
        destruct X as (j & Hj'). assert (Hj2 := Hj'). apply filter_In in Hj' as [Hj1 Hs]. destruct (J2 y j D Hj1 Hs) as (g' & Hg' & Hcr').
        assert (g' = g) by (unfold grp in Hcr; congruence). subst g'. split; [exact Hg'|].
        destruct (joins_table_spec ecols g y (Hj g Hg') (Hb g Hg')) as (b & K1 & K2). rewrite K1. f_equal. apply K2. exists x. apply (create_and_links ecols _ g y x Hcr).
        exists j. split; [exact Hj2|]. unfold tabs_are in Hs. apply seteqb_seteq in Hs. destruct (H2 j Hj1) as [_ (a & b' & Hab & Hs2 & Lk)].
        assert (A : In a [x; y]) by (apply Hs, Hs2; simpl; auto). assert (B : In b' [x; y]) by (apply Hs, Hs2; simpl; auto).
        destruct A as [<-|[<-|[]]], B as [<-|[<-|[]]]; try congruence. now apply links_sym. }
    split.
    + rewrite (proj2 (Hdef Habs)). split.
      * intros ->. destruct (grp ecols js x y) as [|a [|b r]] eqn:G; [reflexivity| |]; exfalso; [apply (proj2 (Hin a))|apply (proj2 (Hin (PAnd (a :: b :: r))))]; reflexivity.
      * intros G. destruct l' as [|g l']; [reflexivity|]. assert (X : create_and (grp ecols js x y) = Ok g) by (apply Hin; now left). rewrite G in X. discriminate.
    + intros I r. rewrite (proj1 (Hdef I)). destruct (grp ecols js x y) as [|a g0] eqn:G.
      * destruct l' as [|g l']; [reflexivity|]. assert (X : create_and [] = Ok g) by (apply Hin; now left). discriminate.
      * destruct (create_and_ok ecols I (a :: g0)) as (p & Hp & Hs & _); [discriminate|]. rewrite <- Hs.
        assert (SE : seteq (map (sem I r) l') [sem I r p]).
        { intros v. split.
          - intros Hv. apply in_map_iff in Hv as (g & <- & Hg). apply Hin in Hg. rewrite Hp in Hg. injection Hg as <-. now left.
          - intros [<-|[]]. apply in_map. apply Hin. exact Hp. }
        rewrite (all3_seteq _ _ SE). cbn. destruct (sem I r p); reflexivity.
Qed.
Print Assumptions C256_legacy_partial.
Theorem C256_legacy_many : forall (E : Type) (m : dict (list nat) (pred E)) xs ys j, In j (legacy_many m xs ys) <-> In j (map_joins_between m xs ys).
Proof.
  intros E m xs ys j. unfold legacy_many, map_joins_between. rewrite !in_flat_map. setoid_rewrite in_flat_map. cbn [flat_map]. setoid_rewrite app_nil_r. setoid_rewrite dedup_In.
  split; intros (x & Hx & y & Hy & H); exists x; (split; [assumption|]); exists y; (split; [assumption|]);
    destruct (dget m (fset [okey (Some x); okey (Some y)])); cbn in *; auto.
Qed.
Print Assumptions C256_legacy_many.
(** C256: the graph strategy, for disjoint collections of tables of the predicates: it finds something iff some join predicate
    relates the two sides, and what it finds is one such predicate.  Missing: that it finds all of them (false, see below). *)
Theorem C256_graph_partial : forall (E : Type) (ecols : E -> list col) (fs js : list (pred E)) ts x xs y ys,
  (exists g, join_graph ecols fs js ts = Ok g) -> (forall j t, In j js -> In t (ptabs ecols j) -> In t ts) ->
  NoDup ((x :: xs) ++ (y :: ys)) -> incl ((x :: xs) ++ (y :: ys)) ts ->
  exists o, graph_between ecols fs js ts x xs y ys = Ok o /\
    (o = None <-> forall j a b, In j js -> In a (x :: xs) -> In b (y :: ys) -> ~ links ecols a b j) /\
    (forall j, o = Some j -> In j js /\ exists a b, In a (x :: xs) /\ In b (y :: ys) /\ links ecols a b j).
Proof.
  intros E ecols fs js ts x xs y ys (g & Hg) Hts Hnd Hin. unfold graph_between. rewrite Hg. cbn [rbind].
  destruct (C254_join_graph_partial E ecols fs js ts g Hts Hg) as (G1 & _ & G3 & G4).
  assert (Hmem : forall t, In t ts -> dmem (g_nodes g) t = true) by (intros t Ht; apply dmem_In, G1, Ht).
  assert (Nx : ~ In x xs /\ NoDup xs /\ ~ In y ys /\ NoDup ys /\ forall z, In z (x :: xs) -> ~ In z (y :: ys)).
  { assert (D : forall (l m : list tbl), NoDup (l ++ m) -> NoDup l /\ forall z, In z l -> ~ In z m).
    { induction l as [|a l IH]; intros m H; [split; [constructor|intros z []]|]. inversion H as [|? ? H1 H2]; subst. destruct (IH m H2) as (I1 & I2). split.
      - constructor; [intros K; apply H1, in_app_iff; auto|exact I1].
      - intros z [<-|Hz] K; [apply H1, in_app_iff; auto|exact (I2 z Hz K)]. }
    destruct (D _ _ Hnd) as (N5 & N6).
    assert (D2 : forall (l m : list tbl), NoDup (l ++ m) -> NoDup m) by (induction l as [|a l IH]; intros m H; [exact H|]; inversion H; subst; auto).
    pose proof (D2 _ _ Hnd) as N7. inversion N5; inversion N7; subst. auto. }
  destruct Nx as (N1 & N2 & N3 & N4 & N5).
  destruct (contract_all_spec x xs N1 N2 g) as (g1 & E1 & A1 & A2 & A3).
  { intros v Hv. apply Hmem, Hin. apply in_app_iff. left. now right. }
  rewrite E1. cbn [rbind].
  destruct (contract_all_spec y ys N3 N4 g1) as (g2 & E2 & B1 & B2 & B3).
  { intros v Hv. apply A3; [intros K; apply (N5 v); [now right|now right]|]. apply Hmem, Hin. apply in_app_iff. right. now right. }
  rewrite E2. cbn [rbind].
  assert (Rx : forall p, (if mem (if mem p xs then x else p) ys then y else (if mem p xs then x else p)) = x <-> In p (x :: xs)).
  { intros p. assert (Mx : mem x ys = false). { destruct (mem x ys) eqn:M; [|reflexivity]. apply mem_In in M. destruct (N5 x); [now left|now right]. }
    assert (Hxy : x <> y) by (intros ->; apply (N5 y); now left). destruct (mem p xs) eqn:Mp.
    - rewrite Mx. apply mem_In in Mp. split; [intros _; now right|reflexivity].
    - assert (Np : ~ In p xs) by (intros K; apply mem_In in K; congruence). destruct (mem p ys) eqn:Mq; cbn; [|split; [auto|intros [->|K]; [reflexivity|contradiction]]].
      apply mem_In in Mq. split; [congruence|]. intros [<-|K]; [|contradiction]. destruct (N5 x); [now left|now right]. }
  assert (Ry : forall p, (if mem (if mem p xs then x else p) ys then y else (if mem p xs then x else p)) = y <-> In p (y :: ys)).
  { intros p. assert (Mx : mem x ys = false). { destruct (mem x ys) eqn:M; [|reflexivity]. apply mem_In in M. destruct (N5 x); [now left|now right]. }
    assert (Hxy : x <> y) by (intros ->; apply (N5 y); now left). destruct (mem p xs) eqn:Mp.
    - rewrite Mx. apply mem_In in Mp. split; [congruence|]. intros K. destruct (N5 p); [now right|exact K].
    - destruct (mem p ys) eqn:Mq; cbn.
      + apply mem_In in Mq. split; auto.
      + assert (Nq : ~ In p ys) by (intros K; apply mem_In in K; congruence). split; [auto|intros [->|K]; [reflexivity|contradiction]]. }
  assert (Lab : forall a b l, joined g a b l -> In l js /\ links ecols a b l).
  { intros a b l H. apply (add_joins_joined ecols js _ g Hg) in H as [H|H]; [|exact H]. unfold joined in H. rewrite init_edges in H. destruct H as [[]|[]]. }
  eexists. split; [reflexivity|].
  assert (Hback : forall l, joined g2 x y l -> exists a b, In a (x :: xs) /\ In b (y :: ys) /\ joined g a b l).
  { intros l H. apply B1 in H as (p & q & P1 & P2 & H). apply A1 in H as (p' & q' & P3 & P4 & H). exists p', q'.
    split; [apply Rx; rewrite P3; exact P1|]. split; [apply Ry; rewrite P4; exact P2|exact H]. }
  split.
  - split.
    + intros K j a b Hj Ha Hb Hl. assert (X : has_edge (g_edges g) a b = true) by (apply G3; eauto). apply has_edge_label, joined_label in X as (l & X).
      apply A2 in X as (l1 & X). apply B2 in X as (l2 & X). apply Rx in Ha. apply Ry in Hb. rewrite Ha, Hb in X.
      assert (Y : edge_label (g_edges g2) x y <> None) by (apply joined_label; eauto). congruence.
    + intros K. destruct (edge_label (g_edges g2) x y) as [l|] eqn:L; [|reflexivity]. exfalso. apply edge_label_In in L. destruct (Hback l L) as (a & b & Ha & Hb & H).
      apply Lab in H as (H1 & H2). eapply K; eauto.
  - intros j L. apply edge_label_In in L. destruct (Hback j L) as (a & b & Ha & Hb & H).
    apply Lab in H as (H1 & H2). split; [exact H1|]. exists a, b. auto.
Qed.
Print Assumptions C256_graph_partial.
Example C256_ex : let js := [exj1; exj3; exj2] in
  exists m, query_predicates xcols js [2; 0; 1] = Ok m /\ (forall j t, In j js -> In t (ptabs xcols j) -> In t [2; 0; 1]) /\
  legacy_single xcols js 1 0 = Ok [PAnd [exj1; exj2]] /\ map_joins_between m [1] [0] = [PAnd [exj1; exj2]] /\
  legacy_single xcols js 0 2 = Ok [] /\ legacy_many m [0; 2] [1] = [PAnd [exj1; exj2]; exj3] /\
  NoDup ([0; 2] ++ [1]) /\ incl ([0; 2] ++ [1]) [2; 0; 1] /\ graph_between xcols [] [exj1; exj3] [2; 0; 1] 0 [2] 1 [] = Ok (Some exj1) /\
  graph_between xcols [] [exj3] [2; 0; 1] 0 [] 1 [] = Ok None.
Proof.
  cbn zeta. eexists. split; [vm_compute; reflexivity|]. split; [intros j t [<-|[<-|[<-|[]]]]; vm_compute; tauto|].
  do 4 (split; [vm_compute; reflexivity|]). split; [repeat constructor; simpl; intuition discriminate|].
  split; [intros z Hz; cbn in *; tauto|]. split; vm_compute; reflexivity.
Qed.
(** The three strategies do not agree.  On a join of three tables, legacy finds the join between R and T, the default does not, and
    legacy does not either once the tables are passed as collections.  With two joins between the collections, the graph strategy
    returns a predicate that is true in a row in which the answer of the default strategy is false. *)
Theorem C256_strategies_refuted :
  (let j := PBin OpEq (XAdd Ra Sa) Ta in
   exists m, query_predicates xcols [j] [0; 1; 2] = Ok m /\ legacy_single xcols [j] 0 2 = Ok [j] /\ map_joins_between m [0] [2] = [] /\ legacy_many m [0] [2] = []) /\
  (exists m l (r : row XI), query_predicates xcols [exj1; exj3] [0; 1; 2] = Ok m /\ graph_between xcols [] [exj1; exj3] [0; 1; 2] 0 [2] 1 [] = Ok (Some l) /\
     map_joins_between m [0; 2] [1] = [exj1; exj3] /\ sem XI r l = T3 /\ sem XI r (PAnd [exj1; exj3]) = F3) /\
  (exists m l (r : row XI), query_predicates xcols [exj1; exj2] [0; 1] = Ok m /\ graph_between xcols [] [exj1; exj2] [0; 1] 0 [] 1 [] = Ok (Some l) /\
     map_joins_between m [0] [1] = [PAnd [exj1; exj2]] /\ sem XI r l = T3 /\ sem XI r (PAnd [exj1; exj2]) = F3).
Proof.
  split; [|split].
  - eexists. split; [vm_compute; reflexivity|]. repeat split; vm_compute; reflexivity.
  - eexists _, exj1, (fun c => Some (if deqb c (mkcol (Some 2) 0) then 1 else 0)). split; [vm_compute; reflexivity|]. repeat split; vm_compute; reflexivity.
  - eexists _, exj2, (fun c => Some (match c_tab c with Some 0 => 0 | _ => 1 end)). split; [vm_compute; reflexivity|]. repeat split; vm_compute; reflexivity.
Qed.
Print Assumptions C256_strategies_refuted.

(** C257: simplified joins *)
Lemma unwrap_column e c : unwrap_expr e = Ok (UCol c) -> In c (x_direct e).
Proof.
  induction e; cbn; try discriminate; intros H.
  - apply IHe in H. unfold x_direct in *. cbn. apply in_app_iff. auto.
  - injection H as ->. now left.
Qed.
Lemma cast_unwrap e c : cast_column e c -> unwrap_expr e = Ok (UCol c) /\ x_direct e = [c].
Proof.
  induction 1 as [c|e ty ps arr c H [IH1 IH2] Hp]; [split; reflexivity|]. split; [exact IH1|]. unfold x_direct in *. cbn. rewrite IH2.
  replace (flat_map (fun e0 => fst (walk (fun c0 => [c0]) (fun _ => []) (fun _ => []) true false e0)) ps) with (@nil col); [reflexivity|].
  symmetry. induction ps as [|p ps IHp]; [reflexivity|]. cbn. rewrite (Hp p (or_introl eq_refl)). apply IHp. intros q Hq. apply Hp. now right.
Qed.
(** C257: a view is made of exactly the equality predicates that join and have a column, possibly below casts, on both sides; it gives
    access to these columns.  wrap_all keeps the views of all such predicates, in order. *)
Theorem C257_wrap : forall p v, wrap_join p = Ok v <->
  exists a b, p = PBin OpEq a b /\ is_join x_direct p = true /\ unwrap_expr a = Ok (UCol (sj_l v)) /\ unwrap_expr b = Ok (UCol (sj_r v)) /\ sj_pred v = p.
Proof.
  intros p v. split.
  - destruct p as [op a b| | | | | |]; cbn [wrap_join]; try discriminate. destruct (is_join x_direct (PBin op a b)) eqn:J; cbn [negb]; [|discriminate].
    destruct (deqb op OpEq) eqn:O; cbn [negb]; [|discriminate]. apply deqb_true in O. subst op.
    destruct (unwrap_expr a) as [[l|]|] eqn:Ea; cbn [rbind]; try discriminate; destruct (unwrap_expr b) as [[r|]|] eqn:Eb; cbn [rbind]; try discriminate.
    intros [= <-]. exists a, b. cbn. auto.
  - intros (a & b & -> & J & Ea & Eb & Hp). unfold wrap_join. rewrite J, Ea, Eb. cbn. destruct v. cbn in *. now subst.
Qed.
Print Assumptions C257_wrap.
Theorem C257_wrap_all : forall ps, map sj_pred (wrap_all_joins ps) = filter (fun p => is_ok (wrap_join p)) ps /\
  (forall v, In v (wrap_all_joins ps) -> In (sj_pred v) ps /\ wrap_join (sj_pred v) = Ok v).
Proof.
  intros ps. assert (K : forall p v, wrap_join p = Ok v -> sj_pred v = p) by (intros p v H; apply C257_wrap in H as (a & b & -> & _ & _ & _ & H); exact H).
  induction ps as [|p ps (I1 & I2)]; [split; [reflexivity|intros v []]|]. cbn [wrap_all_joins filter]. destruct (wrap_join p) as [v|] eqn:W; cbn [is_ok].
  - cbn [map]. rewrite (K p v W), I1. split; [reflexivity|]. intros w [<-|Hw]; [rewrite (K p v W); split; [now left|exact W]|]. destruct (I2 w Hw). split; [now right|assumption].
  - split; [exact I1|]. intros w Hw. destruct (I2 w Hw). split; [now right|assumption].
Qed.
Print Assumptions C257_wrap_all.
(** C257: for columns below casts, the two sides belong to different tables, and the partner of each side's table (column) is the
    other side's; nothing else has a partner.  The columns of the view are those of the predicate. *)
Theorem C257_partners : forall p v a b l r, wrap_join p = Ok v -> p = PBin OpEq a b -> cast_column a l -> cast_column b r ->
  sj_l v = l /\ sj_r v = r /\ (forall c, In c (sj_columns v) <-> In c (pcols x_direct p)) /\
  exists t u, t <> u /\ c_tab l = Some t /\ c_tab r = Some u /\ links x_direct t u p /\
  (forall x y, partner_of_table v x = Some y <-> (x = t /\ y = u) \/ (x = u /\ y = t)) /\
  (forall c d, partner_of_column v c = Some d <-> (c = l /\ d = r) \/ (c = r /\ d = l)).
Proof.
  intros p v a b l r H Hp Ha Hb. apply C257_wrap in H as (a' & b' & Hp' & J & Ea & Eb & _). rewrite Hp' in Hp. injection Hp as -> ->. subst p.
  destruct (cast_unwrap a l Ha) as [Ua Xa]. destruct (cast_unwrap b r Hb) as [Ub Xb]. rewrite Ua in Ea. injection Ea as Ea. rewrite Ub in Eb. injection Eb as Eb.
  split; [auto|]. split; [auto|]. split; [intros c; unfold sj_columns; cbn [pcols]; rewrite Xa, Xb, <- Ea, <- Eb; cbn; tauto|].
  cbn [is_join] in J. unfold etabs, ctabs in J. rewrite Xa, Xb in J. cbn [flat_map] in J.
  destruct (c_tab l) as [t|] eqn:Tl; [|destruct (c_tab r); discriminate]. destruct (c_tab r) as [u|] eqn:Tr; [|discriminate]. 
  assert (Hn : t <> u). { intros ->. assert (S1 : seteqb (dedup ([u] ++ [])) (dedup ([u] ++ [])) = true) by (apply seteqb_seteq; intros z; tauto). rewrite S1 in J. discriminate. }
  exists t, u. split; [exact Hn|]. split; [reflexivity|]. split; [reflexivity|]. split; [|split].
  - split; [exact Hn|]. rewrite Xa, Xb. split; [exists l|exists r]; cbn; auto.
  - intros x y. unfold partner_of_table, sj_joins_table. rewrite <- Ea, <- Eb, Tl, Tr. unfold deqb.
    destruct (eqd (Some t) (Some x)) as [E1|E1]; cbn [orb negb].
    + injection E1 as ->. split; [intros [= <-]; auto|]. intros [(_ & ->)|(E1 & _)]; [reflexivity|congruence].
    + destruct (eqd (Some u) (Some x)) as [E2|E2]; cbn [orb negb].
      * injection E2 as ->. split; [intros [= <-]; auto|]. intros [(E3 & _)|(_ & ->)]; [congruence|reflexivity].
      * split; [discriminate|]. intros [(-> & _)|(-> & _)]; congruence.
  - assert (Hlr : l <> r) by congruence. intros c d. unfold partner_of_column, sj_joins_column. rewrite <- Ea, <- Eb. unfold deqb.
    destruct (eqd l c) as [<-|E1]; cbn [orb negb].
    + split; [intros [= <-]; auto|]. intros [(_ & ->)|(E1 & _)]; [reflexivity|congruence].
    + destruct (eqd r c) as [<-|E2]; cbn [orb negb].
      * split; [intros [= <-]; auto|]. intros [(E3 & _)|(_ & ->)]; [congruence|reflexivity].
      * split; [discriminate|]. intros [(-> & _)|(-> & _)]; congruence.
Qed.
Print Assumptions C257_partners.
Definition cRa := mkcol (Some 0) 0. Definition cSa := mkcol (Some 1) 0.
Example C257_ex : let a := XCast (Expr_model.XCol cSa) "int" [XStatic (VInt (BinNums.Zpos BinNums.xH))] false in let p := PBin OpEq a (Expr_model.XCol cRa) in
  wrap_join p = Ok (mksj p cSa cRa) /\ cast_column a cSa /\ partner_of_table (mksj p cSa cRa) 0 = Some 1 /\
  wrap_all_joins [PBin OpLt (Expr_model.XCol cRa) (Expr_model.XCol cSa); p; PBin OpEq (Expr_model.XCol cRa) (XStatic VNull)] = [mksj p cSa cRa].
Proof. cbn zeta. split; [reflexivity|]. split; [constructor; [constructor|intros q [<-|[]]; reflexivity]|]. split; reflexivity. Qed.
(** C257: if can_wrap answers, the answer is right.  Missing: that it always answers (false, see below). *)
Theorem C257_can_wrap_partial : forall p, match can_wrap_join p with
  | Ok b => b = true <-> exists v, wrap_join p = Ok v
  | Raise x => x = ValueError /\ wrap_join p = Raise ValueError /\ exists a b, p = PBin OpEq a b /\ (unwrap_expr a = Raise ValueError \/ unwrap_expr b = Raise ValueError)
  end.
Proof.
  assert (U : forall e x, unwrap_expr e = Raise x -> x = ValueError) by (induction e; cbn; try discriminate; try (now intros x [= <-]); auto).
  intros p. destruct p as [op a b| | | | | |]; cbn [can_wrap_join]; try (split; [discriminate|intros (v & H); discriminate]).
  unfold wrap_join. destruct (is_join x_direct (PBin op a b)); cbn [negb]; [|split; [discriminate|intros (v & H); discriminate]].
  destruct (deqb op OpEq) eqn:O; cbn [negb]; [|split; [discriminate|intros (v & H); discriminate]]. apply deqb_true in O. subst op.
  destruct (unwrap_expr a) as [l|x] eqn:Ea; cbn [rbind].
  2: { rewrite (U a x Ea). split; [reflexivity|]. split; [reflexivity|]. exists a, b. rewrite Ea, (U a x Ea). auto. }
  destruct (unwrap_expr b) as [r|x] eqn:Eb; cbn [rbind].
  2: { rewrite (U b x Eb). split; [reflexivity|]. split; [reflexivity|]. exists a, b. rewrite Eb, (U b x Eb). auto. }
  destruct l as [c|w], r as [d|w2]; (split; [try discriminate; eauto|intros (v0 & H); try discriminate; reflexivity]).
Qed.
Print Assumptions C257_can_wrap_partial.
(** can_wrap raises an error for R.a = abs(S.a) instead of returning False.  The join partners of a view are not those of its
    predicate: for S.a = R.a the predicate reports (R.a, S.a), the view (S.a, R.a). *)
Theorem C257_can_wrap_refuted :
  can_wrap_join (PBin OpEq (Expr_model.XCol cRa) (XFun "ABS" [Expr_model.XCol cSa] false None)) = Raise ValueError /\
  exists v, wrap_join (PBin OpEq (Expr_model.XCol cSa) (Expr_model.XCol cRa)) = Ok v /\ sj_join_partners v = [(cSa, cRa)] /\
    join_partners x_direct (sj_pred v) = Ok [(cRa, cSa)].
Proof. split; [reflexivity|]. eexists. split; [vm_compute; reflexivity|]. split; vm_compute; reflexivity. Qed.
Print Assumptions C257_can_wrap_refuted.
