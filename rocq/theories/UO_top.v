(** Lemmas about optimized queries. *)
From Coq Require Import List Bool Arith ZArith Lia Permutation.
From Verif Require Import PyBase Graph Card_model JG_model JG_proofs JT_model UO_model UO_spec UO_proofs.
Import ListNotations.

Section New.
  Context {T C : Type} {ET : EqD T} {EC : EqD C} (tab : C -> T).
  Notation jpred := (@jpred C).
  Lemma new_info (h : heap) (tables : list T) es (kind : C -> ikind) g h' c : new_graph h tables es kind = (g, h') -> In c (columns_of_edges es) -> info h' g (Some c) = mkix (kind c) false.
  Proof.
    intros E Hc. unfold new_graph in E. destruct (alloc_free _ _ h) as [nodes h1] eqn:E1. destruct (alloc_index _ _ h1) as [ix h2] eqn:E2. injection E as <- <-. apply alloc_index_spec in E2; [|now rewrite map_length]. destruct E2 as (K2 & V2 & I2 & F2). cbn [info g_index].
    destruct (dget ix c) as [a|] eqn:Ea; [|exfalso; apply (proj1 (dget_None _ _) Ea); unfold dkeys in *; rewrite K2; exact Hc]. destruct (dget_nth _ _ _ Ea) as (n & A1 & A2). rewrite K2 in A1. rewrite V2 in A2.
    assert (Hn : n < length (columns_of_edges es)) by (apply nth_error_Some; congruence). rewrite (nth_error_nth' _ 0) in A2 by now rewrite seq_length. injection A2 as A2. rewrite seq_nth in A2 by exact Hn. subst a.
    unfold index_at. rewrite I2, app_nth2 by lia. replace (length (h_index h1) + n - length (h_index h1)) with n by lia. rewrite (nth_indep _ _ (mkix (kind c) false)) by now rewrite map_length. rewrite (map_nth (fun c => mkix (kind c) false)). f_equal. f_equal. now apply nth_error_nth.
  Qed.
  Lemma col_In (es : list (T * T * jpred)) a b p c : In (a, b, p) es -> In c p -> In (fst c) (columns_of_edges es) /\ In (snd c) (columns_of_edges es).
  Proof.
    intros H Hc. unfold columns_of_edges. rewrite !dedup_In, !in_flat_map. split; exists (a, b, p); (split; [exact H|]); cbn [snd]; apply in_flat_map; exists c; (split; [exact Hc|]); [now left|right; now left].
  Qed.
End New.

Section Top.
  Context {T C S : Type} {ET : EqD T} {EC : EqD C} (tab : C -> T).
  Notation jpred := (@jpred C).
  Notation tree := (jt T card).
  Context (kind : C -> ikind) (aord : T -> list (T * jpred) -> list (T * jpred)) (Haord : forall t l, Permutation (aord t l) l).
  (** ** The graph of a query *)
  Context (tables : list T) (es : list (T * T * jpred)) (g : @jg T C) (h : heap).
  Context (Hg : new_graph empty_heap tables es kind = (g, h)) (Hwf : wf_joins tab tables es).
  Lemma g_ok : graph_ok h g /\ dkeys (g_nodes g) = dedup tables /\ g_edges g = es /\ (forall t, free_in h g t = true).
  Proof. destruct (new_spec empty_heap tables es kind g h Hg) as (A & B & D & _ & E). auto. Qed.
  Lemma wf_g : wf_joins tab (dkeys (g_nodes g)) (g_edges g).
  Proof.
    destruct g_ok as (_ & -> & -> & _). destruct Hwf as (A & B & D). split; [|auto]. intros a b p H. destruct (A a b p H) as (H1 & H2 & H3). rewrite !dedup_In. auto.
  Qed.
  Lemma g_edge a b p : In (a, b, p) (g_edges g) -> In a (dkeys (g_nodes g)) /\ In b (dkeys (g_nodes g)).
  Proof. intros H. apply (proj1 wf_g) in H. tauto. Qed.
  Lemma g_self a b p : In (a, b, p) (g_edges g) -> a <> b.
  Proof. intros H. apply (proj1 wf_g) in H. tauto. Qed.
  Lemma adj_NoDup y : NoDup (map fst (adjl aord g y)).
  Proof.
    unfold adjl. apply (Permutation_NoDup (l := map fst (flat_map (nbr y) (g_edges g)))); [apply Permutation_map, Permutation_sym, Haord|]. destruct wf_g as (A & N & R). clear Hg Hwf. revert A N R. generalize (dkeys (g_nodes g)). intros ns. induction (g_edges g) as [|[[a b] p] l IH]; intros A N R; [constructor|].
    cbn [flat_map map] in *. apply NoDup_cons_iff in N as [Na N]. rewrite map_app. assert (IH' : NoDup (map fst (flat_map (nbr y) l))) by (apply IH; [intros u v q Hq; apply A; now right|exact N|intros u v Hu Hv; apply (R u v); now right]).
    assert (Hi : forall z, In z (map fst (flat_map (nbr y) l)) -> In (y, z) (map fst l) \/ In (z, y) (map fst l)).
    { intros z Hz. apply in_map_iff in Hz as ([w e] & Ez & Hw). cbn in Ez. subst w. apply in_flat_map in Hw as ([[u v] q] & Hu & Hw). unfold nbr in Hw. cbn [fst snd] in Hw. destruct (deqb u y) eqn:E1; [apply deqb_true in E1; subst; destruct Hw as [[= -> ->]|[]]; left; apply in_map_iff; now exists (y, z, e)|]. destruct (deqb v y) eqn:E2; [|destruct Hw]. apply deqb_true in E2. subst. destruct Hw as [[= -> ->]|[]]. right. apply in_map_iff. now exists (z, y, e). }
    cbn [fst] in *. unfold nbr at 1. cbn [fst snd]. destruct (deqb a y) eqn:E1.
    - apply deqb_true in E1. subst a. cbn. constructor; [|exact IH']. intros K. destruct (Hi _ K) as [K'|K']; [contradiction|]. apply (R y b); [now left|now right].
    - destruct (deqb b y) eqn:E2; [|exact IH']. apply deqb_true in E2. subst b. cbn. constructor; [|exact IH']. intros K. destruct (Hi _ K) as [K'|K']; [|contradiction]. apply (R a y); [now left|now right].
  Qed.
  Lemma adj_src x e y y' : In (x, e) (adjl aord g y) -> In (x, e) (adjl aord g y') -> y = y'.
  Proof.
    intros H H'. apply (adjl_In aord g Haord) in H, H'. assert (K : forall y, In (y, x, e) (g_edges g) \/ (In (x, y, e) (g_edges g) /\ x <> y) -> exists c, In c e /\ x <> y /\ ((tab (fst c) = y /\ tab (snd c) = x) \/ (tab (fst c) = x /\ tab (snd c) = y)) /\ e <> []).
    { intros u [Hu|[Hu _]]; destruct (proj1 wf_g _ _ _ Hu) as (_ & _ & N & Ne & Hc); destruct e as [|c r]; try contradiction; exists c; (split; [now left|]); (split; [auto|]); (split; [|discriminate]); destruct (Hc c (or_introl eq_refl)); tauto. }
    destruct e as [|c r]; [destruct (K y H) as (c & [] & _)|]. assert (Hc : forall u, In (u, x, c :: r) (g_edges g) \/ (In (x, u, c :: r) (g_edges g) /\ x <> u) -> x <> u /\ ((tab (fst c) = u /\ tab (snd c) = x) \/ (tab (fst c) = x /\ tab (snd c) = u))).
    { intros u [Hu|[Hu _]]; destruct (proj1 wf_g _ _ _ Hu) as (_ & _ & N & _ & Hc); destruct (Hc c (or_introl eq_refl)) as [Hc'|Hc']; split; auto; tauto. }
    destruct (Hc y H) as (N1 & [[A1 A2]|[A1 A2]]), (Hc y' H') as (N2 & [[B1 B2]|[B1 B2]]); congruence.
  Qed.
  Lemma info_col a b p c : In (a, b, p) es -> In c p -> info h g (Some (fst c)) = mkix (kind (fst c)) false /\ info h g (Some (snd c)) = mkix (kind (snd c)) false.
  Proof. intros H Hc. destruct (col_In es a b p c H Hc). split; eapply new_info; eauto. Qed.
  Lemma indexed_kind k : is_indexed (mkix k false) = true <-> k <> NoIndex. Proof. destruct k; cbn; split; congruence. Qed.
  Lemma primary_kind k : is_primary (mkix k false) = true <-> k = Primary. Proof. destruct k; cbn; split; congruence. Qed.
  Lemma edge_pred a b p c : In (a, b, p) es \/ In (b, a, p) es -> In c p -> a <> b /\ exists x y, (c = (x, y) \/ c = (y, x)) /\ tab x = a /\ tab y = b /\ col_of tab c a = Some x /\ col_of tab c b = Some y /\ info h g (Some x) = mkix (kind x) false /\ info h g (Some y) = mkix (kind y) false.
  Proof.
    intros He Hc. assert (Hi : info h g (Some (fst c)) = mkix (kind (fst c)) false /\ info h g (Some (snd c)) = mkix (kind (snd c)) false) by (destruct He as [He|He]; eapply info_col; eauto).
    assert (K : a <> b /\ ((tab (fst c) = a /\ tab (snd c) = b) \/ (tab (fst c) = b /\ tab (snd c) = a))) by (destruct He as [He|He]; destruct (proj1 Hwf _ _ _ He) as (_ & _ & N & _ & K); specialize (K c Hc); split; auto; tauto). destruct K as [N K]. split; [exact N|]. destruct c as [x y]. cbn [fst snd] in *. destruct Hi as [I1 I2].
    assert (E1 : deqb a b = false) by (apply not_true_is_false; intros E; apply deqb_true in E; contradiction). assert (E2 : deqb b a = false) by (apply not_true_is_false; intros E; apply deqb_true in E; now apply N).
    unfold col_of. cbn [fst snd]. destruct K as [[A B]|[A B]]; [exists x, y|exists y, x]; rewrite A, B, !deqb_refl, ?E1, ?E2; repeat split; auto.
  Qed.
  Lemma pkfk_refers a b : is_pk_fk_join tab h g a b = true <-> references tab kind es a b.
  Proof.
    destruct g_ok as (_ & _ & Ee & _). unfold references. split.
    - intros H. unfold is_pk_fk_join in H. destruct (edge_between g a b) as [p|] eqn:E; [|discriminate]. unfold edge_between in E. destruct (find (connects a b) (g_edges g)) as [[[u v] q]|] eqn:F; [|discriminate]. cbn in E. injection E as ->. apply find_some in F as [F1 F2]. rewrite Ee in F1. assert (He : In (a, b, p) es \/ In (b, a, p) es) by (unfold connects in F2; cbn [fst snd] in F2; apply orb_true_iff in F2 as [F2|F2]; apply andb_prop in F2 as [X Y]; apply deqb_true in X; apply deqb_true in Y; subst; auto).
      apply existsb_exists in H as (c & Hc & H). apply andb_prop in H as [H1 H2]. exists p, c. split; [exact He|]. split; [exact Hc|]. destruct (edge_pred a b p c He Hc) as (_ & x & y & Ec & Tx & Ty & C1 & C2 & I1 & I2). rewrite C1, I1 in H1. rewrite C2, I2 in H2. apply indexed_kind in H1. apply primary_kind in H2. exists x, y. auto.
    - intros (p & c & He & Hc & x & y & Ec & Tx & Ty & Kx & Ky). assert (He' : In (a, b, p) (g_edges g) \/ In (b, a, p) (g_edges g)) by (rewrite Ee; exact He). apply (pkfk_spec tab g wf_g h a b p He'). exists c. split; [exact Hc|]. destruct (edge_pred a b p c He Hc) as (N & x' & y' & Ec' & Tx' & Ty' & C1 & C2 & I1 & I2). rewrite C1, C2, I1, I2, indexed_kind, primary_kind.
      destruct Ec as [Ec|Ec], Ec' as [Ec'|Ec']; rewrite Ec in Ec'; injection Ec' as <- <-; auto; exfalso; apply N; congruence.
  Qed.
  Lemma can_refers a b p c : In (a, b, p) es -> In c p -> (can_pk_fk_join (info h g (Some (fst c))) (info h g (Some (snd c))) = true <-> refers tab kind a b c \/ refers tab kind b a c).
  Proof.
    intros H Hc. rewrite can_spec. destruct (info_col a b p c H Hc) as [-> ->]. rewrite !indexed_kind, !primary_kind. destruct (proj1 Hwf _ _ _ H) as (_ & _ & N & _ & K). specialize (K c Hc). destruct c as [x y]. cbn [fst snd] in *. unfold refers. split.
    - intros (A & B & [D|D]); destruct K as [[K1 K2]|[K1 K2]].
      + right. exists y, x. auto.
      + left. exists y, x. auto.
      + left. exists x, y. auto.
      + right. exists x, y. auto.
    - intros [(u & v & E & Tu & Tv & Ku & Kv)|(u & v & E & Tu & Tv & Ku & Kv)]; destruct E as [E|E]; injection E as -> ->; rewrite Kv; repeat split; auto; discriminate.
  Qed.
End Top.

Section Queries.
  Context {T C S : Type} {ET : EqD T} {EC : EqD C} (tab : C -> T).
  Notation jpred := (@jpred C).
  Notation tree := (jt T card).
  Context (between : query T C -> T -> list T -> option jpred) (order : list T -> list T) (aord : T -> list (T * jpred) -> list (T * jpred)).
  Context (base : query T C -> T -> res card) (est : query T C -> S -> heap -> @jg T C -> jpred -> res card) (policy : query T C -> S -> heap -> @jg T C -> jpred -> res bool).
  Context (setb : S -> T -> card -> S) (setj : S -> tree -> card -> S) (trig : query T C -> S -> tree -> T -> jpred -> res S) (setup : query T C -> S).
  Context (kind : C -> ikind) (fuel bf : nat).
  Context (Haord : forall t l, Permutation (aord t l) l).
  Notation connectedq := (optimize_connected tab between order aord base est policy setb setj trig setup kind fuel bf).
  Notation optimizeq := (optimize tab between order aord base est policy setb setj trig setup kind fuel bf).
  Definition wfq (q : query T C) : Prop := wf_joins tab (q_tables q) (q_edges q).

  Lemma binary_inv q g h s t1 t2 t : binary (between q) (base q) (est q) g h s t1 t2 = Ok t ->
    exists small large cs cl e b, ((small = t1 /\ large = t2) \/ (small = t2 /\ large = t1)) /\ base q small = Ok cs /\ base q large = Ok cl /\ less cl cs = false /\ between q large [small] = Some e /\ est q s h g e = Ok b /\ t = JJoin false (JScan true large cl) (JScan false small cs) b.
  Proof.
    unfold binary. destruct (base q t1) as [c1|] eqn:E1; [|discriminate]. cbn [rbind]. destruct (base q t2) as [c2|] eqn:E2; [|discriminate]. cbn [rbind]. destruct (less c1 c2) eqn:L.
    - destruct (between q t2 [t1]) as [e|] eqn:Eb; [|discriminate]. destruct (est q s h g e) as [b|] eqn:Ee; [|discriminate]. cbn [rbind]. rewrite join_table_ok by reflexivity. intros [= <-]. exists t1, t2, c1, c2, e, b. repeat split; auto. now apply less_asym.
    - destruct (between q t1 [t2]) as [e|] eqn:Eb; [|discriminate]. destruct (est q s h g e) as [b|] eqn:Ee; [|discriminate]. cbn [rbind]. rewrite join_table_ok by reflexivity. intros [= <-]. exists t2, t1, c2, c1, e, b. repeat split; auto.
  Qed.
  Lemma one_way_spec q g h : graph_of kind q = (g, h) -> wfq q -> once_referenced tab kind (q_edges q) -> one_way tab aord g h.
  Proof.
    intros Hg Hwf O x e e' y y' A B A' B'. assert (K : forall y e, In (x, e) (adjl aord g y) -> check_pk_fk tab h g (x, e) = true -> references tab kind (q_edges q) y x).
    { clear y e e' y' A B A' B'. intros y e A B. apply (pkfk_refers tab kind _ _ g h Hg Hwf). unfold check_pk_fk in B. cbn [fst snd] in B. apply existsb_exists in B as (c & Hc & B). apply (adjl_In aord g Haord) in A. rewrite (proj1 (proj2 (proj2 (g_ok kind _ _ g h Hg)))) in A.
      assert (E : (tab (fst c) = y /\ tab (snd c) = x) \/ (tab (fst c) = x /\ tab (snd c) = y)) by (destruct A as [A|[A _]]; apply (proj2 (proj2 (proj2 (proj2 (proj1 Hwf _ _ _ A))))) in Hc; tauto). assert (N : x <> y) by (destruct A as [A|[_ A]]; [|exact A]; destruct (proj1 Hwf _ _ _ A) as (_ & _ & N & _); auto).
      unfold other in B. destruct E as [[E1 E2]|[E1 E2]]; rewrite E1, ?E2 in B; [|rewrite deqb_refl in B; exact B]. destruct (deqb y x) eqn:E; [apply deqb_true in E; subst; contradiction|exact B]. }
    apply (O x y y'); eapply K; eassumption.
  Qed.
  Lemma conn_inv eager q t : wfq q -> (forall x y, dedup (q_tables q) = [x; y] -> finds_joins (q_edges q) (between q)) -> connectedq eager q = Ok (Some t) ->
    (forall x, In x (leaves t) <-> In x (q_tables q)) /\ (once_referenced tab kind (q_edges q) -> NoDup (leaves t)) /\ (eager = false -> no_cross (q_edges q) t) /\
    (2 <= length (dedup (q_tables q))) /\ jt_empty t = false.
  Proof.
    intros Hwf Hb. unfold optimize_connected. destruct (graph_of kind q) as [g h] eqn:Hg. destruct (g_ok kind _ _ g h Hg) as (G & Kn & Ke & F). pose proof (wf_g tab kind _ _ g h Hg Hwf) as Wg.
    assert (Dd : forall x, In x (dkeys (g_nodes g)) <-> In x (q_tables q)) by (intros x; rewrite Kn; apply dedup_In).
    assert (Big : forall b, (if b : bool then default_loop tab (between q) order aord (base q) (est q) (policy q) setb setj (trig q) fuel bf eager g h (setup q) (JEmpty true) else star tab (between q) order (base q) (est q) setj fuel g h (setup q)) = Ok t -> b = has_nm h g ->
      (forall x, In x (leaves t) <-> In x (q_tables q)) /\ (once_referenced tab kind (q_edges q) -> NoDup (leaves t)) /\ (eager = false -> no_cross (q_edges q) t) /\ jt_empty t = false).
    { intros b H Eb. assert (Ne : (exists x, In x (leaves t)) -> jt_empty t = false) by (destruct t; [intros [x []]|reflexivity|reflexivity]). destruct b.
      - destruct (default_start tab (between q) order aord (base q) (est q) (policy q) setb setj (trig q) g (g_edge tab kind _ _ g h Hg Hwf) Haord (adj_NoDup tab kind aord Haord _ _ g h Hg Hwf) (adj_src tab kind aord Haord _ _ g h Hg Hwf) (g_self tab kind _ _ g h Hg Hwf) (eager = false) bf eager (fun H => H) fuel h (setup q) t G F (eq_sym Eb) H) as (A1 & A2 & A3).
        split; [intros x; rewrite A1; apply Dd|]. split; [intros O; apply A3; now apply (one_way_spec q)|]. split; [intros E; rewrite <- Ke; auto|]. symmetry in Eb. unfold has_nm in Eb. apply existsb_exists in Eb as ([[a b] p] & He & _). apply Ne. exists a. apply A1. apply (proj1 Wg) in He. tauto.
      - destruct (star_inv tab (between q) order aord (base q) (est q) (policy q) setb setj (trig q) g (g_edge tab kind _ _ g h Hg Hwf) fuel h (setup q) t G F (g_self tab kind _ _ g h Hg Hwf) H) as (A1 & A2 & A3 & A4).
        split; [intros x; rewrite A2; apply Dd|]. split; [auto|]. split; [intros _; rewrite <- Ke; exact A3|]. now destruct A3. }
    destruct (dedup (q_tables q)) as [|t1 [|t2 [|t3 r]]] eqn:Ed; [discriminate|discriminate| |].
    - destruct (binary (between q) (base q) (est q) g h (setup q) t1 t2) as [t'|] eqn:Eb; [|discriminate]. cbn [rmap rbind]. intros [= ->]. destruct (binary_inv _ _ _ _ _ _ _ Eb) as (sm & la & cs & cl & e & b & Hsl & _ & _ & _ & Hbe & _ & ->).
      assert (Nd : NoDup [t1; t2]) by (rewrite <- Ed; apply dedup_NoDup). apply NoDup_cons_iff in Nd as [N12 _]. assert (Hx : forall x, In x (q_tables q) <-> In x [t1; t2]) by (intros x; rewrite <- Ed; symmetry; apply dedup_In).
      split; [intros x; rewrite Hx; cbn; destruct Hsl as [[-> ->]|[-> ->]]; tauto|]. split; [intros _; cbn; constructor; [|constructor; [intros []|constructor]]; intros [E|[]]; apply N12; destruct Hsl as [[-> ->]|[-> ->]]; subst; now left|]. split; [|split; [cbn; lia|reflexivity]].
      intros _. pose proof (Hb t1 t2 eq_refl la [sm]) as K. rewrite Hbe in K. destruct K as [Ne K]. destruct e as [|c e]; [contradiction|]. destruct (K c (or_introl eq_refl)) as (u & p & [<-|[]] & Hu & _). apply nc_join with (a := la) (b := sm); [constructor|constructor|now left|now left|]. exists p. tauto.
    - intros H. assert (H' : exists b, b = has_nm h g /\ (if b : bool then default_loop tab (between q) order aord (base q) (est q) (policy q) setb setj (trig q) fuel bf eager g h (setup q) (JEmpty true) else star tab (between q) order (base q) (est q) setj fuel g h (setup q)) = Ok t).
      { exists (has_nm h g). split; [reflexivity|]. destruct (if has_nm h g then _ else _) as [t'|]; [|discriminate]. cbn [rmap rbind] in H. now injection H as ->. }
      destruct H' as (b & Eb & H'). destruct (Big b H' Eb) as (A1 & A2 & A3 & A4). split; [exact A1|]. split; [exact A2|]. split; [exact A3|]. split; [cbn; lia|exact A4].
  Qed.

  (** ** Components *)
  Lemma components_reach ns es todo : forall seen k, In k (components ns es todo seen) -> exists x : T, In x todo /\ ~ In x seen /\ k = reachable ns es x.
  Proof.
    induction todo as [|x todo IH]; intros seen k; cbn [components]; [intros []|]. destruct (mem x seen) eqn:Em.
    - intros H. destruct (IH _ _ H) as (y & Hy & Hs & E). exists y. repeat split; auto. now right.
    - apply mem_nIn in Em. intros [<-|H]; [exists x; repeat split; auto; now left|]. destruct (IH _ _ H) as (y & Hy & Hs & E). exists y. repeat split; auto; [now right|]. intros Hin. apply Hs. apply in_app_iff. now right.
  Qed.
  Lemma components_cover ns es todo : forall seen (x : T), (forall y, In y todo -> In y ns) -> In x todo -> In x seen \/ exists k, In k (components ns es todo seen) /\ In x k.
  Proof.
    induction todo as [|y todo IH]; intros seen x Hns Hx0; [destruct Hx0|]; cbn [components]; destruct Hx0 as [<-|Hx].
    - destruct (mem y seen) eqn:Em; [left; now apply mem_In|]. right. exists (reachable ns es y). split; [now left|]. assert (Hy : In y ns) by (apply Hns; now left). apply reachable_spec; [assumption|now constructor].
    - assert (Hns' : forall z, In z todo -> In z ns) by (intros z Hz; apply Hns; now right). destruct (mem y seen) eqn:Em; [now apply IH|]. destruct (IH (reachable ns es y ++ seen) x Hns' Hx) as [H|(k & Hk & H)].
      + apply in_app_iff in H as [H|H]; [right; exists (reachable ns es y); split; [now left|assumption]|now left].
      + right. exists k. split; [now right|assumption].
  Qed.
  Definition closed (ns : list T) es (seen : list T) : Prop := forall x y, In x seen -> path ns es x y -> In y seen.
  Lemma closed_app ns es x seen : In x ns -> closed ns es seen -> closed ns es (reachable ns es x ++ seen).
  Proof.
    intros Hx Hc y z Hy Hp. apply in_app_iff in Hy as [Hy|Hy]; apply in_app_iff; [left|right; eapply Hc; eassumption]. apply reachable_spec in Hy; [|assumption]. apply reachable_spec; [assumption|]. eapply path_trans; eassumption.
  Qed.
  Lemma components_seen ns es todo : forall seen k c, (forall y, In y todo -> In y ns) -> closed ns es seen -> In k (components ns es todo seen) -> In c k -> ~ In c seen.
  Proof.
    intros seen k c Hns Hcl Hk Hc Hin. destruct (components_reach ns es todo seen k Hk) as (x & Hx & Hs & ->). apply reachable_spec in Hc; [|auto]. apply Hs. apply (Hcl c x Hin). now apply path_sym.
  Qed.
  Lemma components_NoDup ns es (us : list tree) todo : forall seen, (forall y, In y todo -> In y ns) -> closed ns es seen -> Forall2 (fun k u => NoDup (leaves u) /\ forall x, In x (leaves u) -> In x k) (components ns es todo seen) us -> NoDup (flat_map leaves us).
  Proof.
    revert us. induction todo as [|x todo IH]; intros us seen Hns Hcl; cbn [components]; [intros H; inversion H; constructor|]. assert (Hns' : forall z, In z todo -> In z ns) by (intros z Hz; apply Hns; now right). assert (Hx : In x ns) by (apply Hns; now left). destruct (mem x seen) eqn:Em; [now apply IH|].
    intros H. inversion H as [|k u ks us' (N & I) H' E1 E2]; subst. cbn [flat_map]. pose proof (closed_app ns es x seen Hx Hcl) as Hcl'. apply NoDup_more; [exact N|now apply (IH us' (reachable ns es x ++ seen))|].
    intros z Hz K. apply I in K. apply in_flat_map in Hz as (v & Hv & Hz). assert (E : exists k, In k (components ns es todo (reachable ns es x ++ seen)) /\ In z k). { clear -H' Hv Hz. induction H' as [|k u ks us (_ & I) H' IH]; [destruct Hv|]. destruct Hv as [->|Hv]; [exists k; split; [now left|auto]|]. destruct (IH Hv) as (k' & Hk & Hz'). exists k'. split; [now right|exact Hz']. }
    destruct E as (k & Hk & Hzk). apply (components_seen _ _ _ _ _ z Hns' Hcl' Hk Hzk). apply in_or_app. now left.
  Qed.
  Lemma fragment_wf q k : wfq q -> wfq (fragment q k).
  Proof.
    intros (A & B & D). unfold wfq, fragment. cbn [q_tables q_edges]. split; [|split].
    - intros a b p H. apply filter_In in H as [H K]. cbn [fst snd] in K. apply andb_prop in K as [K1 K2]. apply mem_In in K1, K2. destruct (A a b p H) as (_ & _ & H3). auto.
    - clear A D. induction (q_edges q) as [|e l IH]; cbn [filter map]; [constructor|]. cbn [map] in B. apply NoDup_cons_iff in B as [B1 B2]. destruct (mem (fst (fst e)) k && mem (snd (fst e)) k); [|auto]. cbn [map]. constructor; [|auto]. intros K. apply B1. apply in_map_iff in K as (x & E & K). apply filter_In in K as [K _]. apply in_map_iff. now exists x.
    - intros a b H K. apply in_map_iff in H as (x & E & H). apply in_map_iff in K as (y & E' & K). apply filter_In in H as [H _]. apply filter_In in K as [K _]. apply (D a b); apply in_map_iff; [now exists x|now exists y].
  Qed.
  Lemma fragment_edges (q : query T C) k e : In e (q_edges (fragment q k)) -> In e (q_edges q).
  Proof. intros H. apply filter_In in H. tauto. Qed.
  Lemma no_cross_mono (es es' : list (T * T * jpred)) (t : tree) : (forall e, In e es -> In e es') -> no_cross es t -> no_cross es' t.
  Proof. intros I H. induction H as [|lg o i c a b H1 IH1 H2 IH2 Ha Hb (p & Hp)]; [constructor|]. apply nc_join with (a := a) (b := b); auto. exists p. destruct Hp; auto. Qed.
  Lemma once_fragment (q : query T C) k : once_referenced tab kind (q_edges q) -> once_referenced tab kind (q_edges (fragment q k)).
  Proof.
    intros O x y z H1 H2. assert (K : forall y, references tab kind (q_edges (fragment q k)) y x -> references tab kind (q_edges q) y x) by (intros u (p & c & He & H); exists p, c; split; [destruct He as [He|He]; apply fragment_edges in He; auto|exact H]). apply (O x y z); auto.
  Qed.
  Lemma cross_inv (us : list tree) : forall t t', jt_empty t = false -> (forall u, In u us -> jt_empty u = false) -> cross t us = Ok t' -> product t us t' /\ leaves t' = leaves t ++ flat_map leaves us.
  Proof.
    induction us as [|u us IH]; intros t t' Ht Hu; cbn [cross]; [intros [= <-]; split; [constructor|cbn; now rewrite app_nil_r]|]. destruct (cop Mul (annotation t) (OCard (annotation u))) as [a|] eqn:Ea; [|discriminate]. cbn [rbind]. assert (E : jt_join_with CNan t (inl u) a None true = Ok (JJoin false t u a)) by (apply join_sub_ok; [exact Ht|apply Hu; now left]). rewrite E. cbn [rbind].
    intros H. destruct (IH (JJoin false t u a) t' eq_refl (fun v Hv => Hu v (or_intror Hv)) H) as [P L]. split; [apply product_more with (a := a); [exact Ea|exact P]|]. rewrite L. cbn [leaves flat_map]. now rewrite app_assoc.
  Qed.
  Lemma Forall2_impl {A B} (P Q : A -> B -> Prop) l r : (forall a b, P a b -> Q a b) -> Forall2 P l r -> Forall2 Q l r.
  Proof. intros H F. induction F; constructor; auto. Qed.
  Lemma rmapM_Forall2 {A B} (f : A -> res B) l : forall r, rmapM f l = Ok r -> Forall2 (fun a b => f a = Ok b) l r.
  Proof.
    induction l as [|a l IH]; intros r; cbn [rmapM]; [intros [= <-]; constructor|]. destruct (f a) as [b|] eqn:E; [|discriminate]. cbn [rbind]. destruct (rmapM f l) as [r'|]; [|discriminate]. cbn [rmap rbind]. intros [= <-]. constructor; auto.
  Qed.
  (** What is optimized: the query, or its components. *)
  Lemma optimize_inv eager q t : wfq q -> (forall k, wfq k -> finds_joins (q_edges k) (between k)) -> optimizeq eager q = Ok (Some t) ->
    (forall x, In x (leaves t) <-> In x (q_tables q)) /\ (once_referenced tab kind (q_edges q) -> NoDup (leaves t)) /\
    (connected (q_tables q) (map fst (q_edges q)) -> eager = false -> no_cross (q_edges q) t) /\
    (~ connected (q_tables q) (map fst (q_edges q)) -> 2 < length (dedup (q_tables q)) -> exists u us, product u us t /\ Forall (no_cross (q_edges q)) (u :: us) /\
       Forall2 (fun k v => forall x, In x (leaves v) <-> In x k) (components (dedup (q_tables q)) (map fst (q_edges q)) (dedup (q_tables q)) []) (u :: us) /\
       Forall2 (fun k v => connectedq false (fragment q k) = Ok (Some v)) (components (dedup (q_tables q)) (map fst (q_edges q)) (dedup (q_tables q)) []) (u :: us)).
  Proof.
    intros Hwf Hb. unfold optimize. destruct (graph_of kind q) as [g h] eqn:Hg. destruct (g_ok kind _ _ g h Hg) as (G & Kn & Ke & F).
    assert (Cs : has_cross g = false <-> connected (q_tables q) (map fst (q_edges q))).
    { unfold has_cross. rewrite negb_false_iff, connectedb_spec. unfold pairs_of. rewrite Ke, Kn. assert (P : forall ns ns' x y, incl ns ns' -> path ns (map fst (q_edges q)) x y -> path ns' (map fst (q_edges q)) x y) by (intros; eapply path_nodes; eassumption). assert (I1 : incl (dedup (q_tables q)) (q_tables q)) by (intros x; apply dedup_In). assert (I2 : incl (q_tables q) (dedup (q_tables q))) by (intros x; apply dedup_In).
      split; intros H x y Hx Hy; eapply P; eauto. }
    assert (Easy : forall b, connectedq eager q = Ok (Some t) -> (b = true \/ length (dedup (q_tables q)) <= 2) -> (b = true -> connected (q_tables q) (map fst (q_edges q))) -> 
      (forall x, In x (leaves t) <-> In x (q_tables q)) /\ (once_referenced tab kind (q_edges q) -> NoDup (leaves t)) /\ (connected (q_tables q) (map fst (q_edges q)) -> eager = false -> no_cross (q_edges q) t) /\
      (~ connected (q_tables q) (map fst (q_edges q)) -> 2 < length (dedup (q_tables q)) -> exists u us, product u us t /\ Forall (no_cross (q_edges q)) (u :: us) /\
       Forall2 (fun k v => forall x, In x (leaves v) <-> In x k) (components (dedup (q_tables q)) (map fst (q_edges q)) (dedup (q_tables q)) []) (u :: us) /\
       Forall2 (fun k v => connectedq false (fragment q k) = Ok (Some v)) (components (dedup (q_tables q)) (map fst (q_edges q)) (dedup (q_tables q)) []) (u :: us))).
    { intros b H Hd Hc. destruct (conn_inv eager q t Hwf (fun _ _ _ => Hb q Hwf) H) as (A1 & A2 & A3 & _). split; [exact A1|]. split; [exact A2|]. split; [auto|]. intros Nc Hl. exfalso. destruct Hd as [->|Hd]; [now apply Nc, Hc|lia]. }
    destruct (dedup (q_tables q)) as [|t1 [|t2 [|t3 r]]] eqn:Ed; [intros H; apply (Easy false H); [right; cbn; lia|discriminate]..|]. destruct (has_cross g) eqn:Hc.
    - clear Easy. unfold join_components. rewrite Ed. set (ks := components (t1 :: t2 :: t3 :: r) (map fst (q_edges q)) (t1 :: t2 :: t3 :: r) []). intros H. destruct (rmapM _ (map (fragment q) ks)) as [l|] eqn:Er; [|discriminate]. cbn [rbind] in H. apply rmapM_Forall2 in Er.
      assert (Fk : Forall2 (fun k v => connectedq false (fragment q k) = Ok (Some v)) ks l).
      { clear -Er. revert l Er. induction ks as [|k ks IH]; intros l Er; inversion Er as [|a b l1 l2 E1 E2 E3 E4]; subst; constructor; [|now apply IH]. destruct (connectedq false (fragment q k)) as [[v|]|]; cbn [rbind] in E1; [now injection E1 as ->|discriminate..]. }
      assert (Fi : Forall2 (fun k v => (forall x, In x (leaves v) <-> In x k) /\ (once_referenced tab kind (q_edges q) -> NoDup (leaves v)) /\ no_cross (q_edges q) v /\ jt_empty v = false) ks l).
      { eapply Forall2_impl; [|exact Fk]. intros k v Hv. destruct (conn_inv false (fragment q k) v (fragment_wf q k Hwf) (fun _ _ _ => Hb _ (fragment_wf q k Hwf)) Hv) as (A1 & A2 & A3 & _ & A5). split; [exact A1|]. split; [intros O; apply A2; now apply once_fragment|]. split; [|exact A5]. apply (no_cross_mono (q_edges (fragment q k))); [apply fragment_edges|auto]. }
      destruct l as [|u us]; [discriminate|]. destruct (cross u us) as [t'|] eqn:Ec; [|discriminate]. cbn [rmap rbind] in H. injection H as ->. assert (Ne : forall v, In v (u :: us) -> jt_empty v = false) by (intros v Hv; clear -Fi Hv; induction Fi as [|k w ks l (_ & _ & _ & H) Fi IH]; [destruct Hv|destruct Hv as [->|Hv]; auto]).
      destruct (cross_inv us u t (Ne u (or_introl eq_refl)) (fun v Hv => Ne v (or_intror Hv)) Ec) as [P L]. assert (L' : leaves t = flat_map leaves (u :: us)) by exact L. split; [|split; [|split]].
      + intros x. rewrite L', in_flat_map, <- dedup_In, Ed. split.
        * intros (v & Hv & Hx). assert (K : exists k, In k ks /\ In x k) by (clear -Fi Hv Hx; induction Fi as [|k w ks l (H & _) Fi IH]; [destruct Hv|]; destruct Hv as [->|Hv]; [exists k; split; [now left|now apply H]|]; destruct (IH Hv) as (k' & Hk & Hx'); exists k'; split; [now right|exact Hx']). destruct K as (k & Hk & Hxk). apply components_reach in Hk as (y & Hy & _ & ->). apply reachable_spec in Hxk; [|exact Hy]. now apply path_In in Hxk.
        * intros Hx. destruct (components_cover (t1 :: t2 :: t3 :: r) (map fst (q_edges q)) (t1 :: t2 :: t3 :: r) [] x (fun y Hy => Hy) Hx) as [[]|(k & Hk & Hxk)]. fold ks in Hk. clear -Fi Hk Hxk. induction Fi as [|k' w ks l (H & _) Fi IH]; [destruct Hk|]. destruct Hk as [->|Hk]; [exists w; split; [now left|now apply H]|]. destruct (IH Hk) as (v & Hv & Hx). exists v. split; [now right|exact Hx].
      + intros O. rewrite L'. apply (components_NoDup (t1 :: t2 :: t3 :: r) (map fst (q_edges q)) (u :: us) (t1 :: t2 :: t3 :: r) [] (fun y Hy => Hy)); [intros x y []|]. eapply Forall2_impl; [|exact Fi]. intros k v (A1 & A2 & _). split; [auto|]. intros x. apply A1.
      + intros K. apply Cs in K. discriminate.
      + intros _ _. exists u, us. split; [exact P|]. split; [|split; [|exact Fk]].
        * clear -Fi. induction Fi as [|k v ks l (_ & _ & H & _) Fi IH]; constructor; auto.
        * eapply Forall2_impl; [|exact Fi]. intros k v (A1 & _). exact A1.
    - intros H. apply (Easy true H); [now left|]. intros _. now apply Cs.
  Qed.

  (** ** Success *)
  Lemma graph_cols (q : query T C) g h : graph_of kind q = (g, h) -> forall a b p c, In (a, b, p) (g_edges g) -> In c p -> dget (g_index g) (fst c) <> None /\ dget (g_index g) (snd c) <> None.
  Proof.
    intros Hg a b p c He Hc. rewrite (proj1 (proj2 (proj2 (g_ok kind _ _ g h Hg)))) in He. destruct (col_In _ a b p c He Hc) as [C1 C2]. unfold graph_of, new_graph in Hg. destruct (alloc_free _ _ _) as [nodes h1]. destruct (alloc_index _ _ h1) as [ix h2] eqn:E2. injection Hg as <- <-. apply alloc_index_spec in E2; [|now rewrite map_length]. destruct E2 as (K2 & _). cbn [g_index].
    split; intros K; apply dget_None in K; apply K; unfold dkeys in *; rewrite K2; assumption.
  Qed.
  Lemma many_sym (q : query T C) a b : many_to_many tab kind (q_edges q) a b -> many_to_many tab kind (q_edges q) b a.
  Proof. intros ((p & L) & N1 & N2). split; [exists p; tauto|auto]. Qed.
  Lemma same_edge q a b p p' : wfq q -> In (a, b, p) (q_edges q) -> In (a, b, p') (q_edges q) \/ In (b, a, p') (q_edges q) -> p = p'.
  Proof.
    intros (_ & N & D) H [K|K].
    - revert H K N. generalize (q_edges q). induction l as [|e l IH]; [intros []|]. cbn [map]. intros H K N. apply NoDup_cons_iff in N as [N1 N2]. destruct H as [->|H], K as [K|K]; [congruence| | |auto]; exfalso; apply N1; [|subst e]; cbn [fst]; apply in_map_iff; eexists; split; try eassumption; reflexivity.
    - exfalso. apply (D a b); apply in_map_iff; [exists (a, b, p)|exists (b, a, p')]; auto.
  Qed.
  Lemma many_can q g h a b p c : graph_of kind q = (g, h) -> wfq q -> In (a, b, p) (q_edges q) -> In c p -> many_to_many tab kind (q_edges q) a b -> can_pk_fk_join (info h g (Some (fst c))) (info h g (Some (snd c))) = false.
  Proof.
    intros Hg Hwf He Hc (_ & N1 & N2). apply not_true_is_false. intros K. apply (can_refers tab kind _ _ g h Hg Hwf a b p c He Hc) in K. destruct K as [K|K]; [apply N1|apply N2]; exists p, c; auto.
  Qed.
  Lemma uniform_spec q g h : graph_of kind q = (g, h) -> wfq q -> keyed tab kind (q_edges q) -> uniform g h.
  Proof.
    intros Hg Hwf K a b p c c' He Hc Hc'. rewrite (proj1 (proj2 (proj2 (g_ok kind _ _ g h Hg)))) in He. destruct (K a b p He) as [M|R].
    - rewrite (many_can q g h a b p c), (many_can q g h a b p c'); auto.
    - transitivity true; [|symmetry]; apply (can_refers tab kind _ _ g h Hg Hwf a b p); auto.
  Qed.
  Lemma separate_spec q g h : graph_of kind q = (g, h) -> wfq q -> keyed tab kind (q_edges q) -> unreferenced tab kind (q_edges q) -> separate tab g h.
  Proof.
    intros Hg Hwf K U a b p c He Hc Hn z. unfold edge_of in He. rewrite (proj1 (proj2 (proj2 (g_ok kind _ _ g h Hg)))) in He. apply not_true_is_false. intros P. apply (pkfk_refers tab kind _ _ g h Hg Hwf) in P.
    assert (M : many_to_many tab kind (q_edges q) a b).
    { destruct He as [He|He]; [|apply many_sym]; (destruct (K _ _ p He) as [M|R]; [exact M|]; exfalso; enough (E : can_pk_fk_join (info h g (Some (fst c))) (info h g (Some (snd c))) = true) by congruence; eapply (can_refers tab kind _ _ g h Hg Hwf); eauto). }
    exact (U a b z M P).
  Qed.
  Lemma conn_success (good : S -> Prop) (bounded : S -> T -> Prop) (Horder : forall l, Permutation (order l) l) eager q : wfq q -> connected (q_tables q) (map fst (q_edges q)) -> 2 <= length (dedup (q_tables q)) -> finds_joins (q_edges q) (between q) ->
    (forall x, In x (q_tables q) -> exists z, base q x = Ok (CVal z)) -> good (setup q) ->
    (forall s h g e, good s -> e <> [] -> (forall c, In c e -> exists u v p, In (u, v, p) (q_edges q) /\ In c p) -> exists z, est q s h g e = Ok (CVal z)) ->
    (forall s x z, good s -> good (setb s x (CVal z)) /\ bounded (setb s x (CVal z)) x /\ forall y, bounded s y -> bounded (setb s x (CVal z)) y) ->
    (forall s t z, good s -> good (setj s t (CVal z))) ->
    (forall s h g x y e, good s -> bounded s x -> In (x, y, e) (q_edges q) \/ In (y, x, e) (q_edges q) -> is_pk_fk_join tab h g x y = true -> exists b, policy q s h g e = Ok b) ->
    (forall s t x y e, good s -> In y (leaves t) -> In x (leaves t) -> In (y, x, e) (q_edges q) \/ In (x, y, e) (q_edges q) -> exists s', trig q s t x e = Ok s' /\ good s') ->
    keyed tab kind (q_edges q) -> unreferenced tab kind (q_edges q) ->
    exists bf0 t, forall bf fuel, bf0 <= bf -> length (dedup (q_tables q)) < fuel -> optimize_connected tab between order aord base est policy setb setj trig setup kind fuel bf eager q = Ok (Some t).
  Proof.
    intros Hwf Hcon Hlen Hbet Hbase Gs Hest Hsetb Hsetj Hpol Htrig Ky Un. unfold optimize_connected. destruct (graph_of kind q) as [g h] eqn:Hg. destruct (g_ok kind _ _ g h Hg) as (G & Kn & Ke & F). pose proof (wf_g tab kind _ _ g h Hg Hwf) as Wg.
    assert (Dd : forall x, In x (dkeys (g_nodes g)) <-> In x (q_tables q)) by (intros x; rewrite Kn; apply dedup_In).
    assert (Hcon' : connected (dkeys (g_nodes g)) (pairs_of g)). { unfold pairs_of. rewrite Ke. intros x y Hx Hy. apply Dd in Hx, Hy. eapply path_nodes; [|apply (Hcon x y Hx Hy)]. intros z. apply Dd. }
    assert (Hest' : forall s h x y e, good s -> graph_ok h g -> edge_of g x y e -> exists z, est q s h g e = Ok (CVal z)).
    { intros s h' x y e Gs' _ He. unfold edge_of in He. rewrite Ke in He. apply Hest; [exact Gs'|destruct He as [He|He]; apply (proj1 Hwf) in He; tauto|]. intros c Hc. destruct He as [He|He]; eauto. }
    assert (Hbase' : forall x, In x (dkeys (g_nodes g)) -> exists z, base q x = Ok (CVal z)) by (intros x Hx; apply Hbase, Dd, Hx).
    assert (Hbet' : finds_joins (g_edges g) (between q)) by (rewrite Ke; exact Hbet).
    assert (Hne : forall x y, In x (q_tables q) -> In y (q_tables q) -> x <> y -> q_edges q <> []). { intros x y Hx Hy N E. apply N. specialize (Hcon x y Hx Hy). rewrite E in Hcon. destruct Hcon as [|a b c _ [H|H] _]; [reflexivity|destruct H..]. }
    destruct (dedup (q_tables q)) as [|t1 [|t2 [|t3 r]]] eqn:Ed; [cbn in Hlen; lia..| |].
    - assert (I1 : In t1 (q_tables q)) by (apply dedup_In; rewrite Ed; now left). assert (I2 : In t2 (q_tables q)) by (apply dedup_In; rewrite Ed; right; now left). destruct (Hbase t1 I1) as (z1 & E1). destruct (Hbase t2 I2) as (z2 & E2).
      assert (N12 : t1 <> t2) by (intros E; pose proof (dedup_NoDup (q_tables q)) as N; rewrite Ed, E in N; apply NoDup_cons_iff in N as [N _]; apply N; now left).
      assert (Lk : linked (q_edges q) t1 t2).
      { assert (Hx : forall x, In x (q_tables q) -> x = t1 \/ x = t2) by (intros x Hx; apply dedup_In in Hx; rewrite Ed in Hx; destruct Hx as [<-|[<-|[]]]; auto). destruct (q_edges q) as [|[[a b] p] es] eqn:Ees; [exfalso; now apply (Hne t1 t2 I1 I2 N12)|]. assert (He : In (a, b, p) (q_edges q)) by (rewrite Ees; now left). destruct (proj1 Hwf a b p He) as (Ha & Hb & Nab & _). rewrite <- Ees. exists p. destruct (Hx a Ha) as [->| ->], (Hx b Hb) as [->| ->]; tauto. }
      assert (Bin : exists t, binary (between q) (base q) (est q) g h (setup q) t1 t2 = Ok t).
      { assert (K : forall la sm cl cs, linked (q_edges q) la sm -> exists t, match between q la [sm] with None => Raise AttributeError | Some e => rbind (est q (setup q) h g e) (fun b => join_table (JScan true la cl) sm b cs) end = Ok t).
        { intros la sm cl cs L. pose proof (Hbet la [sm]) as B. destruct (between q la [sm]) as [e|]; [|exfalso; apply (B sm); [now left|exact L]]. destruct B as [Ne B]. destruct (Hest (setup q) h g e Gs Ne) as (z & Ez). { intros c Hc. destruct (B c Hc) as (u & p & _ & [Hp|Hp] & Hcp); eauto 6. } rewrite Ez. cbn [rbind]. eexists. apply join_table_ok. reflexivity. }
        unfold binary. rewrite E1, E2. cbn [rbind]. destruct (less (CVal z1) (CVal z2)); apply K; [destruct Lk as (p & Lk); exists p; tauto|exact Lk]. }
      destruct Bin as (t & Bt). exists 0, t. intros bf' fuel' _ _. rewrite Bt. reflexivity.
    - destruct (has_nm h g) eqn:Hm.
      + destruct (default_success tab (between q) order aord (base q) (est q) (policy q) setb setj (trig q) g (g_edge tab kind _ _ g h Hg Hwf) Haord (adj_NoDup tab kind aord Haord _ _ g h Hg Hwf) (adj_src tab kind aord Haord _ _ g h Hg Hwf) (g_self tab kind _ _ g h Hg Hwf) Horder Wg) with (good := good) (bounded := bounded) (nc := False) (eager := eager) (h := h) (s := setup q) as (bf0 & t & H); auto.
          -- rewrite Kn. constructor; [|]; pose proof (dedup_NoDup (q_tables q)) as N; rewrite Ed in N; now apply NoDup_cons_iff in N.
          -- apply (graph_cols q g h Hg).
          -- intros s h' x y e Gs' Bd _ He. unfold edge_of in He. rewrite Ke in He. now apply Hpol.
          -- intros s t x y e Gs' Hy Hx He. unfold edge_of in He. rewrite Ke in He. now apply (Htrig s t x y e).
          -- intros [].
          -- now apply (uniform_spec q).
          -- now apply (separate_spec q).
          -- exists bf0, t. intros bf' fuel' Hb Hf. rewrite H; [reflexivity|exact Hb|]. rewrite Kn. exact Hf.
      + destruct (star_success tab (between q) order aord (base q) (est q) (policy q) setb setj (trig q) g (g_edge tab kind _ _ g h Hg Hwf) (g_self tab kind _ _ g h Hg Hwf) Wg (graph_cols q g h Hg) Hbet' Hbase' good Hest' Hsetj Hcon' h (setup q) G F) as (t & H); auto.
        * rewrite Ke. apply (Hne t1 t2); [apply dedup_In; rewrite Ed; now left|apply dedup_In; rewrite Ed; right; now left|]. intros E. pose proof (dedup_NoDup (q_tables q)) as N. rewrite Ed, E in N. apply NoDup_cons_iff in N as [N _]. apply N. now left.
        * exists 0, t. intros bf' fuel' _ Hf. rewrite H; [reflexivity|]. rewrite Kn. exact Hf.
  Qed.
  (** ** The first table *)
  Lemma start_inv eager q t : wfq q -> 2 < length (dedup (q_tables q)) -> (exists a b, many_to_many tab kind (q_edges q) a b) ->
    (let '(g, h) := graph_of kind q in forall s x c y z e, In (y, z, e) (q_edges q) \/ In (z, y, e) (q_edges q) -> references tab kind (q_edges q) y z -> est q (setb s x c) h g e = est q s h g e) ->
    connectedq eager q = Ok (Some t) ->
    let '(g, h) := graph_of kind q in let bound := table_bound tab kind (q_edges q) (base q) (est q (setup q) h g) in
    exists x y c, leftmost t = Some (x, c) /\ many_to_many tab kind (q_edges q) x y /\ bound x c /\ forall u v, many_to_many tab kind (q_edges q) u v -> exists d, bound u d /\ clt d (OCard c) = false.
  Proof.
    intros Hwf Hlen Hm. unfold optimize_connected. destruct (graph_of kind q) as [g h] eqn:Hg. intros Hst. destruct (g_ok kind _ _ g h Hg) as (G & Kn & Ke & F).
    assert (Nm : forall u v, many_to_many tab kind (q_edges q) u v -> exists p, In p (nm_paths tab h g true) /\ snd (fst p) = u).
    { assert (Hi : initial h g = true) by (unfold initial; apply forallb_forall; auto). intros u v ((p & L) & N1 & N2). assert (P : forall a b, is_pk_fk_join tab h g a b = true -> references tab kind (q_edges q) a b) by (intros a b; apply (pkfk_refers tab kind _ _ g h Hg Hwf)). assert (Puv : is_pk_fk_join tab h g u v = false) by (apply not_true_is_false; intros K; apply N1, P, K). assert (Pvu : is_pk_fk_join tab h g v u = false) by (apply not_true_is_false; intros K; apply N2, P, K).
      unfold nm_paths. rewrite <- Ke in L. destruct L as [L|L]; [exists (flip (u, v, p))|exists (v, u, p)]; (split; [|reflexivity]); apply in_flat_map; [exists (u, v, p)|exists (v, u, p)]; (split; [now apply paths_initial|]); cbn [fst snd]; rewrite Puv, Pvu; cbn [negb andb]; [rewrite Hi; right|]; now left. }
    assert (Nm' : forall p, In p (nm_paths tab h g true) -> exists v, many_to_many tab kind (q_edges q) (snd (fst p)) v).
    { assert (Hi : initial h g = true) by (unfold initial; apply forallb_forall; auto). intros p Hp. unfold nm_paths in Hp. apply in_flat_map in Hp as ([[a b] e] & Hq & Hp). apply (paths_initial g h a b e Hi) in Hq. rewrite Ke in Hq. cbn [fst snd] in Hp. destruct (is_pk_fk_join tab h g a b) eqn:E1; [destruct Hp|]. destruct (is_pk_fk_join tab h g b a) eqn:E2; [destruct Hp|]. cbn [negb andb] in Hp. rewrite Hi in Hp.
      assert (M : many_to_many tab kind (q_edges q) a b). { split; [exists e; now left|]. split; intros K; apply (pkfk_refers tab kind _ _ g h Hg Hwf) in K; congruence. } destruct Hp as [<-|[<-|[]]]; cbn; [exists a; now apply many_sym|exists b; exact M]. }
    assert (Hn : has_nm h g = true).
    { destruct Hm as (a & b & M). unfold has_nm. apply existsb_exists. pose proof M as ((p & L) & _). assert (K : exists a b, In (a, b, p) (q_edges q) /\ many_to_many tab kind (q_edges q) a b) by (destruct L as [L|L]; [exists a, b; auto|exists b, a; split; [exact L|now apply many_sym]]). clear a b M L. destruct K as (a & b & L & M). exists (a, b, p). rewrite Ke. split; [exact L|]. cbn [fst snd]. apply andb_true_iff. split; [apply orb_true_iff; right; unfold initial; apply forallb_forall; auto|].
      destruct (proj1 Hwf a b p L) as (_ & _ & _ & Np & _). destruct p as [|c p]; [contradiction|]. apply existsb_exists. exists c. split; [now left|]. rewrite (many_can q g h a b (c :: p) c Hg Hwf L (or_introl eq_refl) M). reflexivity. }
    assert (Hst' : forall s x c y z e, (In (y, z, e) (g_edges g) \/ In (z, y, e) (g_edges g)) -> is_pk_fk_join tab h g y z = true -> est q (setb s x c) h g e = est q s h g e).
    { intros s x c y z e He Hk. rewrite Ke in He. apply (pkfk_refers tab kind _ _ g h Hg Hwf) in Hk. eapply Hst; eassumption. }
    assert (Bd : forall x c, bound_of tab (base q) (est q) g (setup q) h x c <-> table_bound tab kind (q_edges q) (base q) (est q (setup q) h g) x c).
    { intros x c. unfold bound_of, table_bound. rewrite Ke. assert (P : forall e, (exists y, (In (x, y, e) (q_edges q) \/ In (y, x, e) (q_edges q)) /\ is_pk_fk_join tab h g x y = true) <-> (exists y, (In (x, y, e) (q_edges q) \/ In (y, x, e) (q_edges q)) /\ references tab kind (q_edges q) x y)) by (intros e; split; intros (y & A & B); exists y; (split; [exact A|]); now apply (pkfk_refers tab kind _ _ g h Hg Hwf)).
      split; intros (b & Eb & H1 & H2 & H3); exists b; (split; [exact Eb|]); (split; [destruct H1 as [H1|(e & A & H1)]; [now left|right; exists e; split; [now apply P|exact H1]]|]); (split; [exact H2|]); intros e A; apply H3; now apply P. }
    intros H. assert (H' : default_loop tab (between q) order aord (base q) (est q) (policy q) setb setj (trig q) fuel bf eager g h (setup q) (JEmpty true) = Ok t).
    { destruct (dedup (q_tables q)) as [|t1 [|t2 [|t3 r]]]; [cbn in Hlen; lia..|]. rewrite Hn in H. destruct (default_loop _ _ _ _ _ _ _ _ _ _ _ _ _ _ _ _ _) as [t'|]; [|discriminate]. cbn [rmap rbind] in H. now injection H as ->. }
    apply (default_first tab (between q) order aord (base q) (est q) (policy q) setb setj (trig q) g Haord (g_self tab kind _ _ g h Hg Hwf) h Hst' bf eager fuel (setup q) t F Hn) in H' as (x & c & A1 & A2 & (p & Hp & ->) & A4). destruct (Nm' p Hp) as (y & M). exists (snd (fst p)), y, c. split; [exact A1|]. split; [exact M|]. split; [now apply Bd|]. intros u v Muv. destruct (Nm u v Muv) as (p' & Hp' & <-). destruct (A4 p' Hp') as (d & B & L). exists d. split; [now apply Bd|exact L].
  Qed.
End Queries.

Section Ues.
  Notation ucol := (nat * nat)%type.
  Lemma ues_between_finds (q : query nat ucol) : wf_joins fst (q_tables q) (q_edges q) -> finds_joins (q_edges q) (ues_between q).
  Proof.
    intros (W & _) t l. unfold ues_between. destruct (filter _ _) as [|c0 e0] eqn:E.
    - intros u Hu (p & L). assert (N : In (t, u, p) (q_edges q) \/ In (u, t, p) (q_edges q)) by exact L. assert (Hp : p <> [] /\ forall c, In c p -> (fst (fst c) = t /\ fst (snd c) = u) \/ (fst (fst c) = u /\ fst (snd c) = t)) by (destruct N as [N|N]; destruct (W _ _ _ N) as (_ & _ & _ & Hp & Hc); split; auto; intros c H; apply Hc in H; tauto).
      destruct Hp as [Hp Hc]. destruct p as [|c p]; [contradiction|]. specialize (Hc c (or_introl eq_refl)). assert (K : In c []); [|destruct K]. rewrite <- E. apply filter_In. split; [apply in_flat_map; destruct N as [N|N]; eexists; (split; [exact N|now left])|]. apply orb_true_iff. destruct Hc as [[H1 H2]|[H1 H2]]; [left|right]; rewrite H1, H2, Nat.eqb_refl; cbn; now apply mem_In.
    - rewrite <- E. split; [rewrite E; discriminate|]. intros c Hc. apply filter_In in Hc as [Hc K]. apply in_flat_map in Hc as ([[a b] p] & He & Hc). cbn [snd] in Hc. destruct (W _ _ _ He) as (_ & _ & _ & _ & Hp). specialize (Hp c Hc). apply orb_true_iff in K.
      destruct K as [K|K]; apply andb_prop in K as [K1 K2]; apply Nat.eqb_eq in K1; apply mem_In in K2; destruct Hp as [[H1 H2]|[H1 H2]]; subst; rewrite ?H1, ?H2 in *; eexists; exists p; (split; [exact K2|]); tauto.
  Qed.
End Ues.
