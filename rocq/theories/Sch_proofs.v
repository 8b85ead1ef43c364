From Coq Require Import List Bool Arith Lia Permutation.
From Verif Require Import PyBase Graph Sch_model Sch_spec.
Import ListNotations.
Set Implicit Arguments.

Section P.
  Context {N : Type} {EN : EqD N}.
  Implicit Types (cat : catalog N) (t c : N).

  Lemma kkind_eqb_eq a b : kkind_eqb a b = true <-> a = b.
  Proof. destruct a, b; cbn; split; congruence. Qed.
  Lemma In_q_own cat view kinds t n c : In (n, c) (q_own cat view kinds t) <->
    exists k, In k (constrs cat) /\ k_name k = n /\ k_tab k = t /\ In (k_kind k) kinds /\ In (n, t, c) view.
  Proof.
    unfold q_own, v_tc. rewrite in_flat_map. split.
    - intros ([[n0 t0] kd] & H1 & H2). apply in_map_iff in H1 as (k & E & Hk). injection E as <- <- <-.
      apply in_flat_map in H2 as ([[n1 t1] c1] & Hv & Hif).
      destruct (deqb_spec (k_name k) n1) as [E1|]; [|destruct Hif].
      destruct (deqb_spec (k_tab k) t1) as [E2|]; [|destruct Hif].
      destruct (deqb_spec (k_tab k) t) as [E3|]; [|destruct Hif]. cbn [andb] in Hif.
      destruct (existsb _ kinds) eqn:Ek; [|destruct Hif]. destruct Hif as [Hif|[]]. injection Hif as <- <-.
      apply existsb_exists in Ek as (kd & Hin & Heq). apply kkind_eqb_eq in Heq. subst. exists k. repeat split; auto; congruence.
    - intros (k & Hk & Hn & Ht & Hkd & Hv). exists (k_name k, k_tab k, k_kind k). split; [apply in_map_iff; eauto|].
      apply in_flat_map. exists (n, t, c). split; [assumption|]. subst. rewrite !deqb_refl. cbn [andb].
      replace (existsb (kkind_eqb (k_kind k)) kinds) with true; [now left|]. symmetry. apply existsb_exists.
      exists (k_kind k). split; [assumption|]. now apply kkind_eqb_eq.
  Qed.
  Lemma In_ccu cat n t c : In (n, t, c) (v_ccu cat) <-> exists k, In k (constrs cat) /\ k_name k = n /\
    ((k_kind k <> KForeign /\ k_tab k = t /\ In c (k_cols k)) \/ (k_kind k = KForeign /\ k_ref k = t /\ In c (k_rcols k))).
  Proof.
    unfold v_ccu. rewrite in_flat_map. split.
    - intros (k & Hk & Hin). exists k. destruct (k_kind k) eqn:Ek; apply in_map_iff in Hin as (c0 & E & Hc); injection E as <- <- <-;
        (split; [assumption|split; [reflexivity|]]); first [left; split; [discriminate|auto]|right; auto].
    - intros (k & Hk & <- & [(H1 & <- & H3)|(H1 & <- & H3)]); exists k; (split; [assumption|]).
      + destruct (k_kind k) eqn:Ek; try congruence; apply in_map_iff; eauto.
      + rewrite H1. apply in_map_iff; eauto.
  Qed.
  Lemma In_kcu cat n t c : In (n, t, c) (v_kcu cat) <-> exists k, In k (constrs cat) /\ k_name k = n /\ k_kind k <> KCheck /\ k_tab k = t /\ In c (k_cols k).
  Proof.
    unfold v_kcu. rewrite in_flat_map. split.
    - intros (k & Hk & Hin). exists k. destruct (k_kind k) eqn:Ek; try destruct Hin as [];
        try (apply in_map_iff in Hin as (c0 & E & Hc); injection E as <- <- <-; repeat split; auto; discriminate).
    - intros (k & Hk & <- & H1 & <- & H3). exists k. split; [assumption|]. destruct (k_kind k) eqn:Ek; try congruence; apply in_map_iff; eauto.
  Qed.
  Lemma same_name cat k k' : unique_names cat -> In k (constrs cat) -> In k' (constrs cat) -> k_name k = k_name k' -> k = k'.
  Proof.
    unfold unique_names. induction (constrs cat) as [|x l IH]; cbn; [intros _ []|]. intros Hn. inversion_clear Hn as [|? ? Hx Hl].
    intros [->|H1] [->|H2] E; auto.
    - exfalso. apply Hx. rewrite E. now apply in_map.
    - exfalso. apply Hx. rewrite <- E. now apply in_map.
  Qed.

  (** The rows of the primary keys, unique constraints and foreign keys. *)
  Lemma own_ccu cat kinds t n c : unique_names cat -> ~ In KForeign kinds ->
    (In (n, c) (q_own cat (v_ccu cat) kinds t) <-> exists kd, In kd kinds /\ declared cat kd t c n).
  Proof.
    intros Hu Hf. rewrite In_q_own. split.
    - intros (k & Hk & Hn & Ht & Hkd & Hv). apply In_ccu in Hv as (k' & Hk' & Hn' & Hc).
      assert (k = k') by (apply (@same_name cat); auto; congruence). subst k'.
      destruct Hc as [(H1 & _ & H3)|(H1 & _)]; [|rewrite H1 in Hkd; contradiction].
      exists (k_kind k). split; [assumption|]. exists k. auto.
    - intros (kd & Hkd & k & Hk & <- & <- & Hc & <-). exists k. repeat split; auto. apply In_ccu. exists k. repeat split; auto.
      left. repeat split; auto. intros E. rewrite E in Hkd. contradiction.
  Qed.
  Lemma own_ccu_complete cat kinds t n c kd : In kd kinds -> kd <> KForeign -> declared cat kd t c n -> In (n, c) (q_own cat (v_ccu cat) kinds t).
  Proof.
    intros Hkd Hf (k & Hk & E & <- & Hc & <-). subst kd. apply In_q_own. exists k. repeat split; auto. apply In_ccu. exists k. repeat split; auto.
  Qed.
  Lemma own_kcu cat t n c : unique_names cat -> (In (n, c) (q_own cat (v_kcu cat) [KForeign] t) <-> declared cat KForeign t c n).
  Proof.
    intros Hu. rewrite In_q_own. split.
    - intros (k & Hk & Hn & Ht & [Hkd|[]] & Hv). apply In_kcu in Hv as (k' & Hk' & Hn' & _ & _ & Hc).
      assert (k = k') by (apply (@same_name cat); auto; congruence). subst k'. exists k. auto.
    - intros (k & Hk & E & <- & Hc & <-). exists k. repeat split; auto; [now left|]. apply In_kcu. exists k. repeat split; auto. congruence.
  Qed.
  Lemma own_kcu_complete cat t n c : declared cat KForeign t c n -> In (n, c) (q_own cat (v_kcu cat) [KForeign] t).
  Proof. intros (k & Hk & E & <- & Hc & <-). apply In_q_own. exists k. repeat split; auto; [now left|]. apply In_kcu. exists k. repeat split; auto. congruence. Qed.

  Lemma nonempty_In {A} (l : list A) : match l with [] => false | _ => true end = true <-> exists x, In x l.
  Proof. destruct l as [|a l]; split; try discriminate; [intros (x & [])| |]; auto. intros _. exists a. now left. Qed.
  Lemma In_q_col c (rows : list (N * N)) n c' : In (n, c') (q_col c rows) <-> In (n, c') rows /\ c' = c.
  Proof. unfold q_col. rewrite filter_In. cbn [snd]. rewrite deqb_eq. reflexivity. Qed.

  Lemma is_primary_key_rows cat t c : is_primary_key cat t c = true <-> exists n, In (n, c) (q_own cat (v_ccu cat) [KPrimary] t).
  Proof.
    unfold is_primary_key. rewrite nonempty_In. split.
    - intros ([n c'] & H). apply In_q_col in H as [H ->]. eauto.
    - intros (n & H). exists (n, c). apply In_q_col. auto.
  Qed.
  Lemma has_secondary_rows cat t c : has_secondary_index cat t c = true <->
    exists n, In (n, c) (q_own cat (v_ccu cat) [KUnique] t) \/ In (n, c) (q_own cat (v_kcu cat) [KForeign] t).
  Proof.
    unfold has_secondary_index. rewrite nonempty_In. split.
    - intros ([n c'] & H). apply in_app_iff in H as [H|H]; apply In_q_col in H as [H ->]; eauto.
    - intros (n & H). exists (n, c). apply in_app_iff. destruct H; [left|right]; apply In_q_col; auto.
  Qed.
  Lemma indexes_on_rows cat t c n : In n (indexes_on cat t c) <->
    In (n, c) (q_own cat (v_ccu cat) [KPrimary; KUnique] t) \/ In (n, c) (q_own cat (v_kcu cat) [KForeign] t).
  Proof.
    unfold indexes_on. rewrite dedup_In, in_map_iff. split.
    - intros ([n0 c'] & <- & H). cbn [fst]. apply in_app_iff in H as [H|H]; apply In_q_col in H as [H ->]; eauto.
    - intros H. exists (n, c). split; [reflexivity|]. apply in_app_iff. destruct H; [left|right]; apply In_q_col; auto.
  Qed.

  Lemma flat_map_nil {A B} (f : A -> list B) l : (forall x, In x l -> f x = []) -> flat_map f l = [].
  Proof. induction l as [|x l IH]; [reflexivity|]. intros H. cbn [flat_map]. rewrite (H x (or_introl eq_refl)), IH; [reflexivity|]. intros y Hy. apply H. now right. Qed.
  Lemma flat_map_single {A B} (f : A -> list B) l k : NoDup l -> In k l -> (forall x, In x l -> x <> k -> f x = []) -> flat_map f l = f k.
  Proof.
    induction l as [|x l IH]; [intros _ []|]. intros Hn Hk Hf. inversion_clear Hn as [|? ? Hx Hl]. cbn [flat_map]. destruct Hk as [->|Hk].
    - rewrite (@flat_map_nil _ _ f l), app_nil_r; [reflexivity|]. intros y Hy. apply Hf; [now right|]. intros ->. contradiction.
    - rewrite (Hf x (or_introl eq_refl)), IH; auto; [|intros ->; contradiction]. intros y Hy. apply Hf. now right.
  Qed.
  Lemma flat_map_flat_map {A B C} (g : B -> list C) (h : A -> list B) l : flat_map g (flat_map h l) = flat_map (fun x => flat_map g (h x)) l.
  Proof. induction l as [|x l IH]; [reflexivity|]. cbn [flat_map]. now rewrite flat_map_app, IH. Qed.
  Lemma NoDup_names_self cat : unique_names cat -> NoDup (constrs cat).
  Proof. apply NoDup_map_inv. Qed.
  Lemma flat_map_map {A B C} (g : B -> list C) (h : A -> B) l : flat_map g (map h l) = flat_map (fun x => g (h x)) l.
  Proof. induction l as [|x l IH]; [reflexivity|]. cbn [map flat_map]. now rewrite IH. Qed.

  (** Without duplicate names, the rows of a primary key are its columns, in order. *)
  Lemma pk_rows cat k : unique_names cat -> primary_wf cat -> In k (constrs cat) -> k_kind k = KPrimary ->
    q_own cat (v_ccu cat) [KPrimary] (k_tab k) = map (fun c => (k_name k, c)) (k_cols k).
  Proof.
    intros Hu [Hone _] Hk Ekd. unfold q_own, v_tc. rewrite flat_map_map.
    rewrite (@flat_map_single _ _ _ (constrs cat) k); [|now apply NoDup_names_self|assumption|].
    - unfold v_ccu. rewrite flat_map_flat_map. rewrite (@flat_map_single _ _ _ (constrs cat) k); [|now apply NoDup_names_self|assumption|].
      + rewrite Ekd, flat_map_map. induction (k_cols k) as [|c l IH]; [reflexivity|]. cbn [map flat_map]. rewrite IH, !deqb_refl. reflexivity.
      + intros x Hx Hne. apply flat_map_nil. intros [[n' t'] c'] Hy.
        assert (n' = k_name x) by (destruct (k_kind x); apply in_map_iff in Hy as (? & E' & _); congruence). subst n'.
        destruct (deqb_spec (k_name k) (k_name x)) as [E|]; [|reflexivity]. exfalso. apply Hne. symmetry. now apply (@same_name cat).
    - intros x Hx Hne. apply flat_map_nil. intros [[n' t'] c'] Hy.
      destruct (deqb_spec (k_tab x) (k_tab k)) as [E|]; [|now rewrite !andb_false_r].
      cbn [existsb]. destruct (k_kind x) eqn:Ex; cbn; rewrite ?andb_false_r; auto. exfalso. apply Hne. apply Hone; auto.
  Qed.
  Lemma pk_rows_none cat t : (forall k, In k (constrs cat) -> k_kind k = KPrimary -> k_tab k <> t) -> q_own cat (v_ccu cat) [KPrimary] t = [].
  Proof.
    intros Hno. destruct (q_own cat (v_ccu cat) [KPrimary] t) as [|[n c] l] eqn:E; [reflexivity|]. exfalso.
    assert (Hin : In (n, c) (q_own cat (v_ccu cat) [KPrimary] t)) by (rewrite E; now left).
    apply In_q_own in Hin as (k & Hk & _ & Ht & [Hkd|[]] & _). apply (Hno k); auto.
  Qed.

  (** *** Foreign keys *)
  Lemma In_q_foreign b cat t c d : In d (q_foreign b cat t c) <-> exists k1 k2 k3,
    In k1 (constrs cat) /\ In k2 (constrs cat) /\ In k3 (constrs cat) /\ k_name k1 = k_name k2 /\ k_name k1 = k_name k3 /\
    k_tab k1 = t /\ In c (k_cols k1) /\ k_kind k1 <> KCheck /\ k_kind k2 = KForeign /\ (b = true -> k_tab k2 = t) /\
    ((k_kind k3 <> KForeign /\ k_tab k3 = fst d /\ In (snd d) (k_cols k3)) \/ (k_kind k3 = KForeign /\ k_ref k3 = fst d /\ In (snd d) (k_rcols k3))).
  Proof.
    unfold q_foreign. rewrite in_flat_map. split.
    - intros ([[n1 t1] c1] & H1 & H2). destruct (deqb_spec t1 t) as [->|]; [|destruct H2]. destruct (deqb_spec c1 c) as [->|]; [|destruct H2]. cbn [andb] in H2.
      apply In_kcu in H1 as (k1 & Hk1 & <- & Hkd & Ht & Hc). apply in_flat_map in H2 as ([[n2 t2] kd] & H2 & H3).
      unfold v_tc in H2. apply in_map_iff in H2 as (k2 & E & Hk2). injection E as <- <- <-.
      destruct (deqb_spec (k_name k1) (k_name k2)) as [E|]; [|destruct H3]. cbn [andb] in H3.
      destruct (negb b || deqb t (k_tab k2)) eqn:Eb; [|destruct H3]. destruct (kkind_eqb _ _) eqn:Ef; [|destruct H3]. apply kkind_eqb_eq in Ef. cbn [andb] in H3.
      apply in_flat_map in H3 as ([[n3 t3] c3] & H3 & H4). destruct (deqb_spec (k_name k1) n3) as [<-|]; [|destruct H4]. destruct H4 as [<-|[]].
      apply In_ccu in H3 as (k3 & Hk3 & En & Hor). exists k1, k2, k3. repeat split; auto. intros ->. cbn [negb orb] in Eb. apply deqb_true in Eb. congruence.
    - intros (k1 & k2 & k3 & Hk1 & Hk2 & Hk3 & E2 & E3 & Ht & Hc & Hkd & Hf & Hb & Hor). exists (k_name k1, t, c). split; [apply In_kcu; exists k1; auto|].
      rewrite !deqb_refl. cbn [andb]. apply in_flat_map. exists (k_name k2, k_tab k2, k_kind k2). split; [unfold v_tc; apply in_map_iff; eauto|].
      rewrite <- E2, deqb_refl. cbn [andb]. replace (negb b || deqb t (k_tab k2)) with true by (destruct b; [rewrite Hb, deqb_refl by reflexivity|]; reflexivity).
      rewrite Hf. cbn [kkind_eqb andb]. apply in_flat_map. exists (k_name k3, fst d, snd d). split; [apply In_ccu; exists k3; auto|].
      rewrite <- E3, deqb_refl. left. destruct d; reflexivity.
  Qed.
  Lemma foreign_unique b cat t c d : unique_names cat -> (In d (q_foreign b cat t c) <-> exists k, In k (constrs cat) /\ k_kind k = KForeign /\ k_tab k = t /\
      In c (k_cols k) /\ k_ref k = fst d /\ In (snd d) (k_rcols k)).
  Proof.
    intros Hu. rewrite In_q_foreign. split.
    - intros (k1 & k2 & k3 & Hk1 & Hk2 & Hk3 & E2 & E3 & Ht & Hc & Hkd & Hf & Hb & Hor).
      assert (k1 = k2) by now apply (@same_name cat). assert (k1 = k3) by now apply (@same_name cat). subst k2 k3.
      destruct Hor as [(H & _)|(_ & H1 & H2)]; [contradiction|]. exists k1. repeat split; auto.
    - intros (k & Hk & Hf & Ht & Hc & Hr & Hrc). exists k, k, k. repeat split; auto. congruence.
  Qed.
  Lemma refers_foreign b cat t c d : refers cat t c d -> In d (q_foreign b cat t c).
  Proof.
    intros (k & i & Hk & Hf & Ht & Hc & Hr & Hrc). apply In_q_foreign. exists k, k, k. apply nth_error_In in Hc. apply nth_error_In in Hrc.
    repeat split; auto. congruence.
  Qed.
  Lemma my_foreign_spec cat t c d : In d (my_foreign_keys_on cat t c) <-> refers cat t c d.
  Proof.
    unfold my_foreign_keys_on, v_my_kcu. rewrite dedup_In, in_flat_map. split.
    - intros ([[t1 c1] r] & H1 & H2). destruct r as [d0|]; [|destruct H2]. destruct (deqb_spec t1 t) as [->|]; [|destruct H2].
      destruct (deqb_spec c1 c) as [->|]; [|destruct H2]. destruct H2 as [<-|[]]. apply in_flat_map in H1 as (k & Hk & Hin).
      destruct (k_kind k) eqn:Ek; try (apply in_map_iff in Hin as (x & E & _); discriminate); [|destruct Hin].
      apply in_map_iff in Hin as ([c0 r0] & E & Hin). injection E as E1 E2 E3. subst. apply In_nth_error in Hin as [i Hi].
      assert (Hnth : nth_error (k_cols k) i = Some c /\ nth_error (k_rcols k) i = Some r0).
      { clear -Hi. revert Hi. generalize (k_cols k), (k_rcols k). induction i as [|i IH]; intros [|a l] [|b m]; cbn; try discriminate; [intros E; injection E as -> ->; auto|apply IH]. }
      exists k, i. cbn. intuition auto.
    - intros (k & i & Hk & Hf & Ht & Hc & Hr & Hrc). exists (t, c, Some d). split.
      + apply in_flat_map. exists k. split; [assumption|]. rewrite Hf. apply in_map_iff. exists (c, snd d). split; [rewrite Ht, Hr; destruct d; reflexivity|].
        revert Hc Hrc. generalize (k_cols k), (k_rcols k). induction i as [|i IH]; intros [|a l] [|b m]; cbn; try discriminate.
        * intros E1 E2. injection E1 as ->. injection E2 as ->. now left.
        * intros E1 E2. right. now apply IH.
      + rewrite !deqb_refl. now left.
  Qed.
  Lemma duck_foreign_spec cat t c d : In d (duck_foreign_keys_on cat t c) <-> exists k, In k (constrs cat) /\ k_kind k = KForeign /\ k_tab k = t /\ k_cols k = [c] /\
    k_ref k = fst d /\ hd_error (k_rcols k) = Some (snd d).
  Proof.
    unfold duck_foreign_keys_on. rewrite dedup_In, in_flat_map. split.
    - intros (k & Hk & H). destruct (kkind_eqb _ _) eqn:Ek; [|destruct H]. apply kkind_eqb_eq in Ek. destruct (deqb_spec (k_tab k) t) as [Et|]; [|destruct H].
      destruct (deqb_spec (k_cols k) [c]) as [Ec|]; [|destruct H]. cbn [andb] in H. destruct (k_rcols k) as [|r l] eqn:Er; [destruct H|]. destruct H as [<-|[]].
      exists k. rewrite Er. auto 10.
    - intros (k & Hk & Hf & Ht & Hc & Hr & Hrc). exists k. split; [assumption|]. rewrite Hf, Ht, Hc, !deqb_refl. cbn [kkind_eqb andb].
      destruct (k_rcols k) as [|r l]; [discriminate|]. cbn in Hrc. injection Hrc as ->. left. rewrite Hr. destruct d; reflexivity.
  Qed.

  (** *** Indexes *)
  Lemma In_v_index cat n t c p : In (n, t, c, p) (v_index cat) <-> indexed cat t c n p.
  Proof.
    unfold v_index, indexed. rewrite in_flat_map. split.
    - intros (i & Hi & H). apply in_map_iff in H as (c0 & E & Hc). injection E as <- <- <- <-. rewrite dedup_In in Hc. exists i. repeat split; auto.
    - intros (i & Hi & <- & Hc & <- & <-). exists i. split; [assumption|]. apply in_map_iff. exists c. split; [reflexivity|]. now apply dedup_In.
  Qed.
  Lemma In_q_indexes cat t c p : In (c, p) (q_indexes cat t) <-> exists n, indexed cat t c n p.
  Proof.
    unfold q_indexes. rewrite in_flat_map. split.
    - intros ([[[n t1] c1] p1] & H1 & H2). destruct (deqb_spec t1 t) as [->|]; [|destruct H2]. destruct H2 as [E|[]]. injection E as -> ->. exists n. now apply In_v_index.
    - intros (n & H). exists (n, t, c, p). split; [now apply In_v_index|]. rewrite deqb_refl. now left.
  Qed.
  Lemma lastval_In {V} (rows : list (N * V)) c v : lastval rows c = Some v -> In (c, v) rows.
  Proof.
    rewrite <- dict_of_spec. intros H.
    assert (Hgen : forall l (d : dict N V) k w, dget (fold_left (fun d e => dset d (fst e) (snd e)) l d) k = Some w -> In (k, w) l \/ dget d k = Some w).
    { induction l as [|[k0 w0] l IH]; intros d k w; cbn [fold_left fst snd]; [auto|]. intros Hd. destruct (IH _ _ _ Hd) as [Hin|Hd']; [left; now right|].
      rewrite dset_spec in Hd'. destruct (eqd k k0) as [->|]; [injection Hd' as ->; left; now left|auto]. }
    destruct (Hgen rows [] c v H) as [Hin|Hn]; [assumption|discriminate].
  Qed.
  Lemma lastval_some {V} (rows : list (N * V)) c v : In (c, v) rows -> exists w, lastval rows c = Some w.
  Proof.
    rewrite <- dict_of_spec. unfold dict_of.
    assert (Hgen : forall l (d : dict N V), (In (c, v) l \/ exists w, dget d c = Some w) -> exists w, dget (fold_left (fun d e => dset d (fst e) (snd e)) l d) c = Some w).
    { induction l as [|[k0 w0] l IH]; intros d; cbn [fold_left fst snd]; [intros [[]|H]; exact H|]. intros H. apply IH. rewrite dset_spec.
      destruct (eqd c k0) as [->|Hne]; [right; eauto|]. destruct H as [[E|H]|H]; [congruence|left; exact H|right; exact H]. }
    intros H. apply Hgen. now left.
  Qed.

  (** *** The graph of the schema *)
  Lemma add_node_In (g : sgraph) t x : In x (g_nodes (add_node g t)) <-> In x (g_nodes g) \/ x = t.
  Proof.
    unfold add_node. cbn [g_nodes]. destruct (mem t (g_nodes g)) eqn:E.
    - apply mem_In in E. split; [auto|intros [H| ->]; assumption].
    - rewrite in_app_iff. cbn. intuition congruence.
  Qed.
  Lemma add_node_NoDup (g : sgraph) t : NoDup (g_nodes g) -> NoDup (g_nodes (add_node g t)).
  Proof.
    intros H. unfold add_node. cbn [g_nodes]. destruct (mem t (g_nodes g)) eqn:E; [assumption|]. apply mem_nIn in E.
    apply NoDup_rev in H. rewrite <- (rev_involutive (g_nodes g ++ [t])). apply NoDup_rev. rewrite rev_app_distr. cbn. constructor; [|assumption]. now rewrite <- in_rev.
  Qed.
  Lemma graph_edge_edges (g : sgraph) (r : (N * N) * (N * N)) e : dget (g_edges (graph_edge g r)) e =
    if eqd e (fst (fst r), fst (snd r)) then Some (match dget (g_edges g) e with Some l => l ++ [r] | None => [r] end) else dget (g_edges g) e.
  Proof.
    unfold graph_edge. destruct (dget (g_edges g) (fst (fst r), fst (snd r))) as [l|] eqn:E; cbn [g_edges add_node]; rewrite dset_spec; cbn [fst snd];
      destruct (eqd e (fst (fst r), fst (snd r))) as [->|]; rewrite ?E; reflexivity.
  Qed.
  Lemma graph_edge_nodes (g : sgraph) (r : (N * N) * (N * N)) x :
    (forall e l, dget (g_edges g) e = Some l -> In (fst e) (g_nodes g) /\ In (snd e) (g_nodes g)) ->
    (In x (g_nodes (graph_edge g r)) <-> In x (g_nodes g) \/ x = fst (fst r) \/ x = fst (snd r)).
  Proof.
    intros Hinv. unfold graph_edge. destruct (dget (g_edges g) (fst (fst r), fst (snd r))) as [l|] eqn:E; cbn [g_nodes].
    - destruct (Hinv _ _ E) as [H1 H2]. cbn [fst snd] in H1, H2. split; [auto|]. intros [H|[->| ->]]; assumption.
    - rewrite !add_node_In. cbn [fst snd]. tauto.
  Qed.
  Lemma graph_edge_wf (g : sgraph) (r : (N * N) * (N * N)) : dwf (g_edges g) -> NoDup (g_nodes g) -> dwf (g_edges (graph_edge g r)) /\ NoDup (g_nodes (graph_edge g r)).
  Proof.
    intros H1 H2. unfold graph_edge. destruct (dget _ _); cbn [g_nodes g_edges]; split; try (apply dwf_dset; assumption); try assumption.
    do 2 apply add_node_NoDup. assumption.
  Qed.

  Lemma fold_graph rs : forall g : sgraph,
    (forall e l, dget (g_edges g) e = Some l -> In (fst e) (g_nodes g) /\ In (snd e) (g_nodes g)) ->
    let h := fold_left graph_edge rs g in
    (forall x, In x (g_nodes h) <-> In x (g_nodes g) \/ exists r, In r rs /\ (x = fst (fst r) \/ x = fst (snd r))) /\
    (forall e, dget (g_edges h) e = match dget (g_edges g) e, filter (fun r => deqb (fst (fst r), fst (snd r)) e) rs with
                                    | None, [] => None | Some l, m => Some (l ++ m) | None, m => Some m end).
  Proof.
    induction rs as [|r rs IH]; intros g Hinv; cbn [fold_left].
    - split; [intros x; split; [auto|intros [H|(r & [] & _)]; assumption]|]. intros e. cbn [filter]. destruct (dget _ _); [now rewrite app_nil_r|reflexivity].
    - destruct (IH (graph_edge g r)) as [H1 H2].
      { intros e l He. rewrite graph_edge_edges in He. rewrite !graph_edge_nodes by assumption. destruct (eqd e _) as [->|]; [cbn; auto|].
        destruct (Hinv _ _ He); auto. }
      split.
      + intros x. rewrite H1, graph_edge_nodes by assumption. split.
        * intros [[H|H]|(r' & Hr & H)]; [auto|right; exists r; split; [now left|assumption]|right; exists r'; split; [now right|assumption]].
        * intros [H|(r' & [<-|Hr] & H)]; [auto|auto|right; eauto].
      + intros e. rewrite H2, graph_edge_edges. cbn [filter]. destruct (eqd e (fst (fst r), fst (snd r))) as [->|Hne].
        * rewrite deqb_refl. destruct (dget (g_edges g) _); [now rewrite <- app_assoc|reflexivity].
        * match goal with |- context [if deqb ?a ?b then _ else _] => destruct (deqb a b) eqn:E end; [apply deqb_true in E; exfalso; apply Hne; symmetry; exact E|reflexivity].
  Qed.

  Section Sch.
    Context (tables : list N) (is_view : N -> bool) (colnames : N -> list N) (fks : N * N -> list (N * N)) (pk : N -> res (option (N * N))).

    Lemma graph_nodes_ok ts : forall g cols g' cols', graph_nodes is_view colnames pk ts g cols = Ok (g', cols') ->
      g_edges g' = g_edges g /\ (NoDup (g_nodes g) -> NoDup (g_nodes g')) /\
      (forall x, In x (g_nodes g') <-> In x (g_nodes g) \/ (In x ts /\ is_view x = false)) /\
      (forall c : N * N, In c cols' <-> In c cols \/ (In (fst c) ts /\ is_view (fst c) = false /\ In (snd c) (colnames (fst c)))).
    Proof.
      induction ts as [|t ts IH]; intros g cols g' cols'; cbn [graph_nodes].
      - intros E. injection E as <- <-. repeat split; auto; intros [H|[[] _]]; assumption.
      - destruct (is_view t) eqn:Ev.
        + intros H. destruct (IH _ _ _ _ H) as (H1 & H0 & H2 & H3). repeat split; auto.
          * intros Hx. apply H2 in Hx as [Hx|[Hx Hv]]; [auto|right; split; [now right|assumption]].
          * intros [Hx|[[<-|Hx] Hv]]; apply H2; auto. congruence.
          * intros Hx. apply H3 in Hx as [Hx|[Hx Hv]]; [auto|right; split; [now right|assumption]].
          * intros [Hx|[[Hx|Hx] [Hv Hc]]]; apply H3; auto. congruence.
        + destruct (pk t) as [o|]; [|discriminate]. cbn [rbind]. intros H. destruct (IH _ _ _ _ H) as (H1 & H0 & H2 & H3). repeat split; auto.
          * intros Hn. apply H0. now apply add_node_NoDup.
          * intros Hx. apply H2 in Hx as [Hx|[Hx Hv]]; [apply add_node_In in Hx as [Hx| ->]; [auto|right; split; [now left|assumption]]|right; split; [now right|assumption]].
          * intros [Hx|[[<-|Hx] Hv]]; apply H2; rewrite add_node_In; auto.
          * intros Hx. apply H3 in Hx as [Hx|[Hx Hv]]; [|right; split; [now right|assumption]]. apply in_app_iff in Hx as [Hx|Hx]; [auto|right].
            apply in_map_iff in Hx as (c0 & <- & Hc). cbn. auto.
          * intros [Hx|[[Hx|Hx] [Hv Hc]]]; apply H3; rewrite in_app_iff; auto. left. right. apply in_map_iff. exists (snd c). split; [destruct c; cbn in *; congruence|]. now rewrite Hx.
    Qed.
    Lemma graph_nodes_total ts : forall g cols, (exists r, graph_nodes is_view colnames pk ts g cols = Ok r) <-> forall t, In t ts -> is_view t = false -> is_ok (pk t) = true.
    Proof.
      induction ts as [|t ts IH]; intros g cols; cbn [graph_nodes]; [split; [intros _ t []|eauto]|].
      destruct (is_view t) eqn:Ev.
      - rewrite IH. split; [intros H x [<-|Hx]; [congruence|auto]|intros H x Hx; apply H; now right].
      - destruct (pk t) as [o|] eqn:Ep; cbn [rbind].
        + rewrite IH. split; [intros H x [<-|Hx]; [now rewrite Ep|auto]|intros H x Hx; apply H; now right].
        + split; [intros (r & H); discriminate|]. intros H. specialize (H t (or_introl eq_refl) Ev). rewrite Ep in H. discriminate.
    Qed.

    (** *** Equivalence classes *)
    Lemma fk_edge_In e : In e (fk_edges tables colnames fks) <-> In (fst (fst e)) tables /\ In (snd (fst e)) (colnames (fst (fst e))) /\ In (snd e) (fks (fst e)).
    Proof.
      unfold fk_edges. rewrite in_flat_map. split.
      - intros (c & Hc & He). apply in_flat_map in Hc as (t & Ht & Hc). apply in_map_iff in Hc as (n & <- & Hn). apply in_map_iff in He as (d & <- & Hd). cbn. auto.
      - intros (H1 & H2 & H3). exists (fst e). split; [|apply in_map_iff; exists (snd e); split; [destruct e; reflexivity|assumption]].
        apply in_flat_map. exists (fst (fst e)). split; [assumption|]. apply in_map_iff. exists (snd (fst e)). split; [destruct e as [[]]; reflexivity|assumption].
    Qed.
  End Sch.

  Section Comp.
    Context {A : Type} {EA : EqD A}.
    Implicit Types (es : list (A * A)).
    Definition covers (ns : list A) es : Prop := forall e, In e es -> In (fst e) ns /\ In (snd e) ns.
    Lemma path_linked ns es x y : path ns es x y -> linked es x y.
    Proof. induction 1 as [|x y z H IH [Ha|Ha] Hz]; [constructor|eapply linked_fwd; eauto|eapply linked_bwd; eauto]. Qed.
    Lemma linked_path ns es x y : covers ns es -> In x ns -> linked es x y -> path ns es x y.
    Proof.
      intros Hc Hx. induction 1 as [|x y z H IH Ha|x y z H IH Ha]; [now constructor|..]; (eapply path_step; [now apply IH|unfold adj; auto|]); destruct (Hc _ Ha); assumption.
    Qed.
  End Comp.

  Section Classes.
    Implicit Types (ns : list (N * N)) (es : list ((N * N) * (N * N))) (x y z : N * N) (k : list (N * N)).
    Lemma components_reach ns es todo : forall seen k, In k (components ns es todo seen) -> exists x, In x todo /\ ~ In x seen /\ k = reachable ns es x.
    Proof.
      induction todo as [|x todo IH]; intros seen k; cbn [components]; [intros []|]. destruct (mem x seen) eqn:Em.
      - intros H. destruct (IH _ _ H) as (y & Hy & Hs & E). exists y. repeat split; auto. now right.
      - apply mem_nIn in Em. intros [<-|H]; [exists x; repeat split; auto; now left|]. destruct (IH _ _ H) as (y & Hy & Hs & E). exists y.
        repeat split; auto; [now right|]. intros Hin. apply Hs. apply in_app_iff. now right.
    Qed.
    Lemma components_cover ns es todo : forall seen x, (forall y, In y todo -> In y ns) -> In x todo -> In x seen \/ exists k, In k (components ns es todo seen) /\ In x k.
    Proof.
      induction todo as [|y todo IH]; intros seen x Hns Hx0; [destruct Hx0|]; cbn [components]; destruct Hx0 as [<-|Hx].
      - destruct (mem y seen) eqn:Em; [left; now apply mem_In|]. right. exists (reachable ns es y). split; [now left|].
        assert (Hy : In y ns) by (apply Hns; now left). apply reachable_spec; [assumption|now constructor].
      - assert (Hns' : forall z, In z todo -> In z ns) by (intros z Hz; apply Hns; now right).
        destruct (mem y seen) eqn:Em; [now apply IH|]. destruct (IH (reachable ns es y ++ seen) x Hns' Hx) as [H|(k & Hk & H)].
        + apply in_app_iff in H as [H|H]; [right; exists (reachable ns es y); split; [now left|assumption]|now left].
        + right. exists k. split; [now right|assumption].
    Qed.
    Definition closed ns es (seen : list (N * N)) : Prop := forall x y, In x seen -> path ns es x y -> In y seen.
    Lemma closed_app ns es x seen : In x ns -> closed ns es seen -> closed ns es (reachable ns es x ++ seen).
    Proof.
      intros Hx Hc y z Hy Hp. apply in_app_iff in Hy as [Hy|Hy]; apply in_app_iff; [left|right; eapply Hc; eassumption].
      apply reachable_spec in Hy; [|assumption]. apply reachable_spec; [assumption|]. eapply path_trans; eassumption.
    Qed.
    Lemma components_seen ns es todo : forall seen k (c : N * N), (forall y, In y todo -> In y ns) -> closed ns es seen -> In k (components ns es todo seen) -> In c k -> ~ In c seen.
    Proof.
      intros seen k c Hns Hcl Hk Hc Hin. destruct (@components_reach ns es todo seen k Hk) as (x & Hx & Hs & ->). apply reachable_spec in Hc; [|auto].
      apply Hs. apply (Hcl c x Hin). now apply path_sym.
    Qed.
    Lemma components_disjoint ns es todo : forall seen k k' (c : N * N), (forall y, In y todo -> In y ns) -> closed ns es seen ->
      In k (components ns es todo seen) -> In k' (components ns es todo seen) -> In c k -> In c k' -> k = k'.
    Proof.
      induction todo as [|x todo IH]; intros seen k k' c Hns Hcl; cbn [components]; [intros []|].
      assert (Hns' : forall z, In z todo -> In z ns) by (intros z Hz; apply Hns; now right). assert (Hx : In x ns) by (apply Hns; now left).
      destruct (mem x seen) eqn:Em; [now apply IH|]. pose proof (@closed_app ns es x seen Hx Hcl) as Hcl'.
      intros [<-|H1] [<-|H2] Hc Hc'; auto.
      - exfalso. apply (@components_seen ns es todo _ _ c Hns' Hcl' H2 Hc'). apply in_app_iff. now left.
      - exfalso. apply (@components_seen ns es todo _ _ c Hns' Hcl' H1 Hc). apply in_app_iff. now left.
      - now apply (IH _ _ _ c Hns' Hcl').
    Qed.
  End Classes.
End P.
