(** Lemmas about the plan analysis functions. *)
From Coq Require Import List Bool Arith ZArith QArith Lia Lqa Permutation.
From Verif Require Import PyBase FSet Hint_model Card_model Card_proofs QPlan_model QPlan_spec QPlan_proofs JT_model JT_spec JT_proofs Ana_model Ana_spec.
Import ListNotations.
Local Open Scope nat_scope.

(** ** compare_query_plans *)
Lemma jplan_simple p : jplan p -> simple p /\ (forall n, node_all p n -> is_aux n = false).
Proof.
  induction 1 as [d Hd|d o i Hd Ho [So Ao] Hi [Si Ai]].
  - split; intros n Hn; inversion Hn; subst; cbn in *; try contradiction; try discriminate.
    + split; cbn; [lia|reflexivity].
    + unfold is_aux, is_join, is_scan. cbn [data]. rewrite Hd. now rewrite andb_false_r.
  - split; intros n Hn; inversion Hn; subst; cbn [kids subplan] in *; try discriminate.
    + split; cbn; [lia|lia].
    + destruct H as [<-|[<-|[]]]; auto.
    + unfold is_aux, is_join. cbn [data]. now rewrite Hd.
    + destruct H as [<-|[<-|[]]]; auto.
Qed.
Lemma has_aux_iff p : simple p -> exists b, has_aux p = Ok b /\ (b = true <-> exists n, node_all p n /\ is_aux n = true).
Proof.
  intros H. destruct (find_first_complete is_aux true p H) as (o & E & K). unfold has_aux. rewrite E. cbn [rmap rbind]. eexists. split; [reflexivity|].
  destruct o as [x|].
  - split; [|reflexivity]. intros _. exists x. now apply (find_first_sound is_aux true p).
  - split; [discriminate|]. intros (n & Hn & Ha). rewrite (K eq_refl n Hn) in Ha. discriminate.
Qed.
Lemma has_aux_no p : jplan p -> has_aux p = Ok false.
Proof.
  intros H. destruct (jplan_simple p H) as [S A]. destruct (has_aux_iff p S) as (b & E & K). rewrite E. destruct b; [|reflexivity].
  destruct (proj1 K eq_refl) as (n & Hn & Ha). rewrite (A n Hn) in Ha. discriminate.
Qed.
Lemma card_differs_ok a b : comparable a b -> exists x, card_differs a b = Ok x /\ (x = true <-> a <> b).
Proof.
  unfold card_differs. intros [<-|(x & y & -> & ->)].
  - exists false. split; [destruct a; cbn; rewrite ?Z.eqb_refl; reflexivity|]. split; [discriminate|congruence].
  - exists (negb (x =? y)%Z). cbn. rewrite andb_true_r. split; [reflexivity|]. destruct (Z.eqb_spec x y); cbn; split; congruence.
Qed.
Lemma cost_differs_ok a b : (a = None -> b = None) -> (cost_differs a b = true <-> a <> b).
Proof.
  unfold cost_differs. intros H. destruct a as [x|].
  - destruct b as [y|]; cbn; [|split; congruence]. destruct (Nat.eqb_spec x y); cbn; split; congruence.
  - rewrite (H eq_refl). cbn. split; congruence.
Qed.
Lemma In_when {A} b (x c : A) : In c (when b x) <-> b = true /\ c = x.
Proof. destruct b; cbn; intuition congruence. Qed.
Lemma compare_nodes_ok l r : nodes_comparable l r -> exists cs, compare_nodes l r = Ok cs /\ (forall c, In c cs <-> node_change l r c).
Proof.
  intros (H1 & H2 & H3). unfold compare_nodes, node_change.
  destruct (card_differs_ok _ _ H1) as (x & -> & Hx). destruct (card_differs_ok _ _ H2) as (y & -> & Hy). pose proof (cost_differs_ok _ _ H3) as Hz.
  cbn [rbind]. eexists. split; [reflexivity|]. intros c. rewrite !in_app_iff, !In_when, Hx, Hy, Hz.
  rewrite negb_true_iff, Nat.eqb_neq. reflexivity.
Qed.
Lemma nodes_self p : nodes_comparable p p.
Proof. repeat split; auto; now left. Qed.
Lemma compare_nodes_self p : compare_nodes p p = Ok [].
Proof.
  destruct (compare_nodes_ok p p (nodes_self p)) as (cs & -> & H). destruct cs as [|c cs]; [reflexivity|]. exfalso.
  destruct (proj1 (H c) (or_introl eq_refl)) as [[K _]|[[K _]|[[K _]|[K _]]]]; now apply K.
Qed.
Lemma seteq_refl {A} (l : list A) : seteq l l.
Proof. unfold seteq. reflexivity. Qed.
Lemma seteqb_false {A} {E : EqD A} (l m : list A) : seteqb l m = false <-> ~ seteq l m.
Proof. rewrite <- seteqb_seteq. destruct (seteqb l m); split; congruence. Qed.

Lemma compare_structure l r : jplan l -> jplan r -> ~ seteq (tables l) (tables r) ->
  compare_plans l r = Ok [DStructure (mkfs (tables l)) (mkfs (tables r))].
Proof.
  intros Hl Hr H. destruct l as [d ks s]. cbn [compare_plans]. rewrite (has_aux_no _ Hl). cbn [rbind]. rewrite (has_aux_no _ Hr). cbn [rbind].
  apply seteqb_false in H. rewrite H. reflexivity.
Qed.
Lemma op_excl d : op_scan d = true -> op_join d = true -> False.
Proof. unfold op_scan, op_join. destruct (oper d) as [[]|]; discriminate. Qed.
Lemma compare_scan d r : op_scan d = true -> jplan r -> nodes_comparable (Node d [] None) r -> seteq (tables (Node d [] None)) (tables r) ->
  exists cs, compare_plans (Node d [] None) r = Ok cs /\ (forall c, In c cs <-> node_change (Node d [] None) r c).
Proof.
  intros Hd Hr Hc Ht. destruct (compare_nodes_ok _ _ Hc) as (cs & E & K). exists cs. split; [|exact K].
  cbn [compare_plans]. rewrite (has_aux_no _ (jp_scan d Hd)). cbn [rbind]. rewrite (has_aux_no _ Hr). cbn [rbind].
  apply seteqb_seteq in Ht. rewrite Ht. cbn [negb]. rewrite E. cbn [rbind]. unfold is_join. cbn [data].
  destruct (op_join d) eqn:J; [destruct (op_excl d Hd J)|reflexivity].
Qed.
Lemma jplan_kids d o i : jplan (Node d [o; i] None) -> op_join d = true /\ jplan o /\ jplan i.
Proof. intros H. inversion H; subst. auto. Qed.

Lemma differs_scan d r c : op_scan d = true -> seteq (tables (Node d [] None)) (tables r) -> differs (Node d [] None) r c -> node_change (Node d [] None) r c.
Proof. intros Hd Ht H. inversion H; subst; [contradiction|assumption]. Qed.

Lemma compare_swapped l r : swapped l r -> jplan l -> jplan r ->
  exists cs, compare_plans l r = Ok cs /\ forall c, In c cs <-> differs l r c.
Proof.
  induction 1 as [l r Ht|d r Hd Hc|d o i d' o' i' Hd Hc Ht Hi IHi Ho IHo]; intros Hl Hr.
  - eexists. split; [now apply compare_structure|]. intros c. cbn. split.
    + intros [<-|[]]. now constructor.
    + intros H. inversion H; subst; try contradiction. now left.
  - destruct (seteqb (tables (Node d [] None)) (tables r)) eqn:E.
    + apply seteqb_seteq in E. destruct (compare_scan d r Hd Hr Hc E) as (cs & C & K). exists cs. split; [exact C|]. intros c. rewrite K. split.
      * intros H. now apply df_node.
      * now apply differs_scan.
    + apply seteqb_false in E. eexists. split; [now apply compare_structure|]. intros c. cbn. split.
      * intros [<-|[]]. now constructor.
      * intros H. inversion H; subst; try contradiction. now left.
  - destruct (seteqb (tables (Node d [o; i] None)) (tables (Node d' [o'; i'] None))) eqn:E.
    + pose proof (proj1 (seteqb_seteq _ _) E) as E'. destruct (jplan_kids _ _ _ Hl) as (Jd & Jo & Ji). destruct (jplan_kids _ _ _ Hr) as (_ & Jo' & Ji').
      destruct (IHi Ji Jo') as (x & Cx & Kx). destruct (IHo Jo Ji') as (y & Cy & Ky). destruct (compare_nodes_ok _ _ Hc) as (cs & Cn & Kn).
      eexists. split.
      * cbn [compare_plans]. rewrite (has_aux_no _ Hl). cbn [rbind]. rewrite (has_aux_no _ Hr). cbn [rbind]. rewrite E. cbn [negb]. rewrite Cn. cbn [rbind].
        unfold is_join. cbn [data kids]. rewrite Hd. cbn [negb]. rewrite (proj2 (seteqb_seteq _ _) Ht). rewrite Cx. cbn [rbind]. rewrite Cy. cbn [rbind]. reflexivity.
      * intros c. rewrite in_app_iff. cbn [In]. rewrite in_app_iff, Kn, Kx, Ky. split.
        -- intros [H|[<-|[H|H]]]; [now apply df_node|now apply df_swapped|now apply df_cross_inner|now apply df_cross_outer].
        -- intros H. inversion H; subst; try contradiction; auto.
    + apply seteqb_false in E. eexists. split; [now apply compare_structure|]. intros c. cbn. split.
      * intros [<-|[]]. now constructor.
      * intros H. inversion H; subst; try contradiction. now left.
Qed.

Lemma no_diff_self p c : jplan p -> (forall d o i s, node_all p (Node d [o; i] s) -> ~ seteq (tables i) (tables o)) -> ~ differs p p c.
Proof.
  intros H. revert c. induction H as [d Hd|d o i Hd Ho IHo Hi IHi]; intros c N D.
  - apply differs_scan in D; [|assumption|apply seteq_refl]. destruct D as [[K _]|[[K _]|[[K _]|[K _]]]]; now apply K.
  - assert (No : ~ seteq (tables i) (tables o)) by (eapply N; apply na_self).
    inversion D; subst; try contradiction.
    + apply H. apply seteq_refl.
    + destruct H0 as [[K _]|[[K _]|[[K _]|[K _]]]]; now apply K.
    + eapply IHi; [|eassumption]. intros. eapply N. eapply na_kid; [|eassumption]. cbn; auto.
    + eapply IHo; [|eassumption]. intros. eapply N. eapply na_kid; [|eassumption]. cbn; auto.
Qed.
Lemma compare_self p : jplan p -> (forall d o i s, node_all p (Node d [o; i] s) -> ~ seteq (tables i) (tables o)) ->
  exists cs, compare_plans p p = Ok cs
    /\ forall d o i s, p = Node d [o; i] s -> In (DStructure (mkfs (tables o)) (mkfs (tables i))) cs.
Proof.
  intros H. induction H as [d Hd|d o i Hd Ho IHo Hi IHi]; intros N.
  - destruct (compare_scan d _ Hd (jp_scan d Hd) (nodes_self _) (seteq_refl _)) as (cs & E & _). exists cs. split; [assumption|]. intros; discriminate.
  - assert (J : jplan (Node d [o; i] None)) by now constructor.
    assert (No : ~ seteq (tables i) (tables o)) by (eapply N; apply na_self).
    destruct IHi as (ci & Ci & _); [intros; eapply N; eapply na_kid; [|eassumption]; cbn; auto|].
    cbn [compare_plans]. rewrite (has_aux_no _ J). cbn [rbind]. rewrite (proj2 (seteqb_seteq _ _) (seteq_refl _)). cbn [negb].
    rewrite compare_nodes_self. cbn [rbind]. unfold is_join. cbn [data kids]. rewrite Hd. cbn [negb].
    rewrite (proj2 (seteqb_false _ _) No). rewrite Ci. cbn [rbind].
    rewrite (compare_structure o i Ho Hi); [|intros K; apply No; intros x; symmetry; apply K]. cbn [rbind].
    eexists. split; [reflexivity|]. intros d0 o0 i0 s0 [= -> -> -> _]. cbn. apply in_or_app. right. now left.
Qed.
Lemma compare_aux l r : simple l -> simple r -> ((exists n, node_all l n /\ is_aux n = true) \/ (exists n, node_all r n /\ is_aux n = true)) ->
  compare_plans l r = Raise ValueError.
Proof.
  intros Hl Hr H. destruct (has_aux_iff l Hl) as (a & Ea & Ka). destruct (has_aux_iff r Hr) as (b & Eb & Kb).
  assert (E : rbind (has_aux l) (fun a => if a then Ok true else has_aux r) = Ok true).
  { rewrite Ea. cbn [rbind]. destruct a; [reflexivity|]. rewrite Eb. destruct H as [H|H]; [apply Ka in H; discriminate|]. apply Kb in H. now subst. }
  destruct l as [d ks s]. cbn [compare_plans]. rewrite Ea in *. cbn [rbind] in *. destruct a; [reflexivity|]. rewrite E. reflexivity.
Qed.

(** ** Jaccard coefficients *)
Lemma NoDup_same_length {A} (l m : list A) : NoDup l -> NoDup m -> (forall x, In x l <-> In x m) -> length l = length m.
Proof. intros Hl Hm H. apply Permutation_length. now apply NoDup_Permutation. Qed.
Definition frac (i u : nat) : Q := (inject_Z (Z.of_nat i) / inject_Z (Z.of_nat u))%Q.
Lemma frac_range i u : 0 < u -> i <= u -> (0 <= frac i u <= 1)%Q.
Proof.
  intros Hu Hi. assert (P : (0 < inject_Z (Z.of_nat u))%Q) by (change 0%Q with (inject_Z 0); rewrite <- Zlt_Qlt; lia). unfold frac. split.
  - apply Qle_shift_div_l; [assumption|]. rewrite Qmult_0_l. change 0%Q with (inject_Z 0). rewrite <- Zle_Qle. lia.
  - apply Qle_shift_div_r; [assumption|]. rewrite Qmult_1_l. rewrite <- Zle_Qle. lia.
Qed.
Lemma frac_one i u : 0 < u -> (frac i u == 1)%Q <-> i = u.
Proof.
  intros Hu. assert (P : (0 < inject_Z (Z.of_nat u))%Q) by (change 0%Q with (inject_Z 0); rewrite <- Zlt_Qlt; lia).
  assert (N : ~ (inject_Z (Z.of_nat u) == 0)%Q) by (intros E; rewrite E in P; now apply Qlt_irrefl in P). unfold frac. split.
  - intros H. assert (K : (inject_Z (Z.of_nat i) == inject_Z (Z.of_nat u))%Q).
    { rewrite <- (Qmult_1_l (inject_Z (Z.of_nat u))). rewrite <- H. field. assumption. }
    rewrite inject_Z_injective in K. lia.
  - intros ->. field. assumption.
Qed.
Section Jac.
  Context {T : Type} {ET : EqD T}.
  Definition common (a b : list T) : nat := length (filter (fun x => mem x b) (dedup a)).
  Definition total (a b : list T) : nat := length (dedup (a ++ b)).
  Lemma jaccard_unfold a b : jaccard a b = if total a b =? 0 then Raise ZeroDivisionError else Ok (frac (common a b) (total a b)).
  Proof. unfold jaccard, total, frac, common. destruct (length (dedup (a ++ b))); reflexivity. Qed.
  Lemma total_zero a b : total a b = 0 <-> a = [] /\ b = [].
  Proof.
    unfold total. split.
    - intros H. apply length_zero_iff_nil in H. assert (K : forall x, ~ In x (a ++ b)) by (intros x Hx; apply dedup_In in Hx; rewrite H in Hx; destruct Hx).
      destruct a; [|exfalso; apply (K t); now left]. destruct b; [auto|exfalso; apply (K t); now left].
    - intros [-> ->]. reflexivity.
  Qed.
  Lemma total_sym a b : total a b = total b a.
  Proof. apply NoDup_same_length; try apply dedup_NoDup. intros x. rewrite !dedup_In, !in_app_iff. tauto. Qed.
  Lemma common_sym a b : common a b = common b a.
  Proof.
    apply NoDup_same_length; try (apply NoDup_filter, dedup_NoDup). intros x. rewrite !filter_In, !dedup_In, !mem_In. tauto.
  Qed.
  Lemma common_le a b : common a b <= total a b.
  Proof.
    apply NoDup_incl_length; [apply NoDup_filter, dedup_NoDup|]. intros x. rewrite filter_In, !dedup_In, in_app_iff. tauto.
  Qed.
  Lemma common_total a b : common a b = total a b <-> seteq a b.
  Proof.
    split.
    - intros H x. assert (K : incl (dedup (a ++ b)) (filter (fun x => mem x b) (dedup a))).
      { apply NoDup_length_incl; [apply NoDup_filter, dedup_NoDup|unfold common, total in H; lia|]. intros y. rewrite filter_In, !dedup_In, in_app_iff. tauto. }
      specialize (K x). rewrite filter_In, !dedup_In, in_app_iff, mem_In in K. tauto.
    - intros H. apply NoDup_same_length; [apply NoDup_filter, dedup_NoDup|apply dedup_NoDup|]. intros x.
      rewrite filter_In, !dedup_In, in_app_iff, mem_In. unfold seteq in H. specialize (H x). tauto.
  Qed.
  Lemma jaccard_sym a b : jaccard a b = jaccard b a.
  Proof. rewrite !jaccard_unfold, total_sym, common_sym. reflexivity. Qed.
  Lemma jaccard_ok a b : a <> [] \/ b <> [] -> exists q, jaccard a b = Ok q /\ (0 <= q <= 1)%Q /\ ((q == 1)%Q <-> seteq a b).
  Proof.
    intros H. rewrite jaccard_unfold. destruct (Nat.eqb_spec (total a b) 0) as [E|E].
    - apply total_zero in E. destruct E, H; contradiction.
    - eexists. split; [reflexivity|]. split; [apply frac_range; [lia|apply common_le]|]. rewrite frac_one by lia. apply common_total.
  Qed.
End Jac.

(** ** Bottom-up similarity *)
Section BottomUp.
  Context {A : Type}.
  Notation jt := (jt nat A).
  Definition clusters (t : jt) : list fs := map (fun j => mkfs (jt_tables j)) (jt_iterjoins t).
  Lemma clusters_join lg o i a c : In c (clusters (JJoin lg o i a)) <-> c = mkfs (jt_tables (JJoin lg o i a)) \/ In c (clusters o) \/ In c (clusters i).
  Proof.
    unfold clusters. cbn [jt_iterjoins]. rewrite !map_app, !in_app_iff. cbn [map In]. intuition congruence.
  Qed.
  Lemma tables_join lg (o i : jt) (a : A) (x : nat) : In x (jt_tables (JJoin lg o i a)) <-> In x (jt_tables o) \/ In x (jt_tables i).
  Proof. cbn [jt_tables]. now rewrite dedup_In, in_app_iff. Qed.
  Lemma cluster_sub (t : jt) c x : In c (clusters t) -> In x c -> In x (jt_tables t).
  Proof.
    induction t as [lg|lg y a|lg o IHo i IHi a]; [intros []..|]. rewrite clusters_join. intros [-> |[H|H]] Hx.
    - rewrite mkfs_In in Hx. exact Hx.
    - apply tables_join. left. auto.
    - apply tables_join. right. auto.
  Qed.
  Lemma cluster_ne (t : jt) c : proper t -> In c (clusters t) -> exists x, In x c.
  Proof.
    intros P. induction t as [lg|lg y a|lg o IHo i IHi a]; [intros []..|]. apply proper_join in P. destruct P as [Po Pi]. rewrite clusters_join. intros [-> |[H|H]]; auto.
    assert (K : exists x, In x (jt_tables o)).
    { pose proof (proper_leaves o Po) as [L _]. destruct (jt_itertables o) as [|x r] eqn:E; [cbn in L; lia|]. exists x. apply itertables_scanned. rewrite E. now left. }
    destruct K as [x Hx]. exists x. apply mkfs_In, tables_join. now left.
  Qed.
  Lemma proper_ne (t : jt) : proper t -> exists x, In x (jt_tables t).
  Proof.
    intros P. pose proof (proper_leaves t P) as [L _]. destruct (jt_itertables t) as [|x r] eqn:E; [cbn in L; lia|]. exists x. apply itertables_scanned. rewrite E. now left.
  Qed.
  (** Trees over pairwise different tables. *)
  Definition plain (t : jt) : Prop := proper t /\ NoDup (jt_itertables t).
  Lemma plain_join lg o i a : plain (JJoin lg o i a) -> plain o /\ plain i /\ forall x, In x (jt_tables o) -> In x (jt_tables i) -> False.
  Proof.
    intros [P N]. apply proper_join in P. destruct P as [Po Pi]. cbn [jt_itertables] in N. 
    assert (K : NoDup (jt_itertables o) /\ NoDup (jt_itertables i) /\ forall x, In x (jt_itertables o) -> In x (jt_itertables i) -> False).
    { revert N. generalize (jt_itertables o) (jt_itertables i). induction l as [|y l IH]; intros m N.
      - repeat split; [constructor|assumption|]. intros x [].
      - cbn in N. inversion N; subst. destruct (IH m H2) as (K1 & K2 & K3). repeat split; [|assumption|].
        + constructor; [|assumption]. intros K. apply H1. apply in_or_app. now left.
        + intros x [-> |Hx] Hm; [apply H1; apply in_or_app; now right|]. eauto. }
    destruct K as (K1 & K2 & K3). repeat split; auto. intros x. rewrite <- !itertables_scanned. apply K3.
  Qed.
  Lemma root_cluster lg o i a : In (mkfs (jt_tables (JJoin lg o i a))) (clusters (JJoin lg o i a)).
  Proof. apply clusters_join. now left. Qed.
  (** The tables of a part of one tree are within one input of any join with the same joins. *)
  Lemma child_within (s o i : jt) lg a :
    proper s -> (forall x, In x (jt_tables s) -> In x (jt_tables (JJoin lg o i a))) ->
    (exists x, In x (jt_tables (JJoin lg o i a)) /\ ~ In x (jt_tables s)) ->
    (forall c, In c (clusters s) -> In c (clusters (JJoin lg o i a))) ->
    incl (jt_tables s) (jt_tables o) \/ incl (jt_tables s) (jt_tables i).
  Proof.
    intros Ps Hsub [z [Hz Nz]] Hc. destruct s as [l|l x e|l so si e].
    - exfalso. apply (Ps l). apply subtree_refl.
    - specialize (Hsub x (or_introl eq_refl)). apply tables_join in Hsub. destruct Hsub as [H|H]; [left|right]; intros y [<-|[]]; assumption.
    - specialize (Hc _ (root_cluster l so si e)). apply clusters_join in Hc. destruct Hc as [E|[E|E]].
      + exfalso. apply Nz. rewrite mkfs_eq in E. now apply E.
      + left. intros x Hx. eapply cluster_sub; [exact E|]. now apply mkfs_In.
      + right. intros x Hx. eapply cluster_sub; [exact E|]. now apply mkfs_In.
  Qed.
  Lemma sub_outer t lg o i a c : plain (JJoin lg o i a) -> seteq (jt_tables t) (jt_tables o) -> proper t -> In c (clusters t) ->
    In c (clusters (JJoin lg o i a)) -> In c (clusters o).
  Proof.
    intros P E Pt Ht Hc. destruct (plain_join _ _ _ _ P) as (Po & Pi & D). apply clusters_join in Hc. destruct Hc as [-> |[H|H]]; [|assumption|].
    - exfalso. destruct (proper_ne i (proj1 Pi)) as [x Hx]. apply (D x); [|assumption]. apply E. apply (cluster_sub _ _ _ Ht). apply mkfs_In, tables_join. now right.
    - exfalso. destruct (cluster_ne t c Pt Ht) as [x Hx]. apply (D x); [|now apply (cluster_sub _ _ _ H)]. apply E. now apply (cluster_sub _ _ _ Ht).
  Qed.
  Lemma sub_inner t lg o i a c : plain (JJoin lg o i a) -> seteq (jt_tables t) (jt_tables i) -> proper t -> In c (clusters t) ->
    In c (clusters (JJoin lg o i a)) -> In c (clusters i).
  Proof.
    intros P E Pt Ht Hc. destruct (plain_join _ _ _ _ P) as (Po & Pi & D). apply clusters_join in Hc. destruct Hc as [-> |[H|H]]; [| |assumption].
    - exfalso. destruct (proper_ne o (proj1 Po)) as [x Hx]. apply (D x); [assumption|]. apply E. apply (cluster_sub _ _ _ Ht). apply mkfs_In, tables_join. now left.
    - exfalso. destruct (cluster_ne t c Pt Ht) as [x Hx]. apply (D x); [now apply (cluster_sub _ _ _ H)|]. apply E. now apply (cluster_sub _ _ _ Ht).
  Qed.
  Lemma clusters_same (a : jt) : forall b : jt, plain a -> plain b -> seteq (jt_tables a) (jt_tables b) -> (forall c, In c (clusters a) <-> In c (clusters b)) -> same_joins a b.
  Proof.
    induction a as [lg|lg x e|lg o IHo i IHi e]; intros b Pa Pb Ht Hc.
    - exfalso. apply (proj1 Pa lg). apply subtree_refl.
    - destruct b as [l|l y f|l o' i' f]; [exfalso; apply (proj1 Pb l); apply subtree_refl| |].
      + assert (x = y) as <- by (specialize (Ht x); cbn in Ht; intuition). constructor.
      + exfalso. apply (proj2 (Hc _) (root_cluster l o' i' f)).
    - destruct b as [l|l y f|l o' i' f]; [exfalso; apply (proj1 Pb l); apply subtree_refl| |].
      + exfalso. apply (proj1 (Hc _) (root_cluster lg o i e)).
      + destruct (plain_join _ _ _ _ Pa) as (Po & Pi & D). destruct (plain_join _ _ _ _ Pb) as (Po' & Pi' & D').
        destruct (proper_ne o (proj1 Po)) as [xo Hxo]. destruct (proper_ne i (proj1 Pi)) as [xi Hxi].
        destruct (proper_ne o' (proj1 Po')) as [yo Hyo]. destruct (proper_ne i' (proj1 Pi')) as [yi Hyi].
        assert (T : forall x, In x (jt_tables o) \/ In x (jt_tables i) <-> In x (jt_tables o') \/ In x (jt_tables i')).
        { intros x. rewrite <- (tables_join lg o i e), <- (tables_join l o' i' f). apply Ht. }
        assert (Wo : incl (jt_tables o) (jt_tables o') \/ incl (jt_tables o) (jt_tables i')).
        { apply (child_within o o' i' l f); [apply Po|intros x Hx; apply tables_join, T; now left|exists xi; split; [apply tables_join, T; now right|intros K; eauto]|].
          intros c K. apply Hc, clusters_join. auto. }
        assert (Wi : incl (jt_tables i) (jt_tables o') \/ incl (jt_tables i) (jt_tables i')).
        { apply (child_within i o' i' l f); [apply Pi|intros x Hx; apply tables_join, T; now right|exists xo; split; [apply tables_join, T; now left|intros K; eauto]|].
          intros c K. apply Hc, clusters_join. auto. }
        destruct Wo as [Wo|Wo], Wi as [Wi|Wi].
        * exfalso. destruct (proj2 (T yi) (or_intror Hyi)) as [K|K]; apply (D' yi); auto.
        * assert (So : seteq (jt_tables o) (jt_tables o')).
          { intros x. split; [apply Wo|]. intros K. destruct (proj2 (T x) (or_introl K)) as [|K']; [assumption|]. exfalso. apply (D' x); auto. }
          assert (Si : seteq (jt_tables i) (jt_tables i')).
          { intros x. split; [apply Wi|]. intros K. destruct (proj2 (T x) (or_intror K)) as [K'|]; [|assumption]. exfalso. apply (D' x); auto. }
          apply sj_join; [apply IHo|apply IHi]; auto; intros c; split; intros K.
          -- apply (sub_outer o l o' i' f); auto; [apply Po|apply Hc, clusters_join; auto].
          -- apply (sub_outer o' lg o i e); auto; [intros x; symmetry; apply So|apply Po'|apply Hc, clusters_join; auto].
          -- apply (sub_inner i l o' i' f); auto; [apply Pi|apply Hc, clusters_join; auto].
          -- apply (sub_inner i' lg o i e); auto; [intros x; symmetry; apply Si|apply Pi'|apply Hc, clusters_join; auto].
        * assert (So : seteq (jt_tables o) (jt_tables i')).
          { intros x. split; [apply Wo|]. intros K. destruct (proj2 (T x) (or_intror K)) as [|K']; [assumption|]. exfalso. apply (D' x); auto. }
          assert (Si : seteq (jt_tables i) (jt_tables o')).
          { intros x. split; [apply Wi|]. intros K. destruct (proj2 (T x) (or_introl K)) as [K'|]; [|assumption]. exfalso. apply (D' x); auto. }
          apply sj_swap; [apply IHo|apply IHi]; auto; intros c; split; intros K.
          -- apply (sub_inner o l o' i' f); auto; [apply Po|apply Hc, clusters_join; auto].
          -- apply (sub_outer i' lg o i e); auto; [intros x; symmetry; apply So|apply Pi'|apply Hc, clusters_join; auto].
          -- apply (sub_outer i l o' i' f); auto; [apply Pi|apply Hc, clusters_join; auto].
          -- apply (sub_inner o' lg o i e); auto; [intros x; symmetry; apply Si|apply Po'|apply Hc, clusters_join; auto].
        * exfalso. destruct (proj2 (T yo) (or_introl Hyo)) as [K|K]; apply (D' yo); auto.
  Qed.
  Lemma same_clusters (a b : jt) : same_joins a b -> seteq (jt_tables a) (jt_tables b) /\ (forall c, In c (clusters a) <-> In c (clusters b)).
  Proof.
    induction 1 as [lg lg' x a b|lg lg' o i o' i' a b _ [To Co] _ [Ti Ci]|lg lg' o i o' i' a b _ [To Co] _ [Ti Ci]].
    - split; [apply seteq_refl|reflexivity].
    - assert (T : seteq (jt_tables (JJoin lg o i a)) (jt_tables (JJoin lg' o' i' b))) by (intros x; rewrite !tables_join, (To x), (Ti x); reflexivity).
      split; [exact T|]. intros c. rewrite !clusters_join, (proj2 (mkfs_eq _ _) T), Co, Ci. reflexivity.
    - assert (T : seteq (jt_tables (JJoin lg o i a)) (jt_tables (JJoin lg' o' i' b))) by (intros x; rewrite !tables_join, (To x), (Ti x); tauto).
      split; [exact T|]. intros c. rewrite !clusters_join, (proj2 (mkfs_eq _ _) T), Co, Ci. tauto.
  Qed.
  Lemma clusters_nil (t : jt) : proper t -> clusters t = [] -> exists lg x a, t = JScan lg x a.
  Proof.
    destruct t as [lg|lg x a|lg o i a]; intros P H; [exfalso; apply (P lg); apply subtree_refl|eauto|]. pose proof (root_cluster lg o i a) as K. rewrite H in K. destruct K.
  Qed.
  Lemma clusters_root (t u : jt) : proper t -> (forall c, In c (clusters t) <-> In c (clusters u)) -> clusters t <> [] -> incl (jt_tables t) (jt_tables u).
  Proof.
    intros P H N x Hx. destruct t as [lg|lg y a|lg o i a]; [exfalso; now apply N..|].
    eapply cluster_sub; [apply H; apply root_cluster|]. now apply mkfs_In.
  Qed.
End BottomUp.

(** ** Top-down similarity *)
Section TopDown.
  Context {A : Type} (symm : bool) (g : Q).
  Notation jt := (jt nat A).
  Lemma jac_ok (a b : jt) : proper a -> exists q, jac a b = Ok q /\ (0 <= q <= 1)%Q /\ ((q == 1)%Q <-> seteq (jt_tables a) (jt_tables b)).
  Proof. intros P. apply jaccard_ok. left. destruct (proper_ne a P) as [x Hx]. intros E. rewrite E in Hx. destruct Hx. Qed.
  Lemma jac_sym (a b : jt) : jac a b = jac b a.
  Proof. apply jaccard_sym. Qed.
  Lemma qmax_comm a b : (qmax a b == qmax b a)%Q.
  Proof.
    unfold qmax. destruct (Qle_bool b a) eqn:E, (Qle_bool a b) eqn:F; try reflexivity.
    - apply Qle_bool_iff in E, F. now apply Qle_antisym.
    - exfalso. destruct (Qlt_le_dec a b) as [H|H]; [apply Qlt_le_weak in H; apply Qle_bool_iff in H; congruence|apply Qle_bool_iff in H; congruence].
  Qed.
  Lemma qmax_ge a b : (a <= qmax a b)%Q /\ (b <= qmax a b)%Q.
  Proof.
    unfold qmax. destruct (Qle_bool b a) eqn:E.
    - apply Qle_bool_iff in E. split; [apply Qle_refl|assumption].
    - split; [|apply Qle_refl]. destruct (Qlt_le_dec a b) as [H|H]; [now apply Qlt_le_weak|]. apply Qle_bool_iff in H. congruence.
  Qed.
  Lemma qmax_compat a b c d : (a == c -> b == d -> qmax a b == qmax c d)%Q.
  Proof.
    intros H K. unfold qmax. destruct (Qle_bool b a) eqn:E, (Qle_bool d c) eqn:F; try assumption; exfalso.
    - apply Qle_bool_iff in E. rewrite H, K in E. apply Qle_bool_iff in E. congruence.
    - apply Qle_bool_iff in F. rewrite <- H, <- K in F. apply Qle_bool_iff in F. congruence.
  Qed.
  Lemma not_single (t : jt) : proper t -> (length (jt_tables t) =? 1) = false -> exists lg o i a, t = JJoin lg o i a /\ proper o /\ proper i.
  Proof.
    intros P H. destruct t as [lg|lg x a|lg o i a]; [exfalso; apply (P lg); apply subtree_refl|discriminate|]. apply proper_join in P. exists lg, o, i, a. tauto.
  Qed.
  Definition norm (a b : jt) : Q := (1 / inject_Z (Z.of_nat (total (jt_tables a) (jt_tables b))))%Q.
  Lemma total_pos (a b : jt) : proper a -> 0 < total (jt_tables a) (jt_tables b).
  Proof.
    intros P. destruct (total (jt_tables a) (jt_tables b)) eqn:E; [|lia]. apply total_zero in E. destruct (proper_ne a P) as [x Hx]. rewrite (proj1 E) in Hx. destruct Hx.
  Qed.
  Lemma norm_pos (a b : jt) : proper a -> (0 < norm a b)%Q.
  Proof.
    intros P. pose proof (total_pos a b P). unfold norm. apply Qlt_shift_div_l; [change 0%Q with (inject_Z 0); rewrite <- Zlt_Qlt; lia|]. now rewrite Qmult_0_l.
  Qed.
  Definition td := topdown (A := A) symm g.
  Lemma topdown_eq (a b : jt) : td a b =
    if total (jt_tables a) (jt_tables b) =? 0 then Raise ZeroDivisionError
    else if (length (jt_tables a) =? 1) && (length (jt_tables b) =? 1) then Ok (if seteqb (jt_tables a) (jt_tables b) then 1 else 0)%Q
    else if length (jt_tables a) =? 1 then leaf_score (norm a b) a b
    else if length (jt_tables b) =? 1 then leaf_score (norm a b) b a
    else match a with
         | JJoin _ ao ai _ =>
             match b with
             | JJoin _ bo bi _ =>
                 rbind (jac ai bi) (fun s1 => rbind (jac ao bo) (fun s2 =>
                 rbind (if symm then rbind (jac ai bo) (fun c1 => rmap (fun c2 => (c1 + c2)%Q) (jac ao bi)) else Ok 0%Q) (fun cross =>
                 let sym := (s1 + s2)%Q in
                 rbind (if symm && negb (Qle_bool cross sym)
                        then rbind (td ai bo) (fun x => rmap (fun y => (x + y)%Q) (td ao bi))
                        else rbind (td ai bi) (fun x => rmap (fun y => (x + y)%Q) (td ao bo))) (fun child =>
                 Ok (norm a b * qmax sym cross + g * child)%Q))))
             | _ => Raise StateError
             end
         | _ => Raise StateError
         end.
  Proof. unfold td, norm, total. destruct a; cbn [topdown]; destruct (length (dedup _)); reflexivity. Qed.
  Lemma norm_sym (a b : jt) : norm a b = norm b a.
  Proof. unfold norm. now rewrite total_sym. Qed.
  Lemma seteqb_sym {T} {E : EqD T} (l m : list T) : seteqb l m = seteqb m l.
  Proof. unfold seteqb. apply andb_comm. Qed.
  Lemma leaf_ok n (leaf t : jt) lg o i a : (0 < n)%Q -> proper leaf -> t = JJoin lg o i a -> exists q, leaf_score n leaf t = Ok q /\ (0 <= q)%Q.
  Proof.
    intros Hn P ->. unfold leaf_score. cbn [inner_of outer_of rbind]. destruct (jac_ok leaf i P) as (x & -> & [Hx _] & _). cbn [rbind].
    destruct (jac_ok leaf o P) as (y & -> & [Hy _] & _). cbn [rbind]. eexists. split; [reflexivity|].
    apply Qmult_le_0_compat; [now apply Qlt_le_weak|]. eapply Qle_trans; [exact Hx|apply qmax_ge].
  Qed.
  Lemma Qle_bool_compat a b c d : (a == c)%Q -> (b == d)%Q -> Qle_bool a b = Qle_bool c d.
  Proof.
    intros H K. destruct (Qle_bool a b) eqn:E, (Qle_bool c d) eqn:F; try reflexivity; exfalso.
    - apply Qle_bool_iff in E. rewrite H, K in E. apply Qle_bool_iff in E. congruence.
    - apply Qle_bool_iff in F. rewrite <- H, <- K in F. apply Qle_bool_iff in F. congruence.
  Qed.
  Lemma topdown_ok (a : jt) : forall b : jt, proper a -> proper b ->
    exists q q', td a b = Ok q /\ td b a = Ok q' /\ (q == q')%Q /\ ((0 <= g)%Q -> (0 <= q)%Q).
  Proof.
    induction a as [lg|lg x e|lg o IHo i IHi e]; intros b Pa Pb; [exfalso; apply (Pa lg); apply subtree_refl| |].
    - rewrite (topdown_eq _ b), (topdown_eq b). rewrite (total_sym (jt_tables b)). pose proof (total_pos _ b Pa) as T.
      destruct (Nat.eqb_spec (total (jt_tables (JScan lg x e)) (jt_tables b)) 0); [lia|]. change (length (jt_tables (JScan lg x e)) =? 1) with true. cbn [andb].
      rewrite andb_true_r. destruct (length (jt_tables b) =? 1) eqn:L.
      + eexists _, _. split; [reflexivity|]. split; [reflexivity|]. rewrite (seteqb_sym (jt_tables b)). split; [reflexivity|]. intros _. destruct (seteqb _ _); discriminate.
      + destruct (not_single b Pb L) as (l & o & i & f & -> & _ & _). destruct (leaf_ok (norm (JScan lg x e) (JJoin l o i f)) _ _ l o i f (norm_pos _ (JJoin l o i f) Pa) Pa eq_refl) as (q & E & Hq).
        exists q, q. rewrite (norm_sym (JJoin l o i f)). rewrite E. split; [reflexivity|]. split; [reflexivity|]. split; [reflexivity|auto].
    - pose proof Pa as Pa'. apply proper_join in Pa'. destruct Pa' as [Po Pi].
      rewrite (topdown_eq _ b), (topdown_eq b). rewrite (total_sym (jt_tables b)). pose proof (total_pos _ b Pa) as T.
      destruct (Nat.eqb_spec (total (jt_tables (JJoin lg o i e)) (jt_tables b)) 0); [lia|].
      destruct (length (jt_tables (JJoin lg o i e)) =? 1) eqn:La; cbn [andb].
      + rewrite andb_true_r. destruct (length (jt_tables b) =? 1) eqn:L.
        * eexists _, _. split; [reflexivity|]. split; [reflexivity|]. rewrite (seteqb_sym (jt_tables b)). split; [reflexivity|]. intros _. destruct (seteqb _ _); discriminate.
        * destruct (not_single b Pb L) as (l & o' & i' & f & -> & _ & _).
          destruct (leaf_ok (norm (JJoin lg o i e) (JJoin l o' i' f)) _ _ l o' i' f (norm_pos _ (JJoin l o' i' f) Pa) Pa eq_refl) as (q & E & Hq).
          exists q, q. rewrite (norm_sym (JJoin l o' i' f)). rewrite E. split; [reflexivity|]. split; [reflexivity|]. split; [reflexivity|auto].
      + rewrite andb_false_r. destruct (length (jt_tables b) =? 1) eqn:L.
        * destruct (leaf_ok (norm (JJoin lg o i e) b) b _ lg o i e (norm_pos _ b Pa) Pb eq_refl) as (q & E & Hq).
          exists q, q. rewrite (norm_sym b). rewrite E. split; [reflexivity|]. split; [reflexivity|]. split; [reflexivity|auto].
        * destruct (not_single b Pb L) as (l & o' & i' & f & -> & Po' & Pi').
          destruct (IHi i' Pi Pi') as (q1 & r1 & A1 & B1 & E1 & N1). destruct (IHo o' Po Po') as (q2 & r2 & A2 & B2 & E2 & N2).
          destruct (IHi o' Pi Po') as (q3 & r3 & A3 & B3 & E3 & N3). destruct (IHo i' Po Pi') as (q4 & r4 & A4 & B4 & E4 & N4).
          rewrite (jac_sym i' i), (jac_sym o' o), (jac_sym i' o), (jac_sym o' i).
          destruct (jac_ok i i' Pi) as (s1 & -> & [S1 _] & _). destruct (jac_ok o o' Po) as (s2 & -> & [S2 _] & _). 
          destruct (jac_ok i o' Pi) as (c1 & -> & [C1 _] & _). destruct (jac_ok o i' Po) as (c2 & -> & [C2 _] & _). cbn [rbind rmap].
          rewrite A1, A2, A3, A4, B1, B2, B3, B4. cbn [rbind rmap].
          pose proof (norm_pos _ (JJoin l o' i' f) Pa) as NP. rewrite (norm_sym (JJoin l o' i' f)). set (nn := norm _ _) in *. 
          assert (M : (0 <= s1 + s2)%Q) by (rewrite <- (Qplus_0_l 0); now apply Qplus_le_compat).
          assert (NN : forall z c, (0 <= g -> 0 <= c -> 0 <= nn * qmax (s1 + s2) z + g * c)%Q).
          { intros z c Hg Hc. rewrite <- (Qplus_0_l 0). apply Qplus_le_compat; apply Qmult_le_0_compat; auto; [now apply Qlt_le_weak|]. eapply Qle_trans; [exact M|apply qmax_ge]. }
          destruct symm; cbn [rbind andb].
          -- rewrite (Qle_bool_compat (c2 + c1) (s1 + s2) (c1 + c2) (s1 + s2)) by (try reflexivity; apply Qplus_comm).
             assert (X : (qmax (s1 + s2) (c1 + c2) == qmax (s1 + s2) (c2 + c1))%Q) by (apply qmax_compat; [reflexivity|apply Qplus_comm]).
             destruct (negb (Qle_bool (c1 + c2) (s1 + s2))).
             ++ eexists _, _. split; [reflexivity|]. split; [reflexivity|]. split; [rewrite X, E3, E4, (Qplus_comm r3 r4); reflexivity|].
                intros Hg. apply NN; [assumption|]. rewrite <- (Qplus_0_l 0). apply Qplus_le_compat; auto.
             ++ eexists _, _. split; [reflexivity|]. split; [reflexivity|]. split; [rewrite X, E1, E2; reflexivity|].
                intros Hg. apply NN; [assumption|]. rewrite <- (Qplus_0_l 0). apply Qplus_le_compat; auto.
          -- eexists _, _. split; [reflexivity|]. split; [reflexivity|]. split; [rewrite E1, E2; reflexivity|].
             intros Hg. apply NN; [assumption|]. rewrite <- (Qplus_0_l 0). apply Qplus_le_compat; auto.
  Qed.
  Lemma two_tables lg o i (a : A) : plain (JJoin lg o i a) -> (length (jt_tables (JJoin lg o i a)) =? 1) = false.
  Proof.
    intros P. destruct (plain_join _ _ _ _ P) as (Po & Pi & D). destruct (proper_ne o (proj1 Po)) as [x Hx]. destruct (proper_ne i (proj1 Pi)) as [y Hy].
    apply Nat.eqb_neq. intros L. destruct (jt_tables (JJoin lg o i a)) as [|z [|? ?]] eqn:E; try discriminate.
    assert (x = z) by (assert (K : In x (jt_tables (JJoin lg o i a))) by (apply tables_join; now left); rewrite E in K; destruct K as [K|[]]; auto).
    assert (y = z) by (assert (K : In y (jt_tables (JJoin lg o i a))) by (apply tables_join; now right); rewrite E in K; destruct K as [K|[]]; auto).
    subst. eauto.
  Qed.
  Lemma topdown_self (t : jt) : plain t -> (1 <= g)%Q -> exists q, td t t = Ok q /\ (1 <= q)%Q /\ (jt_is_scan t = false -> (2 < q)%Q).
  Proof.
    intros P Hg. induction t as [lg|lg x e|lg o IHo i IHi e]; [exfalso; apply (proj1 P lg); apply subtree_refl| |].
    - exists 1%Q. split; [|split; [apply Qle_refl|discriminate]]. rewrite topdown_eq. pose proof (total_pos _ (JScan lg x e) (proj1 P)) as T.
      destruct (Nat.eqb_spec (total (jt_tables (JScan lg x e)) (jt_tables (JScan lg x e))) 0); [lia|].
      rewrite (proj2 (seteqb_seteq _ _) (seteq_refl _)). reflexivity.
    - destruct (plain_join _ _ _ _ P) as (Po & Pi & D). destruct (IHo Po) as (q1 & E1 & H1 & _). destruct (IHi Pi) as (q2 & E2 & H2 & _).
      pose proof (total_pos _ (JJoin lg o i e) (proj1 P)) as T. pose proof (norm_pos _ (JJoin lg o i e) (proj1 P)) as NP.
      rewrite topdown_eq. destruct (Nat.eqb_spec (total (jt_tables (JJoin lg o i e)) (jt_tables (JJoin lg o i e))) 0); [lia|].
      rewrite (two_tables lg o i e P). cbn [andb].
      destruct (jac_ok i i (proj1 Pi)) as (s1 & -> & _ & S1). destruct (jac_ok o o (proj1 Po)) as (s2 & -> & _ & S2).
      pose proof (proj2 S1 (seteq_refl _)) as S1'. pose proof (proj2 S2 (seteq_refl _)) as S2'.
      destruct (jac_ok i o (proj1 Pi)) as (c1 & -> & [_ C1] & _). destruct (jac_ok o i (proj1 Po)) as (c2 & -> & [_ C2] & _). cbn [rbind rmap].
      set (nn := norm _ _) in *. 
      assert (K : forall z c, (2 <= c -> 2 < nn * qmax (s1 + s2) z + g * c)%Q).
      { intros z c Hc. destruct (qmax_ge (s1 + s2) z) as [Q1 _]. assert (M : (0 < qmax (s1 + s2) z)%Q) by (eapply Qlt_le_trans; [|exact Q1]; rewrite S1', S2'; reflexivity).
        assert (M2 : (0 < nn * qmax (s1 + s2) z)%Q) by (apply Qmult_lt_0_compat; assumption). generalize dependent (nn * qmax (s1 + s2) z)%Q. intros w Hw. nra. }
      assert (F : negb (Qle_bool (c1 + c2) (s1 + s2)) = false).
      { apply negb_false_iff, Qle_bool_iff. rewrite S1', S2'. now apply Qplus_le_compat. }
      destruct symm; cbn [rbind andb]; [rewrite F|]; rewrite E1, E2; cbn [rbind rmap]; (eexists; split; [reflexivity|]; split; [apply Qlt_le_weak; eapply Qlt_trans; [|apply K; lra]; reflexivity|intros _; apply K; lra]).
  Qed.
End TopDown.

(** ** Catalan numbers *)
Lemma binom_0 n : binom n 0 = 1.
Proof. destruct n; reflexivity. Qed.
Lemma binom_gt n : forall k, n < k -> binom n k = 0.
Proof. induction n as [|n IH]; intros [|k] H; try lia; [reflexivity|]. cbn [binom]. rewrite !IH by lia. reflexivity. Qed.
Lemma binom_step n : forall k, k <= n -> (S k) * binom n (S k) = (n - k) * binom n k.
Proof.
  induction n as [|n IH]; intros k H.
  - assert (k = 0) by lia. subst. reflexivity.
  - destruct (Nat.eq_dec k (S n)) as [->|Hk].
    + rewrite (binom_gt (S n) (S (S n))) by lia. rewrite Nat.sub_diag. lia.
    + cbn [binom]. rewrite Nat.mul_add_distr_l. rewrite (IH k) by lia. destruct k as [|k].
      * rewrite !binom_0. lia.
      * change (binom (S n) (S k)) with (binom n k + binom n (S k)). pose proof (IH k ltac:(lia)) as E.
        replace (S n - S k) with (n - k) by lia. replace (n - k) with (S (n - S k)) in * by lia. nia.
Qed.
Lemma comb_binom n k : k <= n -> comb (Z.of_nat n) k = Z.of_nat (binom n k).
Proof.
  induction k as [|k IH]; intros H; [rewrite binom_0; reflexivity|]. cbn [comb]. rewrite IH by lia.
  symmetry. apply Z.div_unique_exact; [lia|]. pose proof (binom_step n k ltac:(lia)) as E. nia.
Qed.
Lemma catalan_mul n : catalan n * S n = binom (2 * n) n.
Proof.
  unfold catalan. pose proof (binom_step (2 * n) n ltac:(lia)) as E. replace (2 * n - n) with n in E by lia. nia.
Qed.
Lemma catalan_ok n : (Z.of_nat (catalan n) < 2 ^ 53)%Z -> catalan_number n = Ok (Z.of_nat (catalan n)).
Proof.
  intros H. unfold catalan_number. replace (2 * Z.of_nat n)%Z with (Z.of_nat (2 * n)) by lia. rewrite comb_binom by lia. rewrite <- catalan_mul.
  set (c := Z.of_nat (catalan n)) in *. assert (E : Z.of_nat (catalan n * S n) = (c * (Z.of_nat n + 1))%Z) by (unfold c; nia). rewrite E.
  assert (0 <= c)%Z by (unfold c; lia).
  destruct (fl_between (c * (Z.of_nat n + 1)) (Z.of_nat n + 1) c c) as (m & e & -> & L); [lia|nia|lia|]. f_equal. apply rhe_exact; [apply fden_pos|lia].
Qed.

(** ** Star queries *)
Section StarP.
  Context {F D : Type} (pk : F -> nat).
  Definition matches (f : F) (d : @dimension F D) : nat := length (filter (d_on d f) (d_rows d)).
  Lemma length_flat_map {X Y} (f : X -> list Y) (n : nat) l : (forall x, In x l -> length (f x) = n) -> length (flat_map f l) = length l * n.
  Proof. induction l as [|x l IH]; intros H; [reflexivity|]. cbn. rewrite app_length, IH, (H x) by (try (intros; apply H; now right); now left). lia. Qed.
  Lemma star_rows_length f dims : length (star_rows f dims) = fold_right Nat.mul 1 (map (matches f) dims).
  Proof.
    induction dims as [|d r IH]; [reflexivity|]. cbn [star_rows map fold_right]. rewrite (length_flat_map _ (length (star_rows f r))); [|intros; apply map_length].
    rewrite IH. reflexivity.
  Qed.
  Lemma star_join_length facts dims : length (star_join facts dims) = list_sum (map (fun f => fold_right Nat.mul 1 (map (matches f) dims)) facts).
  Proof.
    unfold star_join. induction facts as [|f r IH]; [reflexivity|]. cbn [flat_map map list_sum fold_right]. rewrite app_length, map_length, star_rows_length, IH. reflexivity.
  Qed.
  Lemma filter_prod facts (d : @dimension F D) id :
    dimension_card pk facts id d = list_sum (map (fun f => if pk f =? id then matches f d else 0) facts).
  Proof.
    unfold dimension_card. induction facts as [|f r IH]; [reflexivity|]. cbn [list_prod]. rewrite filter_app, app_length, IH. cbn [map list_sum fold_right]. f_equal.
    unfold matches. clear IH. induction (d_rows d) as [|x l IHl]; [cbn; destruct (pk f =? id); reflexivity|]. cbn [map filter fst snd].
    destruct (pk f =? id) eqn:E; cbn [andb].
    - destruct (d_on d f x); cbn [length]; rewrite IHl; reflexivity.
    - rewrite IHl. reflexivity.
  Qed.
  Lemma sum_zero {X} (l : list X) g : (forall x, In x l -> g x = 0) -> list_sum (map g l) = 0.
  Proof. induction l as [|x l IH]; intros H; [reflexivity|]. cbn. rewrite (H x) by now left. apply IH. intros; apply H; now right. Qed.
  Lemma unique_card facts d f : NoDup (map pk facts) -> In f facts -> dimension_card pk facts (pk f) d = matches f d.
  Proof.
    intros N. rewrite filter_prod. induction facts as [|g r IH]; intros Hf; [destruct Hf|]. cbn in N. inversion N; subst. cbn [map list_sum fold_right].
    destruct Hf as [->|Hf].
    - rewrite Nat.eqb_refl. change (fold_right Nat.add 0) with list_sum. rewrite sum_zero; [lia|]. intros x Hx. destruct (Nat.eqb_spec (pk x) (pk f)) as [E|]; [|reflexivity].
      exfalso. apply H1. rewrite <- E. now apply in_map.
    - change (fold_right Nat.add 0) with list_sum. rewrite IH by assumption. destruct (Nat.eqb_spec (pk g) (pk f)) as [E|]; [|reflexivity]. exfalso. apply H1. rewrite E. now apply in_map.
  Qed.
  Lemma unique_count facts f : NoDup (map pk facts) -> In f facts -> length (filter (fun g => pk g =? pk f) facts) = 1.
  Proof.
    induction facts as [|g r IH]; intros N Hf; [destruct Hf|]. cbn in N. inversion N; subst. cbn [filter]. destruct Hf as [->|Hf].
    - rewrite Nat.eqb_refl. cbn [length]. f_equal. apply length_zero_iff_nil. destruct (filter _ r) as [|x l] eqn:E; [reflexivity|]. exfalso.
      assert (K : In x (filter (fun g => pk g =? pk f) r)) by (rewrite E; now left). apply filter_In in K. destruct K as [K1 K2]. apply Nat.eqb_eq in K2. apply H1. rewrite <- K2. now apply in_map.
    - destruct (Nat.eqb_spec (pk g) (pk f)) as [E|]; [exfalso; apply H1; rewrite E; now apply in_map|]. now apply IH.
  Qed.
  Lemma star_id_prod facts f dims : NoDup (map pk facts) -> In f facts -> forall c, star_id pk facts (pk f) c dims = c * fold_right Nat.mul 1 (map (matches f) dims).
  Proof.
    intros N Hf. induction dims as [|d r IH]; intros c; [cbn; lia|]. cbn [star_id map fold_right]. destruct (Nat.eqb_spec c 0) as [->|]; [reflexivity|].
    rewrite IH, unique_card by assumption. lia.
  Qed.
  Lemma dedup_id {X} {E : EqD X} (l : list X) : NoDup l -> dedup l = l.
  Proof.
    induction l as [|x l IH]; intros N; [reflexivity|]. inversion N; subst. cbn [dedup]. destruct (mem x l) eqn:M; [apply mem_In in M; contradiction|]. now rewrite IH.
  Qed.
  Lemma list_sum_perm l m : Permutation l m -> list_sum l = list_sum m.
  Proof. unfold list_sum. induction 1; cbn [fold_right]; lia. Qed.
  Lemma star_ok order facts (dims : list (@dimension F D)) : (forall l, Permutation (order l) l) -> NoDup (map pk facts) -> length facts <> 1 ->
    star_cardinality pk order facts dims = Ok (length (star_join facts dims)).
  Proof.
    intros O N L. unfold star_cardinality. set (l := id_vals pk order facts).
    assert (E : Permutation (map (fun '(id, c) => star_id pk facts id c dims) l) (map (fun f => fold_right Nat.mul 1 (map (matches f) dims)) facts)).
    { unfold l, id_vals. rewrite map_map. rewrite (dedup_id _ N). eapply Permutation_trans; [apply Permutation_map, O|]. rewrite map_map.
      erewrite map_ext_in; [apply Permutation_refl|]. intros f Hf. rewrite star_id_prod, unique_count by assumption. lia. }
    assert (Len : length l = length facts) by (rewrite <- (map_length (fun '(id, c) => star_id pk facts id c dims)), (Permutation_length E); apply map_length).
    rewrite star_join_length, <- (list_sum_perm _ _ E). destruct l as [|x [|y r]]; [reflexivity|cbn in Len; lia|reflexivity].
  Qed.
  Lemma star_single order f (dims : list (@dimension F D)) : (forall l, Permutation (order l) l) -> star_cardinality (D := D) pk order [f] dims = Raise TypeError.
  Proof.
    intros O. unfold star_cardinality, id_vals. cbn [map dedup mem existsb]. pose proof (O [pk f]) as P. apply Permutation_sym, Permutation_length_1_inv in P. rewrite P. reflexivity.
  Qed.
End StarP.
