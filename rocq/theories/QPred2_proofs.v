(** Lemmas about QueryPredicates.joins_between (map based). *)
From Coq Require Import List Bool Arith Lia Sorted.
From Verif Require Import PyBase Pred_model Pred_spec Pred_proofs Graph QPred_model QPred_spec QPred_proofs.
Import ListNotations.

(** ** Canonical keys *)
Lemma sins_In x l y : In y (sins x l) <-> y = x \/ In y l.
Proof.
  induction l as [|z l IH]; cbn [sins].
  - cbn. intuition.
  - destruct (Nat.ltb_spec x z) as [Hlt|Hge]; [cbn; intuition|].
    destruct (Nat.eqb_spec x z) as [->|Hne]; [cbn; intuition|]. cbn [In]. rewrite IH. intuition.
Qed.
Lemma sins_sorted x l : StronglySorted lt l -> StronglySorted lt (sins x l).
Proof.
  induction 1 as [|z l Hs IH Hf]; cbn [sins]; [repeat constructor|]. rewrite Forall_forall in Hf.
  destruct (Nat.ltb_spec x z) as [Hlt|Hge].
  - constructor; [constructor; [assumption|now apply Forall_forall]|]. constructor; [assumption|].
    rewrite Forall_forall. intros w Hw. specialize (Hf w Hw). lia.
  - destruct (Nat.eqb_spec x z) as [->|Hne]; [constructor; [assumption|now apply Forall_forall]|].
    constructor; [assumption|]. rewrite Forall_forall. intros w Hw. apply sins_In in Hw as [->|Hw]; [lia|auto].
Qed.
Lemma fset_In l y : In y (fset l) <-> In y l.
Proof. unfold fset. induction l as [|x l IH]; cbn; [tauto|]. rewrite sins_In, IH. intuition. Qed.
Lemma fset_sorted l : StronglySorted lt (fset l).
Proof. unfold fset. induction l as [|x l IH]; cbn; [constructor|now apply sins_sorted]. Qed.
Lemma sorted_ext l m : StronglySorted lt l -> StronglySorted lt m -> seteq l m -> l = m.
Proof.
  intros Hl. revert m. induction Hl as [|x l Hs IH Hf]; intros m Hm He.
  - destruct m as [|y m]; [reflexivity|]. exfalso. apply (He y). now left.
  - inversion Hm as [|y m' Hs' Hf']; subst; [exfalso; apply (He x); now left|].
    rewrite Forall_forall in Hf, Hf'.
    assert (x = y).
    { destruct (proj1 (He x) (or_introl eq_refl)) as [<-|H1]; [reflexivity|].
      destruct (proj2 (He y) (or_introl eq_refl)) as [<-|H2]; [reflexivity|].
      specialize (Hf y H2). specialize (Hf' x H1). lia. }
    subst y. f_equal. apply IH; [assumption|]. intros z. split; intros Hz.
    + destruct (proj1 (He z) (or_intror Hz)) as [<-|]; [|assumption]. specialize (Hf x Hz). lia.
    + destruct (proj2 (He z) (or_intror Hz)) as [<-|]; [|assumption]. specialize (Hf' x Hz). lia.
Qed.
Lemma fset_eq l m : fset l = fset m <-> seteq l m.
Proof.
  split.
  - intros H x. rewrite <- (fset_In l), <- (fset_In m), H. tauto.
  - intros H. apply sorted_ext; try apply fset_sorted. intros x. rewrite !fset_In. apply H.
Qed.

Section P.
  Context {E : Type} (ecols : E -> list col) (I : interp E).
  Notation pred := (pred E).

  (** A join between exactly two tables. *)
  Definition two_table (j : pred) : Prop :=
    (forall c, In c (pcols ecols j) -> c_tab c <> None) /\
    exists t u, t <> u /\ seteq (ptabs ecols j) [t; u] /\ links ecols t u j.

  Definition pkey (j : pred) (t : tbl) : list nat :=
    match join_partners_of ecols j t with Ok cs => fset (map (fun c => okey (c_tab c)) cs) | Raise _ => [] end.

  Definition getl {K V} {EK : EqD K} (d : dict K (list V)) (k : K) : list V :=
    match dget d k with Some l => l | None => [] end.

  Lemma group_joins_get t js : forall acc d, group_joins ecols t js acc = Ok d ->
    forall k, getl d k = getl acc k ++ filter (fun j => contains_table ecols j t && deqb (pkey j t) k) js.
  Proof.
    induction js as [|j js IH]; intros acc d; cbn [group_joins].
    - intros [= <-] k. now rewrite app_nil_r.
    - cbn [filter]. destruct (contains_table ecols j t) eqn:Hc; [|intros H k; cbn [andb]; now apply IH].
      destruct (join_partners_of ecols j t) as [cs|] eqn:Hj; cbn [rbind]; [|discriminate].
      intros H k. rewrite (IH _ _ H). unfold getl at 1. rewrite dset_spec. cbn [andb].
      assert (Hk : pkey j t = fset (map (fun c => okey (c_tab c)) cs)) by (unfold pkey; now rewrite Hj).
      rewrite Hk. unfold getl. destruct (eqd k (fset (map (fun c => okey (c_tab c)) cs))) as [->|Hn].
      + rewrite deqb_refl. rewrite <- app_assoc. reflexivity.
      + destruct (deqb_spec (fset (map (fun c => okey (c_tab c)) cs)) k); [congruence|]. reflexivity.
  Qed.

  Lemma group_joins_wf t js : forall acc d, dwf acc -> group_joins ecols t js acc = Ok d -> dwf d.
  Proof.
    induction js as [|j js IH]; intros acc d Hw; cbn [group_joins].
    - now intros [= <-].
    - destruct (contains_table ecols j t); [|now apply IH].
      destruct (join_partners_of ecols j t) as [cs|]; cbn [rbind]; [|discriminate]. apply IH. now apply dwf_dset.
  Qed.

  Lemma partner_cols p : forall l, join_partners ecols p = Ok l -> forall x y, In (x, y) l -> In x (pcols ecols p) /\ In y (pcols ecols p).
  Proof.
    assert (Hp : forall xs ys zs a b, incl xs zs -> incl ys zs -> In (a, b) (join_pairs xs ys) -> In a zs /\ In b zs).
    { intros xs ys zs a b Hx Hy H. apply In_join_pairs in H as (x & y & ? & ? & Hn & [E1|E1]); injection E1 as -> ->; auto. }
    assert (Hl : forall ps, Forall (fun p : pred => forall l, join_partners ecols p = Ok l -> forall x y, In (x, y) l -> In x (pcols ecols p) /\ In y (pcols ecols p)) ps ->
      forall l, (fix go l := match l with
               | [] => Ok []
               | q :: r => rbind (join_partners ecols q) (fun x => rbind (go r) (fun y => Ok (x ++ y)))
               end) ps = Ok l -> forall x y, In (x, y) l -> In x (flat_map (pcols ecols) ps) /\ In y (flat_map (pcols ecols) ps)).
    { induction 1 as [|q ps Hq _ IH]; intros l Hl x y Hxy.
      - injection Hl as <-. contradiction.
      - cbn in Hl. destruct (join_partners ecols q) as [a|] eqn:Ha; [|discriminate]. cbn in Hl.
        match type of Hl with rbind ?g _ = _ => destruct g as [b|] eqn:Hb; [|discriminate] end. cbn in Hl. injection Hl as <-.
        cbn. rewrite !in_app_iff. apply in_app_iff in Hxy as [H|H].
        + destruct (Hq a eq_refl x y H); auto.
        + destruct (IH b eq_refl x y H); auto. }
    induction p as [op a b|a lo hi|a vs|op a|p IH|ps IH|ps IH] using pred_ind'; intros l.
    - cbn [join_partners pcols]. destruct (is_join ecols _); [|discriminate]. intros [= <-] x y H. rewrite !in_app_iff in H.
      destruct H as [H|[H|H]]; eapply Hp; [..|exact H| | |exact H| | |exact H]; intros z Hz; rewrite !in_app_iff; auto.
    - cbn [join_partners pcols]. destruct (is_join ecols _); [|discriminate]. intros [= <-] x y H. rewrite !in_app_iff in H.
      destruct H as [H|[H|H]]; eapply Hp; [..|exact H| | |exact H| | |exact H]; intros z Hz; rewrite !in_app_iff; auto.
    - cbn [join_partners pcols]. destruct (is_join ecols _); [|discriminate]. intros [= <-] x y H. rewrite in_app_iff, in_flat_map in H.
      destruct H as [H|(v & Hv & H)].
      + eapply Hp; [| |exact H]; intros z Hz; rewrite in_app_iff; auto.
      + eapply Hp; [| |exact H]; intros z Hz; rewrite in_app_iff; auto. right. apply in_flat_map. eauto.
    - cbn [join_partners pcols]. intros [= <-] x y H. eapply Hp; [| |exact H]; apply incl_refl.
    - cbn [join_partners pcols]. apply IH.
    - cbn [join_partners pcols]. apply Hl, IH.
    - cbn [join_partners pcols]. apply Hl, IH.
  Qed.

  Lemma jpo_cols p t cs : join_partners_of ecols p t = Ok cs -> incl cs (pcols ecols p).
  Proof.
    unfold join_partners_of, rmap. destruct (join_partners ecols p) as [l|] eqn:Hl; cbn; [|discriminate]. intros [= <-] c Hc.
    unfold partners_of in Hc. apply in_flat_map in Hc as ([x y] & Hxy & Hc). destruct (partner_cols p l Hl x y Hxy).
    destruct (belongs_to x t); [destruct Hc as [<-|[]]; assumption|]. destruct (belongs_to y t); [destruct Hc as [<-|[]]; assumption|contradiction].
  Qed.

  Lemma links_tab p t u : links ecols t u p -> In t (ptabs ecols p).
  Proof. intros H. apply links_mentions in H. unfold contains_table in H. now apply mem_In. Qed.

  (** Key of a two-table join seen from one of its tables. *)
  Lemma two_table_key j t cs : two_table j -> join_partners_of ecols j t = Ok cs -> contains_table ecols j t = true ->
    exists u, t <> u /\ seteq (ptabs ecols j) [t; u] /\ seteq (map (fun c => okey (c_tab c)) cs) [S u].
  Proof.
    intros [Hb (a & b & Hab & Hts & Hlk)] Hcs Hc. unfold contains_table in Hc. apply mem_In in Hc.
    assert (exists u, t <> u /\ seteq (ptabs ecols j) [t; u] /\ links ecols t u j) as (u & Hn & Hs & Hl).
    { destruct (proj1 (Hts t) Hc) as [<-|[<-|[]]]; [exists b; auto|exists a]. split; [auto|]. split; [|now apply links_sym].
      intros x. rewrite (Hts x). simpl. tauto. }
    exists u. split; [assumption|]. split; [assumption|]. intros k. split.
    - intros H. apply in_map_iff in H as (c & <- & Hcc). assert (Hcol := jpo_cols j t cs Hcs c Hcc). specialize (Hb c Hcol).
      destruct (c_tab c) as [v|] eqn:Hv; [|congruence]. cbn. left. f_equal.
      assert (Htv : links ecols t v j) by (apply (jpo_links ecols j t cs Hcs); eauto).
      assert (In v (ptabs ecols j)) by (apply (links_tab j v t); now apply links_sym).
      apply Hs in H as [<-|[<-|[]]]; [|reflexivity]. now apply links_neq in Htv.
    - intros [<-|[]]. apply (jpo_links ecols j t cs Hcs) in Hl as (c & Hcc & Hu). apply in_map_iff. exists c. rewrite Hu. auto.
  Qed.

  Definition tabs_are (j : pred) (t u : tbl) : bool := seteqb (ptabs ecols j) [t; u].

  Lemma filter_ext_In {A} (f g : A -> bool) l : (forall x, In x l -> f x = g x) -> filter f l = filter g l.
  Proof. induction l as [|x l IH]; cbn; intros H; [reflexivity|]. rewrite (H x) by auto. rewrite IH by auto. reflexivity. Qed.

  Section Between.
    Context (js : list pred) (Htwo : forall j, In j js -> two_table j) (Hok : forall j, In j js -> jp_ok ecols j).

    Lemma pkey_two t u : t <> u -> forall j, In j js ->
      (contains_table ecols j t && deqb (pkey j t) [S u]) = tabs_are j t u.
    Proof.
      intros Hn j Hj. unfold tabs_are. destruct (contains_table ecols j t) eqn:Hc; cbn [andb].
      - destruct (proj2 (jpo_ok ecols j t) (Hok j Hj)) as [cs Hcs].
        destruct (two_table_key j t cs (Htwo j Hj) Hcs Hc) as (v & Hv & Hs & Hk).
        unfold pkey. rewrite Hcs. apply fset_eq in Hk. cbn in Hk. rewrite Hk.
        destruct (deqb_spec [S v] [S u]) as [E1|E1].
        + injection E1 as ->. symmetry. apply seteqb_seteq. assumption.
        + symmetry. apply not_true_iff_false. intros H. apply seteqb_seteq in H.
          assert (In v (ptabs ecols j)) by (apply Hs; simpl; auto). apply H in H0 as [->|[->|[]]]; congruence.
      - symmetry. apply not_true_iff_false. intros H. apply seteqb_seteq in H.
        assert (In t (ptabs ecols j)) by (apply H; simpl; auto). unfold contains_table in Hc. apply mem_nIn in Hc. contradiction.
    Qed.

    (** What joins_for(t) returns. *)
    Lemma joins_for_two t l : joins_for ecols js t = Ok l ->
      (forall g, In g l -> exists u, t <> u /\ create_and (filter (fun j => tabs_are j t u) js) = Ok g) /\
      (forall u j, t <> u -> In j js -> tabs_are j t u = true -> exists g, In g l /\ create_and (filter (fun j => tabs_are j t u) js) = Ok g).
    Proof.
      unfold joins_for. destruct (group_joins ecols t js []) as [d|] eqn:Hd; cbn [rbind]; [|discriminate]. intros Hl.
      pose proof (group_joins_get t js [] d Hd) as Hget. pose proof (group_joins_wf t js [] d (NoDup_nil _) Hd) as Hwf.
      pose proof (rmapM_In _ _ _ Hl) as HI.
      pose proof (group_joins_spec ecols t js []) as Hsp. rewrite Hd in Hsp. destruct Hsp as (_ & Hcont & Hne). specialize (Hne (Forall_nil _)).
      split.
      - intros g Hg. apply HI in Hg as (grp & Hgrp & Hc). unfold dvalues in Hgrp. apply in_map_iff in Hgrp as ([k grp'] & <- & Hk).
        cbn in Hc. assert (Hgk : getl d k = grp') by (unfold getl; rewrite (In_dget d k grp' Hwf Hk); reflexivity).
        rewrite Hget in Hgk. cbn in Hgk.
        assert (Hn : grp' <> []) by (rewrite Forall_forall in Hne; apply Hne; unfold dvalues; apply in_map_iff; exists (k, grp'); auto).
        destruct grp' as [|j0 rest]; [congruence|].
        assert (Hj0 : In j0 (filter (fun j => contains_table ecols j t && deqb (pkey j t) k) js)) by (rewrite Hgk; now left).
        apply filter_In in Hj0 as [Hj0 Hf]. apply andb_true_iff in Hf as [Hct Hkey]. apply deqb_true in Hkey.
        destruct (proj2 (jpo_ok ecols j0 t) (Hok j0 Hj0)) as [cs Hcs].
        destruct (two_table_key j0 t cs (Htwo j0 Hj0) Hcs Hct) as (u & Hu & Hs & Hkk).
        unfold pkey in Hkey. rewrite Hcs in Hkey. apply fset_eq in Hkk. cbn in Hkk. rewrite Hkk in Hkey. subst k.
        exists u. split; [assumption|]. rewrite <- Hc, <- Hgk. f_equal. apply filter_ext_In. intros j Hj. symmetry. now apply pkey_two.
      - intros u j Hu Hj Ht. specialize (Hget [S u]). cbn in Hget.
        rewrite (filter_ext_In _ (fun j => tabs_are j t u)) in Hget by (intros x Hx; now apply pkey_two).
        assert (Hin : In j (getl d [S u])) by (rewrite Hget; apply filter_In; auto).
        unfold getl in Hin, Hget. destruct (dget d [S u]) as [grp|] eqn:Hgrp; [|contradiction].
        assert (exists g, create_and grp = Ok g) as [g Hg].
        { destruct grp as [|a [|b r]]; [contradiction|cbn; eauto|cbn; eauto]. }
        exists g. split; [|rewrite <- Hget; exact Hg]. apply HI. exists grp. split; [|assumption].
        unfold dvalues. apply in_map_iff. exists ([S u], grp). split; [reflexivity|]. now apply dget_In.
    Qed.

    Definition grp (t u : tbl) : list pred := filter (fun j => tabs_are j t u) js.

    Lemma tabs_are_sym j t u : tabs_are j t u = tabs_are j u t.
    Proof.
      unfold tabs_are. destruct (seteqb (ptabs ecols j) [u; t]) eqn:H.
      - apply seteqb_seteq in H. apply seteqb_seteq. intros x. rewrite (H x). simpl. tauto.
      - apply not_true_iff_false. intros H'. apply seteqb_seteq in H'. apply not_true_iff_false in H. apply H.
        apply seteqb_seteq. intros x. rewrite (H' x). simpl. tauto.
    Qed.
    Lemma grp_sym t u : grp t u = grp u t.
    Proof. apply filter_ext_In. intros j _. apply tabs_are_sym. Qed.

    (** The map only holds complete two-table groups. *)
    Definition map_inv (m : dict (list nat) pred) : Prop :=
      forall K g, dget m K = Some g -> exists t u, t <> u /\ K = fset [S t; S u] /\ create_and (grp t u) = Ok g.

    Lemma group_key t u g cs : t <> u -> create_and (grp t u) = Ok g -> join_partners_of ecols g t = Ok cs ->
      fset (okey (Some t) :: map (fun c => okey (c_tab c)) cs) = fset [S t; S u].
    Proof.
      intros Hn Hg Hcs. apply fset_eq. intros k.
      assert (Hgl : forall v, links ecols t v g <-> v = u).
      { intros v. rewrite (create_and_links ecols _ _ t v Hg). split.
        - intros (j & Hj & Hl). apply filter_In in Hj as [Hj Ht]. apply seteqb_seteq in Ht.
          assert (Hv : In v (ptabs ecols j)) by (apply (links_tab j v t); now apply links_sym).
          apply Ht in Hv as [<-|[<-|[]]]; [now apply links_neq in Hl|reflexivity].
        - intros ->. destruct (grp t u) as [|j r] eqn:Hgr; [discriminate|]. exists j. split; [now left|].
          assert (Hj : In j (grp t u)) by (rewrite Hgr; now left). apply filter_In in Hj as [Hj Ht].
          destruct (Htwo j Hj) as [_ (a & b & Hab & Hts & Hlk)]. apply seteqb_seteq in Ht.
          assert (Ha : In a [t; u]) by (apply Ht, Hts; simpl; auto). assert (Hb : In b [t; u]) by (apply Ht, Hts; simpl; auto).
          destruct Ha as [<-|[<-|[]]], Hb as [<-|[<-|[]]]; try congruence. now apply links_sym. }
      assert (Hcols : forall c, In c cs -> c_tab c <> None).
      { intros c Hc. apply (jpo_cols g t cs Hcs) in Hc.
        assert (exists j, In j (grp t u) /\ In c (pcols ecols j)) as (j & Hj & Hcj).
        { destruct (grp t u) as [|x [|y r]]; cbn in Hg; [discriminate|injection Hg as <-; exists x; simpl; auto|injection Hg as <-].
          change (In c (flat_map (pcols ecols) (x :: y :: r))) in Hc. apply in_flat_map in Hc. exact Hc. }
        apply filter_In in Hj as [Hj _]. destruct (Htwo j Hj) as [Hb _]. auto. }
      split.
      - intros [<-|Hk]; [now left|]. apply in_map_iff in Hk as (c & <- & Hc). destruct (c_tab c) as [v|] eqn:Hv; [|exfalso; now apply (Hcols c Hc)].
        assert (links ecols t v g) by (apply (jpo_links ecols g t cs Hcs); eauto). apply Hgl in H as ->. simpl. auto.
      - intros [<-|[<-|[]]]; [now left|right]. assert (Hl : links ecols t u g) by now apply Hgl.
        destruct (proj2 (jpo_links ecols g t cs Hcs u) Hl) as (c & Hc & Hu). apply in_map_iff. exists c. rewrite Hu. auto.
    Qed.

    Lemma map_add_inv t l : forall m m', (forall g, In g l -> exists u, t <> u /\ create_and (grp t u) = Ok g) ->
      map_inv m -> map_add ecols t l m = Ok m' ->
      map_inv m' /\ (forall K, dmem m K = true -> dmem m' K = true) /\
      (forall u g, t <> u -> In g l -> create_and (grp t u) = Ok g -> dmem m' (fset [S t; S u]) = true).
    Proof.
      induction l as [|g l IH]; intros m m' Hl Hm; cbn [map_add].
      - intros [= <-]. split; [assumption|]. split; [auto|intros ? ? ? []].
      - destruct (join_partners_of ecols g t) as [cs|] eqn:Hcs; cbn [rbind]; [|discriminate].
        destruct (Hl g (or_introl eq_refl)) as (u & Hu & Hg). rewrite (group_key t u g cs Hu Hg Hcs). intros H.
        set (m1 := if dmem m (fset [S t; S u]) then m else dset m (fset [S t; S u]) g) in *.
        assert (Hm1 : map_inv m1).
        { unfold m1. destruct (dmem m (fset [S t; S u])) eqn:Hd; [assumption|]. intros K g'. rewrite dset_spec.
          destruct (eqd K (fset [S t; S u])) as [->|]; [intros [= <-]; exists t, u; auto|apply Hm]. }
        assert (Hmono : forall K, dmem m K = true -> dmem m1 K = true).
        { intros K HK. unfold m1. destruct (dmem m (fset [S t; S u])); [assumption|]. unfold dmem. rewrite dset_spec.
          destruct (eqd K (fset [S t; S u])); [reflexivity|exact HK]. }
        assert (Hhere : dmem m1 (fset [S t; S u]) = true).
        { unfold m1. destruct (dmem m (fset [S t; S u])) eqn:Hd; [assumption|]. unfold dmem. now rewrite dset_same. }
        destruct (IH m1 m' (fun g' Hg' => Hl g' (or_intror Hg')) Hm1 H) as (A & B & C). split; [assumption|]. split; [auto|].
        intros u' g' Hu' [<-|Hg'] Hgg; [|now apply (C u' g')].
        assert (fset [S t; S u'] = fset [S t; S u]) as ->; [|now apply B].
        rewrite <- (group_key t u' g cs Hu' Hgg Hcs). now apply group_key with (g := g).
    Qed.

    Lemma init_map_inv ts : forall m m', map_inv m -> init_map ecols js ts m = Ok m' ->
      map_inv m' /\ (forall K, dmem m K = true -> dmem m' K = true) /\
      (forall t u j, In t ts -> t <> u -> In j js -> tabs_are j t u = true -> dmem m' (fset [S t; S u]) = true).
    Proof.
      induction ts as [|t ts IH]; intros m m' Hm; cbn [init_map].
      - intros [= <-]. split; [assumption|]. split; [auto|intros ? ? ? []].
      - destruct (joins_for ecols js t) as [l|] eqn:Hl; cbn [rbind]; [|discriminate].
        destruct (joins_for_two t l Hl) as [H1 H2].
        destruct (map_add ecols t l m) as [m1|] eqn:Hm1; cbn [rbind]; [|discriminate]. intros H.
        destruct (map_add_inv t l m m1 H1 Hm Hm1) as (A & B & C). destruct (IH m1 m' A H) as (A' & B' & C').
        split; [assumption|]. split; [auto|]. intros t' u j [<-|Ht'] Hu Hj Ht; [|now apply (C' t' u j)].
        destruct (H2 u j Hu Hj Ht) as (g & Hg & Hgg). apply B'. now apply (C u g).
    Qed.

    Lemma joins_between_two ts m xs ys bj :
      (forall j t, In j js -> In t (ptabs ecols j) -> In t ts) -> query_predicates ecols js ts = Ok m ->
      (forall j, In j bj <-> In j js /\ exists x y, In x xs /\ In y ys /\ seteq (ptabs ecols j) [x; y]) ->
      (forall r, all3 (map (sem I r) (map_joins_between m xs ys)) = all3 (map (sem I r) bj)) /\
      (map_joins_between m xs ys = [] <-> bj = []).
    Proof.
      intros Hts Hm Hbj. unfold query_predicates in Hm.
      destruct (init_map_inv ts [] m (fun K g (H : dget [] K = Some g) => ltac:(discriminate)) Hm) as (Hinv & _ & Hcov).
      (* the groups found by joins_between *)
      assert (Hfound : forall g, In g (map_joins_between m xs ys) <-> exists x y, In x xs /\ In y ys /\ x <> y /\ create_and (grp x y) = Ok g).
      { intros g. unfold map_joins_between. rewrite in_flat_map. split.
        - intros (x & Hx & H). apply in_flat_map in H as (y & Hy & H).
          destruct (dget m (fset [okey (Some x); okey (Some y)])) as [g'|] eqn:Hg; [|contradiction]. destruct H as [<-|[]].
          destruct (Hinv _ _ Hg) as (t & u & Htu & HK & Hc). apply fset_eq in HK. cbn in HK.
          assert (Hxt : S x = S t \/ S x = S u) by (destruct (proj1 (HK (S x)) (or_introl eq_refl)) as [|[|[]]]; auto).
          assert (Hyt : S y = S t \/ S y = S u) by (destruct (proj1 (HK (S y)) (or_intror (or_introl eq_refl))) as [|[|[]]]; auto).
          assert (Ht : S t = S x \/ S t = S y) by (destruct (proj2 (HK (S t)) (or_introl eq_refl)) as [|[|[]]]; auto).
          assert (Hu : S u = S x \/ S u = S y) by (destruct (proj2 (HK (S u)) (or_intror (or_introl eq_refl))) as [|[|[]]]; auto).
          exists x, y. split; [assumption|]. split; [assumption|].
          destruct Hxt as [E1|E1], Hyt as [E2|E2]; injection E1 as ->; injection E2 as ->.
          + exfalso. destruct Hu as [E3|E3]; injection E3 as ->; congruence.
          + auto.
          + split; [auto|]. rewrite grp_sym. assumption.
          + exfalso. destruct Ht as [E3|E3]; injection E3 as ->; congruence.
        - intros (x & y & Hx & Hy & Hn & Hc). exists x. split; [assumption|]. apply in_flat_map. exists y. split; [assumption|].
          assert (Hmem : dmem m (fset [S x; S y]) = true).
          { destruct (grp x y) as [|j r] eqn:Hgr; [discriminate|]. assert (Hj : In j (grp x y)) by (rewrite Hgr; now left).
            apply filter_In in Hj as [Hj Ht]. apply (Hcov x y j); auto. apply (Hts j x Hj). apply seteqb_seteq in Ht. apply Ht. simpl. auto. }
          unfold dmem in Hmem. cbn [okey]. destruct (dget m (fset [S x; S y])) as [g'|] eqn:Hg; [|discriminate]. left.
          destruct (Hinv _ _ Hg) as (t & u & Htu & HK & Hc'). apply fset_eq in HK.
          assert (grp t u = grp x y) as Hgg.
          { apply filter_ext_In. intros j _. unfold tabs_are. destruct (seteqb (ptabs ecols j) [x; y]) eqn:Hs.
            - apply seteqb_seteq in Hs. apply seteqb_seteq. intros z. rewrite (Hs z). specialize (HK (S z)). cbn [In] in HK |- *. lia.
            - apply not_true_iff_false. intros Hs'. apply not_true_iff_false in Hs. apply Hs. apply seteqb_seteq in Hs'. apply seteqb_seteq.
              intros z. rewrite (Hs' z). specialize (HK (S z)). cbn [In] in HK |- *. lia. }
          rewrite Hgg in Hc'. congruence. }
      (* members of bj are exactly the members of those groups *)
      assert (Hmemb : forall j, In j bj <-> exists x y, In x xs /\ In y ys /\ x <> y /\ In j (grp x y)).
      { intros j. rewrite Hbj. split.
        - intros (Hj & x & y & Hx & Hy & Hs). exists x, y. split; [assumption|]. split; [assumption|]. split.
          + intros ->. destruct (Htwo j Hj) as [_ (a & b & Hab & Hts' & _)].
            assert (In a [y; y]) by (apply Hs, Hts'; simpl; auto). assert (In b [y; y]) by (apply Hs, Hts'; simpl; auto).
            destruct H as [<-|[<-|[]]], H0 as [<-|[<-|[]]]; congruence.
          + apply filter_In. split; [assumption|]. now apply seteqb_seteq.
        - intros (x & y & Hx & Hy & _ & Hj). apply filter_In in Hj as [Hj Ht]. apply seteqb_seteq in Ht. split; [assumption|]. eauto 6. }
      assert (Hsem : forall x y g, create_and (grp x y) = Ok g -> forall r, sem I r g = all3 (map (sem I r) (grp x y))).
      { intros x y g Hg r. destruct (create_and_ok ecols I (grp x y)) as (p & Hp & Hs & _); [intros E1; rewrite E1 in Hg; discriminate|].
        rewrite Hp in Hg. injection Hg as <-. apply Hs. }
      split.
      - intros r. destruct (all3 (map (sem I r) bj)) eqn:Hb.
        + apply all3_T. intros v Hv. apply in_map_iff in Hv as (g & <- & Hg). apply Hfound in Hg as (x & y & Hx & Hy & Hn & Hc).
          rewrite (Hsem x y g Hc). apply all3_T. intros v Hv. apply in_map_iff in Hv as (j & <- & Hj).
          apply (proj1 (all3_T _) Hb). apply in_map. apply Hmemb. eauto 6.
        + apply all3_F. apply all3_F in Hb. apply in_map_iff in Hb as (j & Hj & Hin). apply Hmemb in Hin as (x & y & Hx & Hy & Hn & Hg).
          assert (exists g, create_and (grp x y) = Ok g) as [g Hc].
          { destruct (grp x y) as [|a [|b r']]; [contradiction|cbn; eauto|cbn; eauto]. }
          apply in_map_iff. exists g. split; [|apply Hfound; eauto 6]. rewrite (Hsem x y g Hc). apply all3_F. rewrite <- Hj. now apply in_map.
        + destruct (all3 (map (sem I r) (map_joins_between m xs ys))) eqn:Ha; [| |reflexivity]; exfalso.
          * assert (all3 (map (sem I r) bj) = T3); [|congruence]. apply all3_T. intros v Hv. apply in_map_iff in Hv as (j & <- & Hj).
            apply Hmemb in Hj as (x & y & Hx & Hy & Hn & Hg).
            assert (exists g, create_and (grp x y) = Ok g) as [g Hc].
            { destruct (grp x y) as [|a [|b r']]; [contradiction|cbn; eauto|cbn; eauto]. }
            assert (Hgt : sem I r g = T3) by (apply (proj1 (all3_T _) Ha); apply in_map; apply Hfound; eauto 6).
            rewrite (Hsem x y g Hc) in Hgt. apply (proj1 (all3_T _) Hgt). now apply in_map.
          * assert (all3 (map (sem I r) bj) = F3); [|congruence]. apply all3_F. apply all3_F in Ha. apply in_map_iff in Ha as (g & Hg & Hin).
            apply Hfound in Hin as (x & y & Hx & Hy & Hn & Hc). rewrite (Hsem x y g Hc) in Hg. apply all3_F in Hg.
            apply in_map_iff in Hg as (j & Hj & Hgj). rewrite <- Hj. apply in_map. apply Hmemb. eauto 6.
      - split; intros H.
        + destruct bj as [|j bj']; [reflexivity|exfalso]. destruct (proj1 (Hmemb j) (or_introl eq_refl)) as (x & y & Hx & Hy & Hn & Hg).
          assert (exists g, create_and (grp x y) = Ok g) as [g Hc].
          { destruct (grp x y) as [|a [|b r']]; [contradiction|cbn; eauto|cbn; eauto]. }
          assert (In g (map_joins_between m xs ys)) by (apply Hfound; eauto 6). rewrite H in H0. contradiction.
        + destruct (map_joins_between m xs ys) as [|g l]; [reflexivity|exfalso].
          destruct (proj1 (Hfound g) (or_introl eq_refl)) as (x & y & Hx & Hy & Hn & Hc).
          destruct (grp x y) as [|j r] eqn:Hgr; [discriminate|]. assert (In j bj) by (apply Hmemb; exists x, y; rewrite Hgr; simpl; auto).
          rewrite H in H0. contradiction.
    Qed.
  End Between.
End P.
