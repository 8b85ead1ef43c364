(** Lemmas about join partners, joins_for, joins_between and joins_tables. *)
From Coq Require Import List Bool Arith Lia.
From Verif Require Import PyBase Pred_model Pred_spec Pred_proofs Graph QPred_model QPred_spec.
Import ListNotations.

Section P.
  Context {E : Type} (ecols : E -> list col).
  Notation pred := (pred E).
  Notation is_join := (is_join ecols).

  (** Some pair in [l] has columns of tables [t] and [u] (in either order). *)
  Definition pair_tabs (l : list (col * col)) (t u : tbl) : Prop :=
    exists x y, (In (x, y) l \/ In (y, x) l) /\ c_tab x = Some t /\ c_tab y = Some u.

  Lemma In_join_pairs xs ys a b :
    In (a, b) (join_pairs xs ys) -> exists x y, In x xs /\ In y ys /\ c_tab x <> c_tab y /\ ((a, b) = (x, y) \/ (a, b) = (y, x)).
  Proof.
    unfold join_pairs. rewrite in_flat_map. intros (x & Hx & H). apply in_flat_map in H as (y & Hy & H).
    destruct (deqb_spec (c_tab x) (c_tab y)); [contradiction|]. destruct H as [H|[]].
    exists x, y. split; [assumption|]. split; [assumption|]. split; [assumption|]. unfold norm_pair in H. cbn [fst snd] in H.
    destruct (col_ltb y x); rewrite <- H; auto.
  Qed.
  Lemma join_pairs_In xs ys x y : In x xs -> In y ys -> c_tab x <> c_tab y ->
    In (x, y) (join_pairs xs ys) \/ In (y, x) (join_pairs xs ys).
  Proof.
    intros Hx Hy Hn. assert (H : In (norm_pair (x, y)) (join_pairs xs ys)).
    { unfold join_pairs. apply in_flat_map. exists x. split; [assumption|]. apply in_flat_map. exists y. split; [assumption|].
      destruct (deqb_spec (c_tab x) (c_tab y)); [contradiction|]. now left. }
    unfold norm_pair in H. cbn [fst snd] in H. destruct (col_ltb y x); auto.
  Qed.

  Lemma pair_tabs_jp xs ys t u : t <> u ->
    (pair_tabs (join_pairs xs ys) t u <-> (mentions xs t /\ mentions ys u) \/ (mentions xs u /\ mentions ys t)).
  Proof.
    intros Hn. split.
    - intros (x & y & [H|H] & Ht & Hu); apply In_join_pairs in H as (a & b & Ha & Hb & _ & [E1|E1]); injection E1 as -> ->;
        unfold mentions; [left|right|right|left]; split; eauto.
    - intros [[(x & Hx & Ht) (y & Hy & Hu)]|[(y & Hy & Hu) (x & Hx & Ht)]].
      + exists x, y. split; [|auto]. apply join_pairs_In; auto; congruence.
      + exists x, y. split; [|auto]. apply or_comm. apply join_pairs_In; auto; congruence.
  Qed.
  Lemma pair_tabs_app l m t u : pair_tabs (l ++ m) t u <-> pair_tabs l t u \/ pair_tabs m t u.
  Proof.
    unfold pair_tabs. split.
    - intros (x & y & H & Ht & Hu). rewrite !in_app_iff in H. destruct H as [[H|H]|[H|H]]; [left|right|left|right]; exists x, y; auto.
    - intros [(x & y & H & Ht & Hu)|(x & y & H & Ht & Hu)]; exists x, y; rewrite !in_app_iff; tauto.
  Qed.
  Lemma pair_tabs_nil t u : ~ pair_tabs [] t u.
  Proof. intros (x & y & [[]|[]] & _). Qed.
  Lemma pair_tabs_flat {B} (f : B -> list (col * col)) vs t u :
    pair_tabs (flat_map f vs) t u <-> exists v, In v vs /\ pair_tabs (f v) t u.
  Proof.
    induction vs as [|v vs IH]; cbn [flat_map].
    - split; [intros H; now apply pair_tabs_nil in H|intros (? & [] & _)].
    - rewrite pair_tabs_app, IH. split.
      + intros [H|(w & Hw & H)]; [exists v|exists w]; simpl; auto.
      + intros (w & [->|Hw] & H); [auto|right; eauto].
  Qed.
  Lemma mentions_app xs ys t : mentions (xs ++ ys) t <-> mentions xs t \/ mentions ys t.
  Proof.
    unfold mentions. split.
    - intros (c & Hc & Ht). apply in_app_iff in Hc as [Hc|Hc]; eauto.
    - intros [(c & Hc & Ht)|(c & Hc & Ht)]; exists c; rewrite in_app_iff; auto.
  Qed.
  Lemma mentions_flat {B} (f : B -> list col) vs t : mentions (flat_map f vs) t <-> exists v, In v vs /\ mentions (f v) t.
  Proof.
    unfold mentions. split.
    - intros (c & Hc & Ht). apply in_flat_map in Hc as (v & Hv & Hc). eauto.
    - intros (v & Hv & c & Hc & Ht). exists c. split; [|assumption]. apply in_flat_map. eauto.
  Qed.

  Lemma pair_tabs_neq_all xs ys t u : pair_tabs (join_pairs xs ys) t u -> t <> u.
  Proof.
    intros (x & y & [H|H] & Ht & Hu); apply In_join_pairs in H as (a & b & _ & _ & Hn & [E1|E1]); injection E1 as -> ->; congruence.
  Qed.

  Lemma links_neq p t u : links ecols t u p -> t <> u.
  Proof.
    unfold links. induction p as [op a b|a lo hi|a vs|op a|p IH|ps IH|ps IH] using pred_ind'; cbn [some_leaf].
    1-4: intros [H _]; exact H.
    - exact IH.
    - rewrite some_leaf_list. intros (q & Hq & H). rewrite Forall_forall in IH. eauto.
    - rewrite some_leaf_list. intros (q & Hq & H). rewrite Forall_forall in IH. eauto.
  Qed.

  Lemma links_sym p t u : links ecols t u p -> links ecols u t p.
  Proof.
    unfold links. induction p as [op a b|a lo hi|a vs|op a|p IH|ps IH|ps IH] using pred_ind'; cbn [some_leaf].
    1-4: unfold leaf_links; cbn; intros [H K]; (split; [congruence|tauto]).
    - exact IH.
    - rewrite !some_leaf_list. intros (q & Hq & H). rewrite Forall_forall in IH. eauto.
    - rewrite !some_leaf_list. intros (q & Hq & H). rewrite Forall_forall in IH. eauto.
  Qed.

  Lemma jp_list_pairs (ps : list pred) l t u :
    Forall (fun q => forall l, join_partners ecols q = Ok l -> (pair_tabs l t u <-> links ecols t u q)) ps ->
    (fix go l := match l with
               | [] => Ok []
               | q :: r => rbind (join_partners ecols q) (fun x => rbind (go r) (fun y => Ok (x ++ y)))
               end) ps = Ok l ->
    (pair_tabs l t u <-> exists q, In q ps /\ links ecols t u q).
  Proof.
    intros H. revert l. induction H as [|q ps Hq _ IH]; intros l Hl.
    - injection Hl as <-. split; [intros H; now apply pair_tabs_nil in H|intros (? & [] & _)].
    - cbn in Hl. destruct (join_partners ecols q) as [x|] eqn:Hx; [|discriminate]. cbn in Hl.
      match type of Hl with rbind ?g _ = _ => destruct g as [y|] eqn:Hy; [|discriminate] end. cbn in Hl. injection Hl as <-.
      rewrite pair_tabs_app, (Hq x eq_refl), (IH y eq_refl). split.
      + intros [H|(w & Hw & H)]; [exists q|exists w]; simpl; auto.
      + intros (w & [->|Hw] & H); [auto|right; eauto].
  Qed.

  (** join_partners() contains a pair for exactly the linked tables. *)
  Lemma join_partners_links p t u : forall l, join_partners ecols p = Ok l -> (pair_tabs l t u <-> links ecols t u p).
  Proof.
    unfold links. induction p as [op a b|a lo hi|a vs|op a|p IH|ps IH|ps IH] using pred_ind'; intros l.
    - cbn [join_partners some_leaf]. unfold leaf_links. destruct (is_join _); [|discriminate]. intros [= <-].
      destruct (Nat.eq_dec t u) as [->|Hn].
      { split; [|tauto]. rewrite !pair_tabs_app. intros [H|[H|H]]; now apply pair_tabs_neq_all in H. }
      rewrite !pair_tabs_app, !pair_tabs_jp, !mentions_app by assumption. tauto.
    - cbn [join_partners some_leaf]. unfold leaf_links. destruct (is_join _); [|discriminate]. intros [= <-].
      destruct (Nat.eq_dec t u) as [->|Hn].
      { split; [|tauto]. rewrite !pair_tabs_app. intros [H|[H|H]]; now apply pair_tabs_neq_all in H. }
      cbn. rewrite !pair_tabs_app, !pair_tabs_jp, !mentions_app by assumption. tauto.
    - cbn [join_partners some_leaf]. unfold leaf_links. destruct (is_join _); [|discriminate]. intros [= <-].
      destruct (Nat.eq_dec t u) as [->|Hn].
      { split; [|tauto]. rewrite !pair_tabs_app, pair_tabs_flat. intros [H|(v & _ & H)]; now apply pair_tabs_neq_all in H. }
      cbn. rewrite !pair_tabs_app, pair_tabs_flat, !pair_tabs_jp, !mentions_app, !mentions_flat by assumption. split.
      + intros [H|(v & Hv & H)]; [tauto|]. apply pair_tabs_jp in H; [|assumption].
        split; [assumption|]. destruct H as [[H1 H2]|[H1 H2]]; [left|right]; split; eauto.
      + intros [_ [[H1 [H2|(v & Hv & H2)]]|[H1 [H2|(v & Hv & H2)]]]]; try tauto;
          right; exists v; (split; [assumption|]); apply pair_tabs_jp; tauto.
    - cbn [join_partners some_leaf]. unfold leaf_links. intros [= <-].
      destruct (Nat.eq_dec t u) as [->|Hn].
      { split; [|tauto]. intros H; now apply pair_tabs_neq_all in H. }
      rewrite pair_tabs_jp by assumption. tauto.
    - cbn [join_partners some_leaf]. apply IH.
    - cbn [join_partners some_leaf]. rewrite some_leaf_list. apply jp_list_pairs. exact IH.
    - cbn [join_partners some_leaf]. rewrite some_leaf_list. apply jp_list_pairs. exact IH.
  Qed.

  (** Pairs never share a table. *)
  Lemma join_partners_neq p : forall l, join_partners ecols p = Ok l -> forall x y, In (x, y) l -> c_tab x <> c_tab y.
  Proof.
    assert (Hl : forall ps, Forall (fun p : pred => forall l, join_partners ecols p = Ok l -> forall x y, In (x, y) l -> c_tab x <> c_tab y) ps ->
      forall l, (fix go l := match l with
               | [] => Ok []
               | q :: r => rbind (join_partners ecols q) (fun x => rbind (go r) (fun y => Ok (x ++ y)))
               end) ps = Ok l -> forall x y, In (x, y) l -> c_tab x <> c_tab y).
    { induction 1 as [|q ps Hq _ IH]; intros l Hl x y Hxy.
      - injection Hl as <-. contradiction.
      - cbn in Hl. destruct (join_partners ecols q) as [a|] eqn:Ha; [|discriminate]. cbn in Hl.
        match type of Hl with rbind ?g _ = _ => destruct g as [b|] eqn:Hb; [|discriminate] end. cbn in Hl. injection Hl as <-.
        apply in_app_iff in Hxy as [H|H]; [eapply Hq; eauto|eapply IH; eauto]. }
    assert (Hp : forall xs ys a b, In (a, b) (join_pairs xs ys) -> c_tab a <> c_tab b).
    { intros xs ys a b H. apply In_join_pairs in H as (x & y & _ & _ & Hn & [E1|E1]); injection E1 as -> ->; congruence. }
    induction p as [op a b|a lo hi|a vs|op a|p IH|ps IH|ps IH] using pred_ind'; intros l.
    - cbn [join_partners]. destruct (is_join _); [|discriminate]. intros [= <-] x y H. rewrite !in_app_iff in H. destruct H as [H|[H|H]]; eauto.
    - cbn [join_partners]. destruct (is_join _); [|discriminate]. intros [= <-] x y H. rewrite !in_app_iff in H. destruct H as [H|[H|H]]; eauto.
    - cbn [join_partners]. destruct (is_join _); [|discriminate]. intros [= <-] x y H. rewrite in_app_iff, in_flat_map in H.
      destruct H as [H|(v & _ & H)]; eauto.
    - cbn [join_partners]. intros [= <-]. eauto.
    - cbn [join_partners]. apply IH.
    - cbn [join_partners]. apply Hl, IH.
    - cbn [join_partners]. apply Hl, IH.
  Qed.

  (** join_partners_of returns columns of exactly the tables linked with [t]. *)
  Lemma jpo_links p t cs : join_partners_of ecols p t = Ok cs ->
    forall u, (exists c, In c cs /\ c_tab c = Some u) <-> links ecols t u p.
  Proof.
    unfold join_partners_of, rmap. destruct (join_partners ecols p) as [l|] eqn:Hl; cbn; [|discriminate]. intros [= <-] u.
    rewrite <- (join_partners_links p t u l Hl). pose proof (join_partners_neq p l Hl) as Hneq. unfold partners_of. split.
    - intros (c & Hc & Hu). apply in_flat_map in Hc as ([x y] & Hxy & Hc). unfold belongs_to in Hc.
      destruct (deqb_spec (c_tab x) (Some t)); [destruct Hc as [<-|[]]; exists x, y; auto|].
      destruct (deqb_spec (c_tab y) (Some t)); [destruct Hc as [<-|[]]; exists y, x; auto|contradiction].
    - intros (x & y & [H|H] & Ht & Hu).
      + exists y. split; [|assumption]. apply in_flat_map. exists (x, y). split; [assumption|]. unfold belongs_to. rewrite Ht, deqb_refl. now left.
      + exists y. split; [|assumption]. apply in_flat_map. exists (y, x). split; [assumption|]. unfold belongs_to.
        specialize (Hneq _ _ H). destruct (deqb_spec (c_tab y) (Some t)) as [E1|]; [exfalso; congruence|]. rewrite Ht, deqb_refl. now left.
  Qed.

  Lemma links_mentions p t u : links ecols t u p -> contains_table ecols p t = true.
  Proof.
    intros H. unfold contains_table. apply mem_In. unfold ptabs. apply In_ctabs. unfold links in H.
    revert H. induction p as [op a b|a lo hi|a vs|op a|p IH|ps IH|ps IH] using pred_ind'; cbn [some_leaf pcols].
    - intros [_ [H _]]. exact H.
    - intros [_ H]. cbn in H. rewrite !mentions_app in H. fold (mentions (ecols a ++ ecols lo ++ ecols hi) t). rewrite !mentions_app. tauto.
    - intros [_ H]. cbn in H. rewrite !mentions_app in H. fold (mentions (ecols a ++ flat_map ecols vs) t). rewrite !mentions_app. tauto.
    - intros [_ [H _]]. exact H.
    - exact IH.
    - rewrite some_leaf_list. intros (q & Hq & H). rewrite Forall_forall in IH. apply (mentions_flat (pcols ecols)). exists q. split; [assumption|]. apply (IH q Hq H).
    - rewrite some_leaf_list. intros (q & Hq & H). rewrite Forall_forall in IH. apply (mentions_flat (pcols ecols)). exists q. split; [assumption|]. apply (IH q Hq H).
  Qed.

  (** What a group created by create_and links. *)
  Lemma create_and_links ps p t u : create_and ps = Ok p -> (links ecols t u p <-> exists q, In q ps /\ links ecols t u q).
  Proof.
    destruct ps as [|x [|y r]]; cbn; [discriminate|intros [= <-]|intros [= <-]].
    - split; [intros H; exists x; auto|intros (q & [->|[]] & H); assumption].
    - unfold links. change (some_leaf (leaf_links ecols t u) (PAnd (x :: y :: r))) with
        ((fix go l := match l with [] => False | q :: r => some_leaf (leaf_links ecols t u) q \/ go r end) (x :: y :: r)).
      rewrite some_leaf_list. reflexivity.
  Qed.

  Lemma rmapM_In {A B} (f : A -> res B) l l' : rmapM f l = Ok l' -> forall y, In y l' <-> exists x, In x l /\ f x = Ok y.
  Proof.
    revert l'. induction l as [|x l IH]; intros l'; cbn.
    - intros [= <-] y. split; [intros []|intros (? & [] & _)].
    - destruct (f x) as [y|] eqn:Hx; cbn; [|discriminate]. destruct (rmapM f l) as [ys|] eqn:Hl; cbn; [|discriminate].
      intros [= <-] z. simpl. rewrite (IH ys eq_refl). split.
      + intros [<-|(w & Hw & Hz)]; [exists x; auto|exists w; auto].
      + intros (w & [<-|Hw] & Hz); [left; congruence|right; eauto].
  Qed.

  Lemma joins_for_links js t l u : joins_for ecols js t = Ok l ->
    ((exists g, In g l /\ links ecols t u g) <-> exists j, In j js /\ links ecols t u j).
  Proof.
    unfold joins_for. pose proof (group_joins_spec ecols t js []) as H.
    destruct (group_joins ecols t js []) as [d|e]; cbn [rbind]; [|discriminate]. destruct H as (_ & H2 & _).
    intros Hl. pose proof (rmapM_In _ _ _ Hl) as HI. split.
    - intros (g & Hg & Hlk). apply HI in Hg as (grp & Hgrp & Hc). apply (create_and_links grp g t u Hc) in Hlk as (j & Hj & Hlk).
      exists j. split; [|assumption]. assert (Hin : In j (concat (dvalues d))) by (apply in_concat; eauto).
      apply H2 in Hin as [[]|[? _]]. assumption.
    - intros (j & Hj & Hlk). assert (Hin : In j (concat (dvalues d))) by (apply H2; right; split; [assumption|eapply links_mentions; eauto]).
      apply in_concat in Hin as (grp & Hgrp & Hjg).
      assert (exists g, create_and grp = Ok g) as [g Hg].
      { destruct grp as [|x [|y r]]; [contradiction|cbn; eauto|cbn; eauto]. }
      exists g. split; [apply HI; eauto|]. apply (create_and_links grp g t u Hg). eauto.
  Qed.

  Lemma concatM_In {A B} (f : A -> res (list B)) l ys : concatM f l = Ok ys ->
    (forall x, In x l -> exists r, f x = Ok r) /\ forall y, In y ys <-> exists x r, In x l /\ f x = Ok r /\ In y r.
  Proof.
    revert ys. induction l as [|x l IH]; intros ys; cbn.
    - intros [= <-]. split; [intros ? []|]. intros y. split; [intros []|intros (? & ? & [] & _)].
    - destruct (f x) as [r|] eqn:Hx; cbn; [|discriminate]. destruct (concatM f l) as [rs|] eqn:Hl; cbn; [|discriminate].
      intros [= <-]. destruct (IH rs eq_refl) as [H1 H2]. split.
      + intros z [<-|Hz]; eauto.
      + intros y. rewrite in_app_iff, H2. split.
        * intros [H|(w & q & Hw & Hq & Hy)]; [exists x, r; auto|exists w, q; auto].
        * intros (w & q & [<-|Hw] & Hq & Hy); [left; congruence|right; eauto 6].
  Qed.
  Lemma concatM_ok {A B} (f : A -> res (list B)) l : (forall x, In x l -> exists r, f x = Ok r) -> exists ys, concatM f l = Ok ys.
  Proof.
    induction l as [|x l IH]; intros H; cbn; [eauto|]. destruct (H x) as [r ->]; [now left|]. cbn.
    destruct IH as [ys ->]; [intros; apply H; now right|]. cbn. eauto.
  Qed.

  Lemma check_edges_spec js ts : (forall j, In j js -> jp_ok ecols j) ->
    exists es, check_edges ecols js ts = Ok es /\
      forall t u, In (t, u) es <-> In t ts /\ In u ts /\ exists j, In j js /\ links ecols t u j.
  Proof.
    intros Hok. unfold check_edges.
    assert (Hall : forall t, exists l, joins_for ecols js t = Ok l /\ Forall (jp_ok ecols) l).
    { intros t. pose proof (joins_for_spec ecols {| V := unit; val := fun _ _ => tt; opsem := fun _ _ _ => T3; unsem := fun _ _ => T3 |} t js) as H. destruct (joins_for ecols js t) as [l|e].
      - exists l. tauto.
      - destruct H as [_ (j & Hj & _ & Hn)]. exfalso. auto. }
    match goal with |- context [concatM ?f ts] => assert (Hf : forall t, exists es, f t = Ok es /\
        forall a u, In (a, u) es <-> a = t /\ In u ts /\ exists j, In j js /\ links ecols t u j) end.
    { intros t. destruct (Hall t) as (l & Hl & Hlok). rewrite Hl. cbn [rbind].
      destruct (concatM_ok (fun j => partner_tables ecols j t ts) l) as [us Hus].
      { intros j Hj. rewrite Forall_forall in Hlok. destruct (proj2 (jpo_ok ecols j t) (Hlok j Hj)) as [cs Hcs].
        unfold partner_tables. rewrite Hcs. cbn. eauto. }
      rewrite Hus. cbn. eexists. split; [reflexivity|]. intros a u. rewrite in_map_iff.
      destruct (concatM_In _ _ _ Hus) as [_ HI].
      assert (Hu : In u us <-> In u ts /\ exists j, In j js /\ links ecols t u j).
      { rewrite HI, <- (joins_for_links js t l u Hl). split.
        - intros (j & r & Hj & Hr & Hu). unfold partner_tables in Hr. destruct (join_partners_of ecols j t) as [cs|] eqn:Hcs; [|discriminate].
          cbn in Hr. injection Hr as <-. apply filter_In in Hu as [Hu Hm]. apply mem_In in Hm. split; [assumption|].
          exists j. split; [assumption|]. apply (jpo_links j t cs Hcs). apply in_flat_map in Hu as (c & Hc & Hu).
          exists c. destruct (c_tab c); [destruct Hu as [->|[]]; auto|contradiction].
        - intros [Hts (j & Hj & Hlk)]. rewrite Forall_forall in Hlok. destruct (proj2 (jpo_ok ecols j t) (Hlok j Hj)) as [cs Hcs].
          exists j. unfold partner_tables. rewrite Hcs. cbn. eexists. split; [assumption|]. split; [reflexivity|].
          apply filter_In. split; [|now apply mem_In]. apply in_flat_map. destruct (proj2 (jpo_links j t cs Hcs u) Hlk) as (c & Hc & Ht).
          exists c. rewrite Ht. simpl. auto. }
      split.
      - intros (x & [= <- <-] & Hx). tauto.
      - intros (-> & H). exists u. split; [reflexivity|]. tauto. }
    match goal with |- context [concatM ?f ts] => destruct (concatM_ok f ts) as [es Hes] end.
    { intros t _. destruct (Hf t) as (r & Hr & _). eauto. }
    exists es. split; [exact Hes|]. intros t u. destruct (concatM_In _ _ _ Hes) as [_ HI]. rewrite HI. split.
    - intros (x & r & Hx & Hr & Hu). destruct (Hf x) as (r' & Hr' & HI'). rewrite Hr in Hr'. injection Hr' as <-.
      apply HI' in Hu as (-> & H). tauto.
    - intros (Ht & Hu). destruct (Hf t) as (r & Hr & HI'). exists t, r. split; [assumption|]. split; [assumption|]. apply HI'. tauto.
  Qed.

  Lemma chain_path {A} {EA : EqD A} (R : A -> A -> Prop) ns es :
    (forall t u, In t ns -> In u ns -> (adj es t u <-> R t u)) -> forall x y, path ns es x y <-> chain R ns x y.
  Proof.
    intros H x y. split.
    - induction 1 as [x Hx|x y z Hxy IH Ha Hz]; [now constructor|]. eapply chain_step; [exact IH| |assumption].
      apply H; auto. eapply path_In; eauto.
    - induction 1 as [x Hx|x y z Hxy IH Ha Hz]; [now constructor|]. eapply path_step; [exact IH| |assumption].
      apply H; auto. eapply path_In; eauto.
  Qed.

  Lemma joins_tables_spec js root ts : (forall j, In j js -> jp_ok ecols j) -> 2 <= length ts ->
    exists b, joins_tables ecols js root ts = Ok b /\ (b = true <-> tables_connected ecols js ts).
  Proof.
    intros Hok Hlen. destruct (check_edges_spec js ts Hok) as (es & Hes & HI).
    exists (connectedb ts es). split.
    - destruct ts as [|a [|b ts]]; cbn in Hlen; try lia. unfold joins_tables. rewrite Hes. reflexivity.
    - rewrite connectedb_spec. unfold connected, tables_connected.
      assert (Hadj : forall t u, In t ts -> In u ts -> (adj es t u <-> exists j, In j js /\ links ecols t u j)).
      { intros t u Ht Hu. unfold adj. rewrite !HI. split.
        - intros [(_ & _ & H)|(_ & _ & j & Hj & H)]; [assumption|]. exists j. split; [assumption|]. now apply links_sym.
        - intros H. left. auto. }
      split; intros H t u Ht Hu; specialize (H t u Ht Hu); apply (chain_path _ ts es Hadj); assumption.
  Qed.
End P.
