(** Lemmas about the predicate model. *)
From Coq Require Import List Bool Arith Lia.
From Verif Require Import PyBase Pred_model Pred_spec.
Import ListNotations.

(** ** Three-valued logic *)
Lemma and3_assoc x y z : and3 (and3 x y) z = and3 x (and3 y z).
Proof. now destruct x, y, z. Qed.
Lemma and3_comm x y : and3 x y = and3 y x.
Proof. now destruct x, y. Qed.
Lemma and3_T x : and3 x T3 = x.
Proof. now destruct x. Qed.
Lemma and3_Tl x : and3 T3 x = x.
Proof. now destruct x. Qed.
Lemma and3_idem x : and3 x x = x.
Proof. now destruct x. Qed.
Lemma all3_app l m : all3 (l ++ m) = and3 (all3 l) (all3 m).
Proof. induction l as [|x l IH]; simpl; [now destruct (all3 m)|]. rewrite IH, and3_assoc. reflexivity. Qed.
Lemma all3_T l : all3 l = T3 <-> (forall x, In x l -> x = T3).
Proof.
  induction l as [|x l IH]; simpl; [intuition|]. split.
  - intros H. destruct x, (all3 l); simpl in H; try discriminate. intros y [<-|Hy]; [reflexivity|]. now apply IH.
  - intros H. rewrite (H x) by auto. destruct IH as [_ IH]. rewrite IH by auto. reflexivity.
Qed.
Lemma all3_F l : all3 l = F3 <-> In F3 l.
Proof.
  induction l as [|x l IH]; simpl; [intuition discriminate|]. destruct x; simpl.
  - destruct (all3 l); simpl; rewrite <- IH; intuition discriminate.
  - intuition.
  - destruct (all3 l); simpl; rewrite <- IH; intuition discriminate.
Qed.
Lemma all3_seteq l m : seteq l m -> all3 l = all3 m.
Proof.
  intros H. destruct (all3 l) eqn:A.
  - symmetry. apply all3_T. intros x Hx. apply H in Hx. now apply (proj1 (all3_T l)).
  - symmetry. apply all3_F. apply H. now apply all3_F.
  - destruct (all3 m) eqn:B; [|  |reflexivity].
    + assert (all3 l = T3) by (apply all3_T; intros x Hx; apply H in Hx; now apply (proj1 (all3_T m))). congruence.
    + assert (all3 l = F3) by (apply all3_F; apply H; now apply all3_F). congruence.
Qed.
Lemma any3_T l : any3 l = T3 <-> In T3 l.
Proof.
  induction l as [|x l IH]; simpl; [intuition discriminate|]. destruct x; simpl.
  - intuition.
  - destruct (any3 l); simpl; rewrite <- IH; intuition discriminate.
  - destruct (any3 l); simpl; rewrite <- IH; intuition discriminate.
Qed.
Lemma any3_F l : any3 l = F3 <-> (forall x, In x l -> x = F3).
Proof.
  induction l as [|x l IH]; simpl; [intuition|]. split.
  - intros H. destruct x, (any3 l); simpl in H; try discriminate. intros y [<-|Hy]; [reflexivity|]. now apply IH.
  - intros H. rewrite (H x) by auto. destruct IH as [_ IH]. rewrite IH by auto. reflexivity.
Qed.
Lemma any3_seteq l m : seteq l m -> any3 l = any3 m.
Proof.
  intros H. destruct (any3 l) eqn:A.
  - symmetry. apply any3_T. apply H. now apply any3_T.
  - symmetry. apply any3_F. intros x Hx. apply H in Hx. now apply (proj1 (any3_F l)).
  - destruct (any3 m) eqn:B; [| |reflexivity].
    + assert (any3 l = T3) by (apply any3_T; apply H; now apply any3_T). congruence.
    + assert (any3 l = F3) by (apply any3_F; intros x Hx; apply H in Hx; now apply (proj1 (any3_F m))). congruence.
Qed.
Lemma seteq_map {A B} (f : A -> B) l m : seteq l m -> seteq (map f l) (map f m).
Proof. intros H y. rewrite !in_map_iff. split; intros (x & <- & Hx); exists x; split; auto; now apply H. Qed.
Lemma lists_set_seteq {A} (l xs : list A) : lists_set l xs -> seteq l xs.
Proof. intros [_ H]. exact H. Qed.

Section P.
  Context {E : Type} (ecols : E -> list col) (I : interp E).
  Notation pred := (pred E).
  Notation is_join := (is_join ecols).
  Notation is_filter := (is_filter ecols).
  Notation collect_filters := (collect_filters ecols).
  Notation collect_joins := (collect_joins ecols).

  Lemma homogeneous_and isj ps : homogeneous isj (@PAnd E ps) <-> Forall (homogeneous isj) ps.
  Proof.
    simpl. induction ps as [|q r IH]; [intuition constructor|].
    rewrite IH. split; [intros []; constructor; assumption|intros H; inversion H; auto].
  Qed.

  Lemma collect_filters_filter p : forall q, In q (collect_filters p) -> is_filter q = true.
  Proof.
    induction p as [op a b|a lo hi|a vs|op a|p IH|ps IH|ps IH] using pred_ind'; intros q Hq; cbn [Pred_model.collect_filters] in Hq.
    1-4: match type of Hq with In _ (if ?b then _ else _) => destruct b eqn:J end; [|contradiction];
         destruct Hq as [<-|[]]; assumption.
    - destruct (is_filter p) eqn:J; [|contradiction]. destruct Hq as [<-|[]]. exact J.
    - apply in_flat_map in Hq as (c & Hc & Hq). rewrite Forall_forall in IH. exact (IH c Hc q Hq).
    - assert (Hall : forall x, In x (filter is_filter ps) -> is_filter x = true) by (intros x Hx; apply filter_In in Hx; tauto).
      destruct (filter is_filter ps) as [|x [|y r]] eqn:Hf.
      + contradiction.
      + destruct Hq as [<-|[]]. apply Hall. now left.
      + destruct Hq as [<-|[]]. unfold Pred_model.is_filter. apply negb_true_iff.
        cbn [Pred_model.is_join]. apply not_true_iff_false. intros H. apply existsb_exists in H as (z & Hz & Jz).
        apply Hall in Hz. unfold Pred_model.is_filter in Hz. rewrite Jz in Hz. discriminate.
  Qed.

  Lemma collect_joins_join p : forall q, In q (collect_joins p) -> is_join q = true.
  Proof.
    induction p as [op a b|a lo hi|a vs|op a|p IH|ps IH|ps IH] using pred_ind'; intros q Hq; cbn [Pred_model.collect_joins] in Hq.
    1-4: match type of Hq with In _ (if ?b then _ else _) => destruct b eqn:J end; [|contradiction];
         destruct Hq as [<-|[]]; assumption.
    - destruct (is_join p) eqn:J; [|contradiction]. destruct Hq as [<-|[]]. exact J.
    - apply in_flat_map in Hq as (c & Hc & Hq). rewrite Forall_forall in IH. exact (IH c Hc q Hq).
    - assert (Hall : forall x, In x (filter is_join ps) -> is_join x = true) by (intros x Hx; apply filter_In in Hx; tauto).
      destruct (filter is_join ps) as [|x [|y r]] eqn:Hf.
      + contradiction.
      + destruct Hq as [<-|[]]. apply Hall. now left.
      + destruct Hq as [<-|[]]. cbn [Pred_model.is_join]. apply existsb_exists. exists x. split; [now left|apply Hall; now left].
  Qed.

  Lemma filter_all {A} (f : A -> bool) l : (forall x, In x l -> f x = true) -> filter f l = l.
  Proof. induction l as [|x l IH]; simpl; intros H; [reflexivity|]. rewrite H by auto. f_equal. apply IH. auto. Qed.
  Lemma filter_none {A} (f : A -> bool) l : (forall x, In x l -> f x = false) -> filter f l = [].
  Proof. induction l as [|x l IH]; simpl; intros H; [reflexivity|]. rewrite H by auto. apply IH. auto. Qed.

  Lemma map_flat_map_all3 (f : pred -> tv) (g : pred -> list pred) (h : pred -> list pred) ps :
    Forall (fun p => and3 (all3 (map f (g p))) (all3 (map f (h p))) = f p) ps ->
    and3 (all3 (map f (flat_map g ps))) (all3 (map f (flat_map h ps))) = all3 (map f ps).
  Proof.
    induction 1 as [|p ps Hp _ IH]; simpl; [reflexivity|].
    rewrite !map_app, !all3_app, <- IH, <- Hp.
    destruct (all3 (map f (g p))), (all3 (map f (h p))), (all3 (map f (flat_map g ps))), (all3 (map f (flat_map h ps))); reflexivity.
  Qed.

  (** Conjunction of all collected predicates = the predicate, for homogeneous ORs. *)
  Lemma collect_equiv r p : wfp p = true -> homogeneous is_join p ->
    and3 (all3 (map (sem I r) (collect_filters p))) (all3 (map (sem I r) (collect_joins p))) = sem I r p.
  Proof.
    induction p as [op a b|a lo hi|a vs|op a|p IH|ps IH|ps IH] using pred_ind'; intros Hwf Hh.
    1-4: cbn [Pred_model.collect_filters Pred_model.collect_joins]; unfold Pred_model.is_filter;
         match goal with |- context [Pred_model.is_join _ ?p] => destruct (is_join p) end; cbn [negb map all3 fold_right];
         rewrite ?and3_T, ?and3_Tl; reflexivity.
    - cbn [Pred_model.collect_filters Pred_model.collect_joins]. unfold Pred_model.is_filter.
      destruct (is_join p); cbn [negb map all3 fold_right]; rewrite ?and3_T, ?and3_Tl; reflexivity.
    - cbn [Pred_model.collect_filters Pred_model.collect_joins sem]. apply map_flat_map_all3.
      apply homogeneous_and in Hh. cbn [wfp] in Hwf. apply andb_true_iff in Hwf as [_ Hwf]. rewrite forallb_forall in Hwf.
      rewrite Forall_forall in *. intros q Hq. apply IH; auto.
    - cbn [Pred_model.collect_filters Pred_model.collect_joins]. cbn [wfp] in Hwf. apply andb_true_iff in Hwf as [Hlen _].
      apply Nat.leb_le in Hlen. destruct Hh as [Hh|Hh].
      + rewrite (filter_all is_join) by assumption.
        rewrite (filter_none is_filter) by (intros x Hx; unfold Pred_model.is_filter; rewrite Hh; auto).
        destruct ps as [|x [|y t]]; simpl in Hlen; try lia. cbn [map all3 fold_right]. rewrite ?and3_T, ?and3_Tl. reflexivity.
      + rewrite (filter_none is_join) by assumption.
        rewrite (filter_all is_filter) by (intros x Hx; unfold Pred_model.is_filter; rewrite Hh; auto).
        destruct ps as [|x [|y t]]; simpl in Hlen; try lia. cbn [map all3 fold_right]. rewrite ?and3_T, ?and3_Tl. reflexivity.
  Qed.

  (** Without any restriction the collected predicates are at least as strong as the WHERE condition. *)
  Lemma collect_stronger r p : wfp p = true ->
    (forall q, In q (collect_filters p) \/ In q (collect_joins p) -> sem I r q = T3) -> sem I r p = T3.
  Proof.
    induction p as [op a b|a lo hi|a vs|op a|p IH|ps IH|ps IH] using pred_ind'; intros Hwf H.
    1-4: cbn [Pred_model.collect_filters Pred_model.collect_joins] in H; unfold Pred_model.is_filter in H;
         match type of H with context [Pred_model.is_join _ ?p] => destruct (is_join p) end; cbn in H; apply H; auto.
    - cbn [Pred_model.collect_filters Pred_model.collect_joins] in H; unfold Pred_model.is_filter in H.
      destruct (is_join p); cbn [negb] in H; apply H; simpl; auto.
    - cbn [Pred_model.collect_filters Pred_model.collect_joins] in H. cbn [sem]. apply all3_T. intros x Hx.
      apply in_map_iff in Hx as (q & <- & Hq). cbn [wfp] in Hwf. apply andb_true_iff in Hwf as [_ Hwf].
      rewrite forallb_forall in Hwf. rewrite Forall_forall in IH. apply IH; auto.
      intros q' Hq'. apply H. rewrite !in_flat_map. destruct Hq' as [Hq'|Hq']; [left|right]; exists q; auto.
    - cbn [Pred_model.collect_filters Pred_model.collect_joins] in H. cbn [wfp] in Hwf. apply andb_true_iff in Hwf as [Hlen _].
      apply Nat.leb_le in Hlen. cbn [sem]. apply any3_T.
      assert (Hsub : forall qs, incl qs ps -> any3 (map (sem I r) qs) = T3 -> In T3 (map (sem I r) ps)).
      { intros qs Hi Hq. apply any3_T in Hq. apply in_map_iff in Hq as (q & Hq & Hin). rewrite <- Hq. apply in_map. auto. }
      destruct (filter is_join ps) as [|j1 [|j2 js]] eqn:Hj.
      + assert (forall x, In x ps -> is_join x = false).
        { intros x Hx. destruct (is_join x) eqn:J; [|reflexivity]. exfalso.
          assert (In x (filter is_join ps)) by (apply filter_In; auto). rewrite Hj in *. contradiction. }
        assert (Hf : filter is_filter ps = ps) by (apply filter_all; intros x Hx; unfold Pred_model.is_filter; rewrite H0; auto).
        rewrite Hf in H. destruct ps as [|x [|y t]]; simpl in Hlen; try lia.
        apply any3_T. apply (H (POr (x :: y :: t))). left. now left.
      + rewrite <- (H j1) by (right; now left). apply in_map.
        assert (In j1 (filter is_join ps)) by (rewrite Hj; now left). apply filter_In in H0. tauto.
      + apply (Hsub (j1 :: j2 :: js)).
        * intros x Hx. rewrite <- Hj in Hx. apply filter_In in Hx. tauto.
        * apply (H (POr (j1 :: j2 :: js))). right. now left.
  Qed.

  (** ** join_partners *)
  Lemma jp_list_ok ps :
    (exists l, (fix go l := match l with
               | [] => Ok []
               | q :: r => rbind (join_partners ecols q) (fun x => rbind (go r) (fun y => Ok (x ++ y)))
               end) ps = Ok l) <-> Forall (fun q => exists l, join_partners ecols q = Ok l) ps.
  Proof.
    induction ps as [|q r IH]; [split; [constructor|intros; now exists []]|].
    split.
    - intros [l Hl]. cbn in Hl. destruct (join_partners ecols q) as [x|] eqn:Hq; [|discriminate]. cbn in Hl.
      match type of Hl with rbind ?g _ = _ => destruct g as [y|] eqn:Hy; [|discriminate] end.
      constructor; [now exists x|]. apply IH. now exists y.
    - intros H. inversion H as [|? ? [x Hx] Hr]; subst. apply IH in Hr as [y Hy]. exists (x ++ y). cbn.
      rewrite Hx. cbn. rewrite Hy. reflexivity.
  Qed.

  (** A leaf that makes join_partners raise: a base predicate other than a unary one that is no join. *)
  Definition bad_leaf (p : pred) : Prop :=
    match p with PUn _ _ => False | _ => is_join p = false end.

  Lemma some_leaf_list Q (ps : list pred) :
    (fix go l := match l with [] => False | q :: r => some_leaf Q q \/ go r end) ps <-> exists q, In q ps /\ some_leaf Q q.
  Proof.
    induction ps as [|q r IH]; [split; [tauto|intros (? & [] & _)]|]. rewrite IH. split.
    - intros [H|(x & Hx & H)]; [exists q|exists x]; simpl; auto.
    - intros (x & [->|Hx] & H); [auto|right; eauto].
  Qed.

  Lemma join_partners_ok p : (exists l, join_partners ecols p = Ok l) <-> ~ some_leaf bad_leaf p.
  Proof.
    induction p as [op a b|a lo hi|a vs|op a|p IH|ps IH|ps IH] using pred_ind'.
    1-3: cbn [join_partners some_leaf]; unfold bad_leaf; match goal with |- context [Pred_model.is_join _ ?p] => destruct (is_join p) end;
         split; [intros _ ?; discriminate|intros _; eauto|intros [l Hl]; discriminate|intros H; exfalso; now apply H].
    - cbn. split; [tauto|eauto].
    - cbn [join_partners some_leaf]. exact IH.
    - cbn [join_partners some_leaf]. rewrite jp_list_ok, some_leaf_list. rewrite Forall_forall in *. split.
      + intros H (q & Hq & Hb). apply (IH q Hq) in Hb; auto.
      + intros H q Hq. apply (IH q Hq). intros Hb. apply H. eauto.
    - cbn [join_partners some_leaf]. rewrite jp_list_ok, some_leaf_list. rewrite Forall_forall in *. split.
      + intros H (q & Hq & Hb). apply (IH q Hq) in Hb; auto.
      + intros H q Hq. apply (IH q Hq). intros Hb. apply H. eauto.
  Qed.

  Lemma join_partners_raise p e : join_partners ecols p = Raise e -> e = NoJoinPredicateError.
  Proof.
    revert e. induction p as [op a b|a lo hi|a vs|op a|p IH|ps IH|ps IH] using pred_ind'; intros e.
    1-3: cbn [join_partners]; match goal with |- context [if ?b then _ else _] => destruct b end; [discriminate|congruence].
    - cbn. discriminate.
    - cbn [join_partners]. apply IH.
    - cbn [join_partners]. revert e. induction ps as [|q r IHr]; intros e; [discriminate|]. inversion IH; subst. cbn.
      destruct (join_partners ecols q) as [x|e'] eqn:Hq; cbn; [|intros [= <-]; eauto].
      match goal with |- rbind ?g _ = _ -> _ => destruct g as [y|e'] eqn:Hg end; cbn; [discriminate|intros [= <-]; eauto].
    - cbn [join_partners]. revert e. induction ps as [|q r IHr]; intros e; [discriminate|]. inversion IH; subst. cbn.
      destruct (join_partners ecols q) as [x|e'] eqn:Hq; cbn; [|intros [= <-]; eauto].
      match goal with |- rbind ?g _ = _ -> _ => destruct g as [y|e'] eqn:Hg end; cbn; [discriminate|intros [= <-]; eauto].
  Qed.

  Definition jp_ok (p : pred) : Prop := exists l, join_partners ecols p = Ok l.

  Lemma jpo_ok p t : (exists l, join_partners_of ecols p t = Ok l) <-> jp_ok p.
  Proof.
    unfold join_partners_of, rmap, jp_ok. destruct (join_partners ecols p) as [x|e]; cbn; split; intros [l Hl]; try discriminate; eauto.
  Qed.
  Lemma jpo_raise p t e : join_partners_of ecols p t = Raise e -> e = NoJoinPredicateError.
  Proof.
    unfold join_partners_of, rmap. destruct (join_partners ecols p) as [x|e'] eqn:Hp; cbn; [discriminate|].
    intros [= <-]. eapply join_partners_raise; eauto.
  Qed.

  (** Elements of the groups built by joins_for. *)
  Lemma group_joins_spec t js : forall acc,
    match group_joins ecols t js acc with
    | Ok d =>
        (forall j, In j js -> contains_table ecols j t = true -> jp_ok j) /\
        (forall j, In j (concat (dvalues d)) <-> In j (concat (dvalues acc)) \/ (In j js /\ contains_table ecols j t = true))
        /\ (Forall (fun g => g <> []) (dvalues acc) -> Forall (fun g => g <> []) (dvalues d))
    | Raise e => e = NoJoinPredicateError /\ exists j, In j js /\ contains_table ecols j t = true /\ ~ jp_ok j
    end.
  Proof.
    induction js as [|j js IH]; intros acc; cbn [group_joins].
    - split; [intros ? []|]. split; [intros j; split; [auto|intros [H|[[] _]]; assumption]|auto].
    - destruct (contains_table ecols j t) eqn:Hc.
      + destruct (join_partners_of ecols j t) as [cs|e] eqn:Hj; cbn [rbind].
        * set (key := fset _). set (old := match dget acc key with Some l => l | None => [] end).
          specialize (IH (dset acc key (old ++ [j]))).
          assert (Hset : forall x, In x (concat (dvalues (dset acc key (old ++ [j])))) <-> In x (concat (dvalues acc)) \/ x = j).
          { clear. subst old. induction acc as [|[k v] acc IH]; cbn.
            - intuition.
            - intros x. destruct (eqd key k) as [->|Hn]; cbn.
              + rewrite !in_app_iff. simpl. intuition.
              + rewrite !in_app_iff. cbn in IH. fold (@dget (list nat) (list pred) _ acc key) in *.
                unfold dvalues in IH. rewrite IH. tauto. }
          assert (Hne : Forall (fun g => g <> []) (dvalues acc) -> Forall (fun g => g <> []) (dvalues (dset acc key (old ++ [j])))).
          { clear. subst old. generalize (match dget acc key with Some l => l | None => [] end). intros old.
            induction acc as [|[k v] acc IH]; cbn; intros H.
            - constructor; [|constructor]. destruct old; discriminate.
            - inversion H; subst. destruct (eqd key k); cbn; constructor; auto. destruct old; discriminate. }
          destruct (group_joins ecols t js _) as [d|e].
          -- destruct IH as (H1 & H2 & H3). split; [|split].
             ++ intros x [<-|Hx] Hcx; [|auto]. apply (jpo_ok j t). eauto.
             ++ intros x. rewrite H2, Hset. simpl. split.
                ** intros [[H| ->]|[H ?]]; auto.
                ** intros [H|[[<-|H] ?]]; auto.
             ++ auto.
          -- destruct IH as [He (x & Hx & Hcx & Hn)]. split; [assumption|]. exists x. simpl. auto.
        * split; [eapply jpo_raise; eauto|]. exists j. split; [now left|]. split; [assumption|].
          rewrite <- (jpo_ok j t). intros [l Hl]. congruence.
      + specialize (IH acc). destruct (group_joins ecols t js acc) as [d|e].
        * destruct IH as (H1 & H2 & H3). split; [|split; [|assumption]].
          -- intros x [<-|Hx] Hcx; [congruence|auto].
          -- intros x. rewrite H2. simpl. split; [intros [?|[? ?]]; auto|intros [?|[[<-|?] ?]]; [auto|congruence|auto]].
        * destruct IH as [He (x & Hx & Hcx & Hn)]. split; [assumption|]. exists x. simpl. auto.
  Qed.

  Lemma create_and_ok ps : ps <> [] -> exists p, create_and ps = Ok p /\
    (forall r, sem I r p = all3 (map (sem I r) ps)) /\ (jp_ok p <-> forall q, In q ps -> jp_ok q).
  Proof.
    intros Hne. destruct ps as [|x [|y r]]; [congruence| |].
    - exists x. split; [reflexivity|]. split.
      + intros r. cbn. now rewrite and3_T.
      + split; [intros H q [<-|[]]; assumption|intros H; apply H; now left].
    - exists (PAnd (x :: y :: r)). split; [reflexivity|]. split; [reflexivity|].
      unfold jp_ok at 1. change (join_partners ecols (PAnd (x :: y :: r))) with
        ((fix go l := match l with
               | [] => Ok []
               | q :: r => rbind (join_partners ecols q) (fun x => rbind (go r) (fun y => Ok (x ++ y)))
               end) (x :: y :: r)).
      rewrite jp_list_ok, Forall_forall. reflexivity.
  Qed.

  Lemma joins_for_spec t js :
    match joins_for ecols js t with
    | Ok l => (forall j, In j js -> contains_table ecols j t = true -> jp_ok j) /\ Forall jp_ok l
    | Raise e => e = NoJoinPredicateError /\ exists j, In j js /\ contains_table ecols j t = true /\ ~ jp_ok j
    end.
  Proof.
    unfold joins_for. pose proof (group_joins_spec t js []) as H.
    destruct (group_joins ecols t js []) as [d|e]; cbn [rbind]; [|exact H].
    destruct H as (H1 & H2 & H3). specialize (H3 (Forall_nil _)).
    assert (Hok : Forall (fun g => forall q, In q g -> jp_ok q) (dvalues d)).
    { rewrite Forall_forall. intros g Hg q Hq. assert (Hin : In q (concat (dvalues d))) by (apply in_concat; eauto).
      apply H2 in Hin as [[]|[Hq' Hc]]. apply H1; assumption. }
    clear H2. induction (dvalues d) as [|g gs IH]; cbn; [split; [assumption|constructor]|].
    inversion H3 as [|? ? Hg1 Hg2]; subst. inversion Hok as [|? ? Hk1 Hk2]; subst. destruct (create_and_ok g) as (p & Hp & _ & Hjp); [assumption|].
    rewrite Hp. cbn. specialize (IH Hg2 Hk2). destruct (rmapM create_and gs) as [l|e]; cbn.
    - destruct IH as [_ IH]. split; [assumption|]. constructor; [|assumption]. apply Hjp. assumption.
    - exact IH.
  Qed.

  Lemma map_add_ok t l : forall m, Forall jp_ok l -> exists m', map_add ecols t l m = Ok m'.
  Proof.
    induction l as [|j l IH]; intros m H; cbn; [eauto|]. inversion H as [|? ? Hj Hl]; subst.
    apply (jpo_ok j t) in Hj as [cs Hcs]. rewrite Hcs. cbn. apply IH. assumption.
  Qed.

  (** The QueryPredicates constructor raises exactly if one of the joins has a leaf without join partners. *)
  Lemma init_map_spec js ts : forall m,
    match init_map ecols js ts m with
    | Ok _ => forall t j, In t ts -> In j js -> contains_table ecols j t = true -> jp_ok j
    | Raise e => e = NoJoinPredicateError /\ exists t j, In t ts /\ In j js /\ contains_table ecols j t = true /\ ~ jp_ok j
    end.
  Proof.
    induction ts as [|t ts IH]; intros m; cbn [init_map]; [intros ? ? []|].
    pose proof (joins_for_spec t js) as H. destruct (joins_for ecols js t) as [l|e]; cbn [rbind].
    - destruct H as [H1 H2]. destruct (map_add_ok t l m H2) as [m' ->]. cbn [rbind]. specialize (IH m').
      destruct (init_map ecols js ts m').
      + intros t' j [<-|Ht']; [apply H1|]. now apply IH.
      + destruct IH as [He (t' & j & Ht' & Hj)]. split; [assumption|]. exists t', j. simpl. auto.
    - destruct H as [He (j & Hj)]. split; [assumption|]. exists t, j. simpl. auto.
  Qed.

  (** Tables of collected join predicates are tables of the root; every join has tables. *)
  Lemma In_ctabs cs t : In t (ctabs cs) <-> exists c, In c cs /\ c_tab c = Some t.
  Proof.
    unfold ctabs. rewrite dedup_In, in_flat_map. split.
    - intros (c & Hc & Ht). exists c. destruct (c_tab c); [destruct Ht as [->|[]]; auto|contradiction].
    - intros (c & Hc & Ht). exists c. rewrite Ht. simpl. auto.
  Qed.
  Lemma ptabs_sub p q : incl (pcols ecols q) (pcols ecols p) -> incl (ptabs ecols q) (ptabs ecols p).
  Proof. unfold ptabs. intros H t Ht. apply In_ctabs in Ht as (c & Hc & Ht). apply In_ctabs. eauto. Qed.

  Lemma collect_joins_cols p : forall q, In q (collect_joins p) -> incl (pcols ecols q) (pcols ecols p).
  Proof.
    induction p as [op a b|a lo hi|a vs|op a|p IH|ps IH|ps IH] using pred_ind'; intros q Hq; cbn [Pred_model.collect_joins] in Hq.
    1-4: match type of Hq with In _ (if ?b then _ else _) => destruct b end; [|contradiction];
         destruct Hq as [<-|[]]; apply incl_refl.
    - destruct (is_join p); [|contradiction]. destruct Hq as [<-|[]]. apply incl_refl.
    - apply in_flat_map in Hq as (c & Hc & Hq). rewrite Forall_forall in IH. intros x Hx. cbn.
      apply in_flat_map. exists c. split; [assumption|]. exact (IH c Hc q Hq x Hx).
    - assert (Hall : forall x, In x (filter is_join ps) -> In x ps) by (intros x Hx; apply filter_In in Hx; tauto).
      destruct (filter is_join ps) as [|x [|y r]] eqn:Hf.
      + contradiction.
      + destruct Hq as [<-|[]]. intros c Hc. cbn. apply in_flat_map. exists x. split; [apply Hall; now left|assumption].
      + destruct Hq as [<-|[]]. intros c Hc. change (In c (flat_map (pcols ecols) (x :: y :: r))) in Hc. cbn [pcols].
        apply in_flat_map in Hc as (z & Hz & Hc). apply in_flat_map. exists z. split; auto.
  Qed.

  Lemma many_In s : many s = true -> exists t, In t s.
  Proof. destruct s as [|t s]; [discriminate|]. exists t. now left. Qed.
  Lemma nonempty_In s : nonempty s = true -> exists t, In t s.
  Proof. destruct s as [|t s]; [discriminate|]. exists t. now left. Qed.

  Lemma is_join_tab p : is_join p = true -> exists t, In t (ptabs ecols p).
  Proof.
    unfold ptabs. induction p as [op a b|a lo hi|a vs|op a|p IH|ps IH|ps IH] using pred_ind'; cbn [Pred_model.is_join pcols]; intros J.
    - assert (exists t, In t (etabs ecols a) \/ In t (etabs ecols b)) as (t & Ht).
      { destruct (many (etabs ecols a)) eqn:M1; [apply many_In in M1 as [t Ht]; eauto|].
        destruct (many (etabs ecols b)) eqn:M2; [apply many_In in M2 as [t Ht]; eauto|].
        apply andb_true_iff in J as [J _]. apply andb_true_iff in J as [J _]. apply nonempty_In in J as [t Ht]. eauto. }
      exists t. apply In_ctabs. unfold etabs in Ht. rewrite !In_ctabs in Ht. destruct Ht as [(c & ? & ?)|(c & ? & ?)]; exists c; rewrite in_app_iff; auto.
    - assert (exists t, In t (etabs ecols a ++ etabs ecols lo ++ etabs ecols hi)) as (t & Ht).
      { apply orb_true_iff in J as [J|J]; [apply orb_true_iff in J as [J|J]|].
        - apply many_In in J as [t Ht]. exists t. rewrite in_app_iff. auto.
        - apply many_In in J as [t Ht]. exists t. rewrite dedup_In, in_app_iff in Ht. rewrite !in_app_iff. tauto.
        - apply many_In in J as [t Ht]. exists t. rewrite dedup_In, in_app_iff in Ht. rewrite !in_app_iff. tauto. }
      exists t. apply In_ctabs. unfold etabs in Ht. rewrite !in_app_iff, !In_ctabs in Ht.
      destruct Ht as [(c & ? & ?)|[(c & ? & ?)|(c & ? & ?)]]; exists c; rewrite !in_app_iff; auto.
    - apply orb_true_iff in J as [J|J].
      + apply many_In in J as [t Ht]. exists t. apply In_ctabs. unfold etabs in Ht. apply In_ctabs in Ht as (c & ? & ?).
        exists c. rewrite in_app_iff. auto.
      + apply existsb_exists in J as (v & Hv & J). apply many_In in J as [t Ht]. rewrite dedup_In, in_app_iff in Ht.
        unfold etabs in Ht. rewrite !In_ctabs in Ht. exists t. apply In_ctabs. destruct Ht as [(c & ? & ?)|(c & ? & ?)]; exists c; rewrite in_app_iff; auto.
        split; [right|assumption]. apply in_flat_map. eauto.
    - apply many_In in J. exact J.
    - apply IH. exact J.
    - apply existsb_exists in J as (q & Hq & J). rewrite Forall_forall in IH. destruct (IH q Hq J) as [t Ht]. exists t.
      apply In_ctabs in Ht as (c & Hc & Ht). apply In_ctabs. exists c. split; [|assumption]. apply in_flat_map. eauto.
    - apply existsb_exists in J as (q & Hq & J). rewrite Forall_forall in IH. destruct (IH q Hq J) as [t Ht]. exists t.
      apply In_ctabs in Ht as (c & Hc & Ht). apply In_ctabs. exists c. split; [|assumption]. apply in_flat_map. eauto.
  Qed.

  (** Main statement for C15. *)
  Lemma query_predicates_total p js ts :
    (forall j, In j js <-> In j (collect_joins p)) -> (forall t, In t ts <-> In t (ptabs ecols p)) ->
    ((exists m, query_predicates ecols js ts = Ok m) <-> forall j, In j js -> ~ some_leaf bad_leaf j) /\
    (forall e, query_predicates ecols js ts = Raise e -> e = NoJoinPredicateError).
  Proof.
    intros Hjs Hts. unfold query_predicates. pose proof (init_map_spec js ts []) as H.
    destruct (init_map ecols js ts []) as [m|e].
    - split; [|discriminate]. split; [|eauto]. intros _ j Hj. apply join_partners_ok.
      destruct (is_join_tab j) as [t Ht]; [apply (collect_joins_join p); now apply Hjs|].
      apply (H t j); [|assumption|].
      + apply Hts. apply (ptabs_sub p j); [|assumption]. apply collect_joins_cols. now apply Hjs.
      + unfold contains_table. now apply mem_In.
    - destruct H as [-> (t & j & Ht & Hj & Hc & Hn)]. split; [|congruence].
      split; [intros [m Hm]; discriminate|]. intros Hall. exfalso. apply Hn. apply join_partners_ok. auto.
  Qed.
End P.
