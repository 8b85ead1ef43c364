(** Lemmas about the predicate transformations. *)
From Coq Require Import List Bool Arith Lia Permutation.
From Verif Require Import PyBase Pred_model Pred_spec Pred_proofs Trans_model Trans_spec.
Import ListNotations.

Section P.
  Context {E : Type} {EE : EqD E} (ecols : E -> list col).
  Notation pred := (pred E).

  (** ** flatten_and *)
  Definition not_and (p : pred) : Prop := match p with PAnd _ => False | _ => True end.

  Lemma conjuncts_not_and (p : pred) : forall q, In q (conjuncts p) -> not_and q.
  Proof.
    induction p as [op a b|a lo hi|a vs|op a|p IH|ps IH|ps IH] using pred_ind'; intros q Hq.
    1-5,7: destruct Hq as [<-|[]]; exact Logic.I.
    cbn in Hq. apply in_flat_map in Hq as (c & Hc & Hq). rewrite Forall_forall in IH. eauto.
  Qed.
  Lemma conjuncts_self (p : pred) : not_and p -> conjuncts p = [p].
  Proof. now destruct p. Qed.
  Lemma conjuncts_nonempty (p : pred) : wfp p = true -> conjuncts p <> [].
  Proof.
    induction p as [op a b|a lo hi|a vs|op a|p IH|ps IH|ps IH] using pred_ind'; intros Hwf; try discriminate.
    cbn [wfp] in Hwf. apply andb_true_iff in Hwf as [Hl Hwf]. apply Nat.leb_le in Hl. cbn.
    destruct ps as [|x r]; cbn in Hl; [lia|]. cbn. inversion IH as [|? ? Hx _]; subst. cbn in Hwf. apply andb_true_iff in Hwf as [Hw _].
    specialize (Hx Hw). destruct (conjuncts x); [congruence|discriminate].
  Qed.
  Lemma sem_conjuncts (I : interp E) r p : sem I r p = all3 (map (sem I r) (conjuncts p)).
  Proof.
    induction p as [op a b|a lo hi|a vs|op a|p IH|ps IH|ps IH] using pred_ind'.
    1-5,7: cbn [conjuncts map all3 fold_right]; now rewrite and3_T.
    cbn [conjuncts sem]. induction IH as [|x l Hx _ IHl]; [reflexivity|]. cbn. rewrite map_app. change (fold_right and3 T3) with all3 in *.
    rewrite all3_app, <- Hx. f_equal. exact IHl.
  Qed.

  Section Flat.
    Context (ord : list pred -> list pred) (Hord : forall l, lists_set (ord l) l).

    Definition splice (c : pred) : res (list pred) :=
      match c with
      | PAnd _ => rbind (flatten_and ord c) (fun c' =>
                    match c' with PAnd cs | POr cs => Ok cs | PNot _ => Raise TypeError | b => Ok [b] end)
      | _ => Ok [c]
      end.
    Definition go_splice := fix go (l : list pred) : res (list pred) := match l with
                 | [] => Ok []
                 | c :: r => rbind (splice c) (fun xs => rbind (go r) (fun ys => Ok (xs ++ ys)))
                 end.
    Lemma flatten_and_eq ps : flatten_and ord (PAnd ps) = rbind (go_splice ps) (fun cs => match ord cs with [x] => Ok x | l => create_and l end).
    Proof. reflexivity. Qed.

    Definition is_and (p : pred) : bool := match p with PAnd _ => true | _ => false end.

    Lemma go_splice_ok ps :
      (forall c, In c ps -> exists cs, splice c = Ok cs /\ seteq cs (conjuncts c)) ->
      exists cs, go_splice ps = Ok cs /\ seteq cs (flat_map conjuncts ps).
    Proof.
      induction ps as [|c ps IH]; intros H; cbn; [exists []; split; [reflexivity|intros x; tauto]|].
      destruct (H c) as (xs & Hx & Hxs); [now left|]. change (go_splice ps) with (go_splice ps). rewrite Hx. cbn.
      destruct IH as (ys & Hy & Hys); [intros; apply H; now right|]. fold go_splice. rewrite Hy. cbn.
      exists (xs ++ ys). split; [reflexivity|]. intros z. rewrite !in_app_iff, (Hxs z), (Hys z). tauto.
    Qed.

    Lemma no_rep_child qs ps : In (PAnd qs) ps -> no_repeated_compound (PAnd ps) -> @no_repeated_compound E (PAnd qs).
    Proof. intros Hin H q Hq. apply H. eapply nested_deep; eauto. Qed.

    (** The result for a conjunction: the set of its conjuncts, directly if there is only one. *)
    Lemma flatten_shape (p : pred) : wfp p = true -> no_repeated_compound p -> is_and p = true ->
      exists l, lists_set l (conjuncts p) /\ flatten_and ord p = Ok (match l with [x] => x | _ => PAnd l end).
    Proof.
      induction p as [op a b|a lo hi|a vs|op a|p IH|ps IH|ps IH] using pred_ind'; intros Hwf Hn Ha; try discriminate. clear Ha.
      pose proof Hwf as Hwf0. cbn [wfp] in Hwf. apply andb_true_iff in Hwf as [_ Hwf]. rewrite forallb_forall in Hwf. rewrite Forall_forall in IH.
      destruct (go_splice_ok ps) as (cs & Hcs & Hset).
      { intros c Hc. destruct c as [| | | | |qs|]; try (eexists; split; [reflexivity|intros x; cbn; tauto]).
        destruct (IH (PAnd qs) Hc (Hwf _ Hc) (no_rep_child qs ps Hc Hn) eq_refl) as (l & [Hnd Hl] & Hf).
        cbn [splice]. rewrite Hf. cbn [rbind]. destruct l as [|x [|y r]].
        - exfalso. pose proof (conjuncts_nonempty (PAnd qs) (Hwf _ Hc)) as Hne. destruct (conjuncts (PAnd qs)) as [|z zs]; [congruence|].
          apply (Hl z). now left.
        - assert (Hxb : is_base x = true).
          { destruct (is_base x) eqn:Hb; [reflexivity|exfalso]. apply (Hn (PAnd qs)); [now constructor|].
            exists x. split; [assumption|]. intros y Hy. apply Hl in Hy as [<-|[]]. reflexivity. }
          exists [x]. split; [|exact Hl]. destruct x; try discriminate; reflexivity.
        - exists (x :: y :: r). split; [reflexivity|exact Hl]. }
      exists (ord cs). destruct (Hord cs) as [Hnd Hl]. split.
      - split; [assumption|]. intros x. rewrite Hl. apply Hset.
      - rewrite flatten_and_eq, Hcs. cbn [rbind]. destruct (ord cs) as [|x [|y r]] eqn:Ho; [|reflexivity|reflexivity].
        exfalso. pose proof (conjuncts_nonempty (PAnd ps) Hwf0) as Hne. destruct (conjuncts (PAnd ps)) as [|z zs] eqn:Hz; [congruence|].
        assert (Hin : In z cs) by (apply Hset; change (In z (conjuncts (PAnd ps))); rewrite Hz; now left). apply Hl in Hin. contradiction.
    Qed.

    Lemma flatten_correct (p : pred) : wfp p = true -> no_repeated_compound p ->
      exists p', flatten_and ord p = Ok p' /\
        (forall (I : interp E) r, sem I r p' = sem I r p) /\
        (forall q, In q (conjuncts p') <-> In q (conjuncts p)) /\
        (forall c, In c (pcols ecols p') <-> In c (pcols ecols p)) /\
        (forall ps q, p' = PAnd ps -> In q ps -> not_and q).
    Proof.
      assert (Hcols : forall p, seteq (pcols ecols p) (flat_map (pcols ecols) (conjuncts p))).
      { intros q. induction q as [op a b|a lo hi|a vs|op a|q IH|ps IH|ps IH] using pred_ind'; intros c.
        1-5,7: cbn [conjuncts flat_map]; rewrite app_nil_r; reflexivity.
        cbn [pcols conjuncts]. rewrite !in_flat_map. split.
        - intros (q & Hq & Hc). rewrite Forall_forall in IH. apply (IH q Hq) in Hc. apply in_flat_map in Hc as (z & Hz & Hc).
          exists z. split; [|assumption]. apply in_flat_map. eauto.
        - intros (z & Hz & Hc). apply in_flat_map in Hz as (q & Hq & Hz). exists q. split; [assumption|].
          rewrite Forall_forall in IH. apply (IH q Hq). apply in_flat_map. eauto. }
      intros Hwf Hn. destruct (is_and p) eqn:Ha.
      - destruct (flatten_shape p Hwf Hn Ha) as (l & [Hnd Hl] & Hf). rewrite Hf. eexists. split; [reflexivity|].
        assert (Hnot : forall x, In x l -> not_and x) by (intros x Hx; apply Hl in Hx; now apply conjuncts_not_and in Hx).
        assert (Hconj : forall q, In q (conjuncts (match l with [x] => x | _ => PAnd l end)) <-> In q (conjuncts p)).
        { intros q. rewrite <- Hl. destruct l as [|x [|y r]].
          - cbn. tauto.
          - rewrite conjuncts_self by (apply Hnot; now left). reflexivity.
          - change (In q (flat_map conjuncts (x :: y :: r)) <-> In q (x :: y :: r)). rewrite in_flat_map. split.
            + intros (z & Hz & Hq). rewrite (conjuncts_self z (Hnot z Hz)) in Hq. destruct Hq as [<-|[]]. assumption.
            + intros Hq. exists q. split; [assumption|]. rewrite (conjuncts_self q (Hnot q Hq)). now left. }
        split; [|split; [exact Hconj|split]].
        + intros I r. rewrite (sem_conjuncts I r p), sem_conjuncts. apply all3_seteq, seteq_map. exact Hconj.
        + intros c. rewrite (Hcols p c), (Hcols _ c), !in_flat_map. split; intros (q & Hq & Hc); exists q; split; auto; now apply Hconj.
        + intros ps q Heq Hq. apply Hnot. destruct l as [|x [|y r]].
          * injection Heq as <-. contradiction.
          * exfalso. subst x. specialize (Hnot (PAnd ps) (or_introl eq_refl)). exact Hnot.
          * injection Heq as <-. assumption.
      - exists p. split; [destruct p; try discriminate; reflexivity|]. split; [reflexivity|]. split; [tauto|]. split; [tauto|].
        intros ps q ->. discriminate.
    Qed.
  End Flat.

  (** ** fragment *)
  Definition frag_kids ts := fix go (l : list pred) : res (list pred) := match l with
                | [] => Ok []
                | c :: r => rbind (fragment ecols ts c) (fun x => rbind (go r) (fun ys =>
                              Ok (match x with Some q => q :: ys | None => ys end)))
                end.

  Lemma not_free_list (ps : list pred) :
    (fix go l := match l with [] => True | q :: r => not_free q /\ go r end) ps <-> Forall not_free ps.
  Proof.
    induction ps as [|q r IH]; [split; constructor|]. rewrite IH. split; [intros []; constructor; auto|intros H; inversion H; auto].
  Qed.
  Lemma or_whole_list Q (ps : list pred) :
    (fix go l := match l with [] => True | q :: r => or_whole Q q /\ go r end) ps <-> Forall (or_whole Q) ps.
  Proof.
    induction ps as [|q r IH]; [split; constructor|]. rewrite IH. split; [intros []; constructor; auto|intros H; inversion H; auto].
  Qed.

  Definition onlytabs (ts : list tbl) (p : pred) : Prop := incl (ptabs ecols p) ts.

  Lemma onlytabs_list ts (f : list pred -> pred) ps : (forall l, pcols ecols (f l) = flat_map (pcols ecols) l) ->
    Forall (onlytabs ts) ps -> onlytabs ts (f ps).
  Proof.
    intros Hf H t Ht. unfold ptabs in Ht. rewrite Hf in Ht. apply In_ctabs in Ht as (c & Hc & Ht). apply in_flat_map in Hc as (q & Hq & Hc).
    rewrite Forall_forall in H. apply (H q Hq). apply In_ctabs. eauto.
  Qed.

  Lemma frag_base ts p : is_base p = true -> fragment ecols ts p = Ok (if subsetb (ptabs ecols p) ts then Some p else None).
  Proof. destruct p; try discriminate; reflexivity. Qed.

  (** Tables of a fragment, whenever there is one. *)
  Lemma fragment_tables ts : forall p q, fragment ecols ts p = Ok (Some q) -> onlytabs ts q.
  Proof.
    assert (Hk : forall ps, Forall (fun p => forall q, fragment ecols ts p = Ok (Some q) -> onlytabs ts q) ps ->
              forall cs, frag_kids ts ps = Ok cs -> Forall (onlytabs ts) cs).
    { induction 1 as [|p ps Hp _ IH]; intros cs Hcs; cbn in Hcs; [injection Hcs as <-; constructor|].
      destruct (fragment ecols ts p) as [x|] eqn:Hx; [|discriminate]. cbn in Hcs. fold (frag_kids ts) in Hcs.
      destruct (frag_kids ts ps) as [ys|]; [|discriminate]. cbn in Hcs. injection Hcs as <-.
      destruct x as [q|]; [constructor; auto|auto]. }
    intros p. induction p as [op a b|a lo hi|a vs|op a|p IH|ps IH|ps IH] using pred_ind'; intros q Hq.
    1-4: rewrite frag_base in Hq by reflexivity; match type of Hq with context [subsetb ?a ?b] => destruct (subsetb a b) eqn:Hs end;
         [injection Hq as <-; now apply subsetb_incl|discriminate].
    - discriminate.
    - cbn in Hq. fold (frag_kids ts) in Hq. destruct (frag_kids ts ps) as [cs|] eqn:Hcs; [|discriminate]. cbn in Hq.
      specialize (Hk ps IH cs Hcs). destruct cs as [|x [|y r]]; [discriminate| |]; injection Hq as <-.
      + inversion Hk; assumption.
      + now apply (onlytabs_list ts PAnd).
    - cbn in Hq. fold (frag_kids ts) in Hq. destruct (frag_kids ts ps) as [cs|] eqn:Hcs; [|discriminate]. cbn in Hq.
      specialize (Hk ps IH cs Hcs). destruct cs as [|x [|y r]]; [discriminate| |]; injection Hq as <-.
      + inversion Hk; assumption.
      + now apply (onlytabs_list ts POr).
  Qed.

  Definition inside (ts : list tbl) (b : pred) : Prop := onlytabs ts b.

  (** Fully contained and fully outside predicates. *)
  Lemma fragment_whole ts p : wfp p = true -> not_free p -> ~ some_leaf (fun b => ~ inside ts b) p -> fragment ecols ts p = Ok (Some p).
  Proof.
    induction p as [op a b|a lo hi|a vs|op a|p IH|ps IH|ps IH] using pred_ind'; intros Hwf Hnf Hl.
    1-4: rewrite frag_base by reflexivity; match goal with |- context [subsetb ?a ?b] => destruct (subsetb a b) eqn:Hs end; [reflexivity|];
         exfalso; apply Hl; cbn [some_leaf]; intros Hi; apply subsetb_incl in Hi; congruence.
    - destruct Hnf.
    - cbn [wfp] in Hwf. apply andb_true_iff in Hwf as [Hlen Hwf]. rewrite forallb_forall in Hwf. cbn in Hnf. rewrite not_free_list in Hnf.
      cbn [some_leaf] in Hl. rewrite some_leaf_list in Hl. rewrite Forall_forall in *.
      cbn. fold (frag_kids ts). assert (Hk : frag_kids ts ps = Ok ps).
      { clear Hlen. induction ps as [|q ps IHp]; [reflexivity|]. cbn. rewrite IH; [|now left|apply Hwf; now left|apply Hnf; now left|intros Hb; apply Hl; exists q; simpl; auto].
        cbn. fold (frag_kids ts). rewrite IHp; [reflexivity|intros; apply IH; simpl; auto|intros; apply Hwf; now right|intros; apply Hnf; now right|].
        intros (z & Hz & Hb). apply Hl. exists z. simpl. auto. }
      rewrite Hk. cbn. destruct ps as [|x [|y r]]; [discriminate|discriminate|reflexivity].
    - cbn [wfp] in Hwf. apply andb_true_iff in Hwf as [Hlen Hwf]. rewrite forallb_forall in Hwf. cbn in Hnf. rewrite not_free_list in Hnf.
      cbn [some_leaf] in Hl. rewrite some_leaf_list in Hl. rewrite Forall_forall in *.
      cbn. fold (frag_kids ts). assert (Hk : frag_kids ts ps = Ok ps).
      { clear Hlen. induction ps as [|q ps IHp]; [reflexivity|]. cbn. rewrite IH; [|now left|apply Hwf; now left|apply Hnf; now left|intros Hb; apply Hl; exists q; simpl; auto].
        cbn. fold (frag_kids ts). rewrite IHp; [reflexivity|intros; apply IH; simpl; auto|intros; apply Hwf; now right|intros; apply Hnf; now right|].
        intros (z & Hz & Hb). apply Hl. exists z. simpl. auto. }
      rewrite Hk. cbn. destruct ps as [|x [|y r]]; [discriminate|discriminate|reflexivity].
  Qed.

  Lemma fragment_none ts p : not_free p -> ~ some_leaf (inside ts) p -> fragment ecols ts p = Ok None.
  Proof.
    induction p as [op a b|a lo hi|a vs|op a|p IH|ps IH|ps IH] using pred_ind'; intros Hnf Hl.
    1-4: rewrite frag_base by reflexivity; match goal with |- context [subsetb ?a ?b] => destruct (subsetb a b) eqn:Hs end; [|reflexivity];
         exfalso; apply Hl; cbn [some_leaf]; now apply subsetb_incl in Hs.
    - destruct Hnf.
    - cbn in Hnf. rewrite not_free_list in Hnf. cbn [some_leaf] in Hl. rewrite some_leaf_list in Hl. rewrite Forall_forall in *.
      cbn. fold (frag_kids ts). assert (Hk : frag_kids ts ps = Ok []).
      { induction ps as [|q ps IHp]; [reflexivity|]. cbn. rewrite IH; [|now left|apply Hnf; now left|intros Hb; apply Hl; exists q; simpl; auto].
        cbn. fold (frag_kids ts). rewrite IHp; [reflexivity|intros; apply IH; simpl; auto|intros; apply Hnf; now right|].
        intros (z & Hz & Hb). apply Hl. exists z. simpl. auto. }
      rewrite Hk. reflexivity.
    - cbn in Hnf. rewrite not_free_list in Hnf. cbn [some_leaf] in Hl. rewrite some_leaf_list in Hl. rewrite Forall_forall in *.
      cbn. fold (frag_kids ts). assert (Hk : frag_kids ts ps = Ok []).
      { induction ps as [|q ps IHp]; [reflexivity|]. cbn. rewrite IH; [|now left|apply Hnf; now left|intros Hb; apply Hl; exists q; simpl; auto].
        cbn. fold (frag_kids ts). rewrite IHp; [reflexivity|intros; apply IH; simpl; auto|intros; apply Hnf; now right|].
        intros (z & Hz & Hb). apply Hl. exists z. simpl. auto. }
      rewrite Hk. reflexivity.
  Qed.

  (** Without NOT there is no exception. *)
  Lemma fragment_ok ts p : not_free p -> exists x, fragment ecols ts p = Ok x.
  Proof.
    induction p as [op a b|a lo hi|a vs|op a|p IH|ps IH|ps IH] using pred_ind'; intros Hnf.
    1-4: rewrite frag_base by reflexivity; eauto.
    - destruct Hnf.
    - cbn in Hnf. rewrite not_free_list in Hnf. cbn. fold (frag_kids ts).
      assert (exists cs, frag_kids ts ps = Ok cs) as [cs ->]; [|cbn; eauto].
      induction IH as [|q ps Hq _ IHp]; [cbn; eauto|]. inversion Hnf as [|? ? Hn1 Hn2]; subst. cbn. destruct (Hq Hn1) as [x ->]. cbn. fold (frag_kids ts).
      destruct (IHp Hn2) as [ys ->]. cbn. eauto.
    - cbn in Hnf. rewrite not_free_list in Hnf. cbn. fold (frag_kids ts).
      assert (exists cs, frag_kids ts ps = Ok cs) as [cs ->]; [|cbn; eauto].
      induction IH as [|q ps Hq _ IHp]; [cbn; eauto|]. inversion Hnf as [|? ? Hn1 Hn2]; subst. cbn. destruct (Hq Hn1) as [x ->]. cbn. fold (frag_kids ts).
      destruct (IHp Hn2) as [ys ->]. cbn. eauto.
  Qed.

  Lemma fragment_implied (I : interp E) r ts p : wfp p = true -> not_free p -> or_whole (inside ts) p ->
    forall q, fragment ecols ts p = Ok (Some q) -> sem I r p = T3 -> sem I r q = T3.
  Proof.
    induction p as [op a b|a lo hi|a vs|op a|p IH|ps IH|ps IH] using pred_ind'; intros Hwf Hnf How q Hq Hp.
    1-4: rewrite frag_base in Hq by reflexivity; match type of Hq with context [subsetb ?a ?b] => destruct (subsetb a b) end;
         [injection Hq as <-; assumption|discriminate].
    - destruct Hnf.
    - cbn [wfp] in Hwf. apply andb_true_iff in Hwf as [_ Hwf]. rewrite forallb_forall in Hwf. cbn in Hnf. rewrite not_free_list in Hnf.
      cbn in How. rewrite or_whole_list in How. cbn in Hq. fold (frag_kids ts) in Hq. destruct (frag_kids ts ps) as [cs|] eqn:Hcs; [|discriminate].
      cbn [rbind] in Hq. cbn [sem] in Hp.
      assert (Hall : forall c, In c cs -> sem I r c = T3).
      { clear Hq. revert cs Hcs. induction IH as [|x ps Hx _ IHp]; intros cs Hcs c Hc; cbn in Hcs.
        - injection Hcs as <-. contradiction.
        - destruct (fragment ecols ts x) as [o|] eqn:Ho; [|discriminate]. cbn in Hcs. fold (frag_kids ts) in Hcs.
          destruct (frag_kids ts ps) as [ys|] eqn:Hys; [|discriminate]. cbn in Hcs. injection Hcs as <-.
          inversion Hnf as [|? ? Hn1 Hn2]; subst. inversion How as [|? ? Ho1 Ho2]; subst.
          assert (Hpx : sem I r x = T3 /\ all3 (map (sem I r) ps) = T3).
          { cbn in Hp. change (fold_right and3 T3 (map (sem I r) ps)) with (all3 (map (sem I r) ps)) in Hp.
            destruct (sem I r x), (all3 (map (sem I r) ps)); try discriminate; auto. }
          destruct Hpx as [Hpx Hps].
          assert (Hrest : forall c, In c ys -> sem I r c = T3).
          { intros c' Hc'. apply (IHp (fun z Hz => Hwf z (or_intror Hz)) Hn2 Ho2 Hps ys eq_refl c' Hc'). }
          destruct o as [q0|]; [destruct Hc as [<-|Hc]; [|auto]|auto]. apply (Hx (Hwf x (or_introl eq_refl)) Hn1 Ho1 q0 eq_refl Hpx). }
      destruct cs as [|x [|y l]]; [discriminate| |]; injection Hq as <-; [apply Hall; now left|].
      cbn [sem]. apply all3_T. intros v Hv. apply in_map_iff in Hv as (c & <- & Hc). auto.
    - assert (Hcase : ~ some_leaf (fun b => ~ inside ts b) (POr ps) \/ ~ some_leaf (inside ts) (POr ps)) by exact How.
      destruct Hcase as [H|H].
      + rewrite (fragment_whole ts (POr ps) Hwf Hnf H) in Hq. injection Hq as <-. exact Hp.
      + rewrite (fragment_none ts (POr ps) Hnf H) in Hq. discriminate.
  Qed.

  (** ** rename *)
  Lemma rename_sem (I : interp E) (ren : E -> E) (f : col -> col) r :
    (forall e, val I r (ren e) = val I (fun c => r (f c)) e) ->
    forall p, sem I r (rename_pred ren p) = sem I (fun c => r (f c)) p.
  Proof.
    intros Hr. induction p as [op a b|a lo hi|a vs|op a|p IH|ps IH|ps IH] using pred_ind'; cbn [rename_pred sem].
    - now rewrite !Hr.
    - now rewrite !Hr.
    - rewrite map_map. f_equal. apply map_ext. intros v. now rewrite !Hr.
    - now rewrite Hr.
    - now rewrite IH.
    - f_equal. rewrite map_map. apply map_ext_in. rewrite Forall_forall in IH. exact IH.
    - f_equal. rewrite map_map. apply map_ext_in. rewrite Forall_forall in IH. exact IH.
  Qed.
  Lemma rename_cols (ren : E -> E) (f : col -> col) : (forall e, ecols (ren e) = map f (ecols e)) ->
    forall p, pcols ecols (rename_pred ren p) = map f (pcols ecols p).
  Proof.
    intros Hr. assert (Hfm : forall (l : list E), flat_map ecols (map ren l) = map f (flat_map ecols l)).
    { induction l as [|x l IH]; [reflexivity|]. cbn. rewrite map_app, Hr, IH. reflexivity. }
    induction p as [op a b|a lo hi|a vs|op a|p IH|ps IH|ps IH] using pred_ind'; cbn [rename_pred pcols].
    - now rewrite !Hr, map_app.
    - now rewrite !Hr, !map_app.
    - now rewrite !Hr, map_app, Hfm.
    - apply Hr.
    - exact IH.
    - induction IH as [|x l Hx _ IHl]; [reflexivity|]. cbn. now rewrite map_app, Hx, IHl.
    - induction IH as [|x l Hx _ IHl]; [reflexivity|]. cbn. now rewrite map_app, Hx, IHl.
  Qed.
  Lemma rename_wf (ren : E -> E) p : wfp (rename_pred ren p) = wfp p.
  Proof.
    induction p as [op a b|a lo hi|a vs|op a|p IH|ps IH|ps IH] using pred_ind'; cbn [rename_pred wfp]; try reflexivity; [exact IH| |];
      rewrite map_length; f_equal; induction IH as [|x l Hx _ IHl]; [reflexivity| |reflexivity|]; cbn; now rewrite Hx, IHl.
  Qed.

  (** ** equivalence classes *)
  Definition joined_in (k : list col) (a b : col) : Prop := In a k /\ In b k.
  Definition ec_inv (es : list (col * col)) (ks : list (list col)) : Prop :=
    (forall k, In k ks -> NoDup k) /\
    (forall k a b, In k ks -> In a k -> In b k -> a = b \/ equated es a b) /\
    (forall a b, In (a, b) es -> exists k, In k ks /\ In a k /\ In b k) /\
    (forall k a, In k ks -> In a k -> exists b, In (a, b) es \/ In (b, a) es) /\
    (forall k k' a, In k ks -> In k' ks -> In a k -> In a k' -> k = k').

  Lemma equated_mono {A} (es es' : list (A * A)) a b : incl es es' -> equated es a b -> equated es' a b.
  Proof. intros Hi. induction 1; [apply eq_edge; auto|now apply eq_sym|eapply eq_trans; eauto]. Qed.

  Lemma ec_merge_inv es ks e : ec_inv es ks -> ec_inv (es ++ [e]) (ec_merge ks e).
  Proof.
    destruct e as [x y]. intros (H1 & H2 & H3 & H4 & H5).
    assert (Hi : incl es (es ++ [(x, y)])) by (intros z Hz; apply in_app_iff; auto).
    assert (He : equated (es ++ [(x, y)]) x y) by (apply eq_edge; apply in_app_iff; simpl; auto).
    unfold ec_merge. cbn [fst snd]. set (hit := fun k => mem x k || mem y k).
    set (new := dedup (x :: y :: concat (filter hit ks))).
    assert (Hnew : forall a, In a new <-> a = x \/ a = y \/ exists k, In k ks /\ (In x k \/ In y k) /\ In a k).
    { intros a. unfold new. rewrite dedup_In. cbn [In]. rewrite in_concat. unfold hit. split.
      - intros [<-|[<-|(k & Hk & Ha)]]; auto. right. right. apply filter_In in Hk as [Hk Hh]. exists k. rewrite orb_true_iff, !mem_In in Hh. auto.
      - intros [->|[->|(k & Hk & Hh & Ha)]]; auto. right. right. exists k. split; [|assumption]. apply filter_In. rewrite orb_true_iff, !mem_In. auto. }
    assert (Hx : forall a, In a new -> a = x \/ equated (es ++ [(x, y)]) a x).
    { intros a Ha. apply Hnew in Ha as [->|[->|(k & Hk & [Hxk|Hyk] & Ha)]]; [auto|right; now apply eq_sym| |].
      - destruct (H2 k a x Hk Ha Hxk) as [->|Hq]; [auto|right]. eapply equated_mono; eauto.
      - right. destruct (H2 k a y Hk Ha Hyk) as [->|Hq]; [now apply eq_sym|]. eapply eq_trans; [eapply equated_mono; eauto|now apply eq_sym]. }
    assert (Hold : forall k, In k (filter (fun k => negb (hit k)) ks) -> In k ks /\ ~ In x k /\ ~ In y k).
    { intros k Hk. apply filter_In in Hk as [Hk Hh]. apply negb_true_iff, orb_false_iff in Hh as [Hh1 Hh2]. apply mem_nIn in Hh1, Hh2. auto. }
    assert (Hdisj : forall k a, In k (filter (fun k => negb (hit k)) ks) -> In a k -> In a new -> False).
    { intros k a Hk Ha Hn. apply Hold in Hk as (Hk & Hxk & Hyk). apply Hnew in Hn as [->|[->|(k' & Hk' & Hh & Ha')]]; auto.
      assert (k = k') by (eapply H5; eauto). subst k'. tauto. }
    split; [|split; [|split; [|split]]].
    - intros k [<-|Hk]; [apply dedup_NoDup|]. apply Hold in Hk as [Hk _]. auto.
    - intros k a b [<-|Hk] Ha Hb.
      + destruct (Hx a Ha) as [->|Ea], (Hx b Hb) as [->|Eb]; auto; right; [now apply eq_sym|]. eapply eq_trans; [exact Ea|now apply eq_sym].
      + apply Hold in Hk as [Hk _]. destruct (H2 k a b Hk Ha Hb); [auto|right; eapply equated_mono; eauto].
    - intros a b Hab. apply in_app_iff in Hab as [Hab|[[= <- <-]|[]]].
      + destruct (H3 a b Hab) as (k & Hk & Ha & Hb). destruct (hit k) eqn:Hh.
        * unfold hit in Hh. rewrite orb_true_iff, !mem_In in Hh. exists new. split; [now left|]. split; apply Hnew; right; right; eauto.
        * exists k. split; [right; apply filter_In; split; [assumption|]; change (negb (hit k) = true); now rewrite Hh|auto].
      + exists new. split; [now left|]. split; apply Hnew; auto.
    - intros k a [<-|Hk] Ha.
      + apply Hnew in Ha as [->|[->|(k & Hk & _ & Ha)]].
        * exists y. left. apply in_app_iff. simpl. auto.
        * exists x. right. apply in_app_iff. simpl. auto.
        * destruct (H4 k a Hk Ha) as (b & [Hb|Hb]); exists b; [left|right]; auto.
      + apply Hold in Hk as [Hk _]. destruct (H4 k a Hk Ha) as (b & [Hb|Hb]); exists b; [left|right]; auto.
    - intros k k' a [<-|Hk] [<-|Hk'] Ha Ha'; [reflexivity|exfalso; eauto|exfalso; eauto|].
      apply Hold in Hk as [Hk _]. apply Hold in Hk' as [Hk' _]. eauto.
  Qed.

  Lemma ec_classes_inv es : forall pre ks, ec_inv pre ks -> ec_inv (pre ++ es) (fold_left ec_merge es ks).
  Proof.
    induction es as [|e es IH]; intros pre ks H; cbn [fold_left]; [now rewrite app_nil_r|].
    change (e :: es) with ([e] ++ es). rewrite app_assoc. apply IH. now apply ec_merge_inv.
  Qed.
  Lemma ec_inv_nil : ec_inv [] [].
  Proof. repeat split; intros; contradiction. Qed.

  Lemma ec_classes_spec js : ec_inv (ec_edges ecols js) (ec_classes ecols js).
  Proof. apply (ec_classes_inv (ec_edges ecols js) [] []). apply ec_inv_nil. Qed.

  Lemma equated_same_class es ks a b : ec_inv es ks -> equated es a b -> exists k, In k ks /\ In a k /\ In b k.
  Proof.
    intros (H1 & H2 & H3 & H4 & H5). induction 1 as [a b Hab|a b _ IH|a b c _ IH1 _ IH2].
    - auto.
    - destruct IH as (k & ? & ? & ?). eauto.
    - destruct IH1 as (k & Hk & Ha & Hb), IH2 as (k' & Hk' & Hb' & Hc).
      assert (k = k') by (eapply H5; eauto). subst k'. eauto.
  Qed.

  Lemma all_pairs_In {A} (l : list A) x y : In (x, y) (all_pairs l) -> In x l /\ In y l.
  Proof.
    induction l as [|z l IH]; cbn; [tauto|]. rewrite in_app_iff, in_map_iff. intros [(w & [= <- <-] & Hw)|H]; [auto|tauto].
  Qed.
  Lemma all_pairs_complete {A} (l : list A) x y : In x l -> In y l -> x <> y -> In (x, y) (all_pairs l) \/ In (y, x) (all_pairs l).
  Proof.
    induction l as [|z l IH]; cbn; [tauto|]. rewrite !in_app_iff, !in_map_iff.
    intros [<-|Hx] [<-|Hy] Hn; [congruence|left; left; eauto|right; left; eauto|]. destruct (IH Hx Hy Hn); auto.
  Qed.

  (** Equality of values is symmetric and transitive (SQL: on non-NULL values). *)
  Definition eq_sound (I : interp E) : Prop :=
    (forall x y, opsem I OpEq x y = T3 -> opsem I OpEq y x = T3) /\
    (forall x y z, opsem I OpEq x y = T3 -> opsem I OpEq y z = T3 -> opsem I OpEq x z = T3).

  Section EC.
    Context (colexp : col -> E).
    Definition simple_equi (j : pred) : Prop := exists a b, a <> b /\ c_tab a <> c_tab b /\ c_tab a <> None /\ c_tab b <> None /\ j = PBin OpEq (colexp a) (colexp b).

    Lemma simple_equi_edge j (Hc : forall c, ecols (colexp c) = [c]) : simple_equi j ->
      exists a b, a <> b /\ j = PBin OpEq (colexp a) (colexp b) /\ ec_edge ecols j = [(a, b)].
    Proof.
      intros (a & b & Hab & Ht & Ha & Hb & ->). exists a, b. split; [assumption|]. split; [reflexivity|].
      assert (Hj : is_join ecols (PBin OpEq (colexp a) (colexp b)) = true).
      { cbn [is_join]. unfold etabs. rewrite !Hc. unfold ctabs. cbn. destruct (c_tab a) as [ta|]; [|congruence]. destruct (c_tab b) as [tb|]; [|congruence].
        cbn. apply not_false_iff_true. intros H. apply negb_false_iff in H. apply (seteqb_seteq [ta] [tb]) in H.
        destruct (proj1 (H ta) (or_introl eq_refl)) as [->|[]]. congruence. }
      unfold ec_edge. rewrite Hj, !Hc. cbn. destruct (deqb_spec a b) as [->|]; [congruence|]. reflexivity.
    Qed.

    Lemma add_ec_equiv (I : interp E) r js fs (Hc : forall c, ecols (colexp c) = [c]) (Hv : forall c, val I r (colexp c) = r c) :
      eq_sound I -> (forall j, In j js -> simple_equi j) -> js ++ fs <> [] ->
      exists p, add_ec ecols colexp js fs = Ok p /\ (sem I r p = T3 <-> forall q, In q (js ++ fs) -> sem I r q = T3).
    Proof.
      intros [Hsym Htr] Hsim Hne. set (ks := ec_classes ecols js). pose proof (ec_classes_spec js) as Hinv. fold ks in Hinv.
      assert (Hedge : forall a b, In (a, b) (ec_edges ecols js) -> In (PBin OpEq (colexp a) (colexp b)) js).
      { intros a b H. unfold ec_edges in H. apply in_flat_map in H as (j & Hj & H). destruct (simple_equi_edge j Hc (Hsim j Hj)) as (x & y & _ & -> & He).
        rewrite He in H. destruct H as [[= <- <-]|[]]. assumption. }
      assert (Hnone : js = [] \/ ec_predicates colexp ks <> []).
      { destruct js as [|j js']; [auto|right]. destruct (simple_equi_edge j Hc (Hsim j (or_introl eq_refl))) as (a & b & Hab & Hj & He).
        destruct Hinv as (_ & _ & H3 & _). destruct (H3 a b) as (k & Hk & Ha & Hb); [unfold ec_edges; cbn [flat_map]; rewrite He; now left|].
        intros Hnil. assert (Hin : forall p, ~ In p (ec_predicates colexp ks)) by (rewrite Hnil; intros p []).
        destruct (all_pairs_complete k a b Ha Hb Hab) as [H|H].
        - apply (Hin (PBin OpEq (colexp a) (colexp b))). unfold ec_predicates. apply in_flat_map. exists k. split; [assumption|]. apply in_map_iff. exists (a, b). auto.
        - apply (Hin (PBin OpEq (colexp b) (colexp a))). unfold ec_predicates. apply in_flat_map. exists k. split; [assumption|]. apply in_map_iff. exists (b, a). auto. }
      unfold add_ec. fold ks. destruct (create_and_ok ecols I (ec_predicates colexp ks ++ fs)) as (p & Hp & Hs & _).
      { intros H. apply app_eq_nil in H as [H ->]. destruct Hnone as [->|]; [now apply Hne|contradiction]. }
      exists p. split; [exact Hp|]. rewrite Hs, all3_T. split.
      - intros H q Hq. assert (HT : forall z, In z (ec_predicates colexp ks ++ fs) -> sem I r z = T3) by (intros z Hz; apply H; now apply in_map).
        apply in_app_iff in Hq as [Hq|Hq]; [|apply HT; apply in_app_iff; auto].
        destruct (simple_equi_edge q Hc (Hsim q Hq)) as (a & b & Hab & -> & He).
        destruct Hinv as (_ & _ & H3 & _). destruct (H3 a b) as (k & Hk & Ha & Hb).
        { unfold ec_edges. apply in_flat_map. exists (PBin OpEq (colexp a) (colexp b)). rewrite He. simpl. auto. }
        destruct (all_pairs_complete k a b Ha Hb Hab) as [Hpr|Hpr].
        + apply HT. apply in_app_iff. left. unfold ec_predicates. apply in_flat_map. exists k. split; [assumption|]. apply in_map_iff. exists (a, b). auto.
        + cbn [sem]. apply Hsym. change (sem I r (PBin OpEq (colexp b) (colexp a)) = T3). apply HT. apply in_app_iff. left.
          unfold ec_predicates. apply in_flat_map. exists k. split; [assumption|]. apply in_map_iff. exists (b, a). auto.
      - intros H v Hv'. apply in_map_iff in Hv' as (q & <- & Hq). apply in_app_iff in Hq as [Hq|Hq]; [|apply H; apply in_app_iff; auto].
        unfold ec_predicates in Hq. apply in_flat_map in Hq as (k & Hk & Hq). apply in_map_iff in Hq as ([a b] & <- & Hab).
        assert (Heq : forall a b, equated (ec_edges ecols js) a b -> opsem I OpEq (r a) (r b) = T3).
        { intros a' b' He. induction He as [a' b' He|a' b' _ IH|a' b' c' _ IH1 _ IH2]; [|auto|eauto].
          rewrite <- (Hv a'), <- (Hv b'). apply (H (PBin OpEq (colexp a') (colexp b'))). apply in_app_iff. left. auto. }
        cbn [sem]. rewrite !Hv. pose proof (all_pairs_In k a b Hab) as [Ha Hb]. destruct Hinv as (_ & H2 & _ & H4 & _).
        destruct (H2 k a b Hk Ha Hb) as [->|He]; [|auto].
        (* a column paired with itself cannot be produced from a duplicate-free class, but holds anyway *)
        destruct (H4 k b Hk Hb) as (c & [Hc'|Hc']); assert (He := eq_edge _ _ _ Hc'); [|apply eq_sym in He];
          apply Heq in He; apply (Htr _ _ _ He); now apply Hsym.
    Qed.
  End EC.

  (** ** explicit_to_implicit *)
  Definition work_tables (w : list (@source E)) : list tbl := flat_map source_tables w.
  Definition work_admits (I : interp E) ok r (w : list (@source E)) : Prop := Forall (admits I ok r) w.

  Lemma all_some_app {A} (l m : list (option A)) : all_some (l ++ m) = match all_some l, all_some m with Some a, Some b => Some (a ++ b) | _, _ => None end.
  Proof.
    unfold all_some. induction l as [|[x|] l IH]; cbn [fold_right app].
    - match goal with |- ?a = _ => now destruct a end.
    - rewrite IH. destruct (fold_right _ _ l); [|reflexivity]. now destruct (fold_right _ _ m).
    - reflexivity.
  Qed.

  Lemma e2i_loop_spec fuel : forall work tabs preds ps,
    Forall inner_tree work -> all_some preds = Some ps -> fold_right (fun s n => src_size s + n) 0 work < fuel ->
    exists tabs' preds' ps', e2i_loop fuel work tabs preds = Ok (tabs', preds') /\ all_some preds' = Some ps' /\
      Permutation tabs' (tabs ++ work_tables work) /\
      Permutation ps' (ps ++ flat_map source_conds work) /\
      (forall (I : interp E) (ok : tbl -> Prop) (r : row I),
         ((forall t, In t tabs' -> ok t) /\ (forall p, In p ps' -> sem I r p = T3)) <->
         ((forall t, In t tabs -> ok t) /\ (forall p, In p ps -> sem I r p = T3) /\ work_admits I ok r work)).
  Proof.
    induction fuel as [|fuel IH]; intros work tabs preds ps Hi Hps Hf; [lia|]. destruct work as [|s w]; cbn [e2i_loop].
    - exists tabs, preds, ps. split; [reflexivity|]. split; [assumption|]. split; [cbn; now rewrite app_nil_r|]. split; [cbn; now rewrite app_nil_r|].
      intros I ok r. unfold work_admits. split; [intros []; auto|intros (? & ? & _); auto].
    - inversion Hi as [|? ? Hs Hw]; subst. cbn in Hf. destruct s as [t|l r0 c|]; cbn in Hs.
      + destruct (IH w (tabs ++ [t]) preds ps Hw Hps ltac:(cbn in Hf; lia)) as (t' & p' & ps' & H1 & H2 & H3 & H3' & H4).
        exists t', p', ps'. split; [assumption|]. split; [assumption|]. split.
        * rewrite H3. rewrite <- app_assoc. reflexivity.
        * split; [exact H3'|]. intros I ok r. rewrite H4. split.
          -- intros (Ha & Hb & Hc). split; [intros; apply Ha; apply in_app_iff; auto|]. split; [assumption|]. constructor; [|assumption]. cbn. apply Ha. apply in_app_iff. simpl. auto.
          -- intros (Ha & Hb & Hc). inversion Hc as [|? ? Hc1 Hc2]; subst. cbn in Hc1. split; [|auto]. intros z Hz. apply in_app_iff in Hz as [Hz|[<-|[]]]; auto.
      + destruct Hs as (Hsl & Hsr & Hcn). destruct c as [c|]; [|congruence].
        destruct (IH (r0 :: l :: w) tabs (preds ++ [Some c]) (ps ++ [c])) as (t' & p' & ps' & H1 & H2 & H3 & H3' & H4).
        * constructor; [assumption|constructor; assumption].
        * rewrite all_some_app, Hps. reflexivity.
        * cbn in *. lia.
        * exists t', p', ps'. split; [assumption|]. split; [assumption|]. split.
          -- rewrite H3. apply Permutation_app_head. cbn. rewrite <- app_assoc. unfold work_tables.
             rewrite !app_assoc. apply Permutation_app_tail. apply Permutation_app_comm.
          -- split; [rewrite H3'; rewrite <- app_assoc; apply Permutation_app_head; cbn; constructor; rewrite !app_assoc;
                     apply Permutation_app_tail, Permutation_app_comm|]. intros I ok r. rewrite H4. split.
             ++ intros (Ha & Hb & Hc). inversion Hc as [|? ? Hc1 Hc2]; subst. inversion Hc2 as [|? ? Hc3 Hc4]; subst.
                split; [assumption|]. split; [intros; apply Hb; apply in_app_iff; auto|]. constructor; [|assumption]. cbn.
                split; [assumption|]. split; [assumption|]. apply Hb. apply in_app_iff. simpl. auto.
             ++ intros (Ha & Hb & Hc). inversion Hc as [|? ? Hc1 Hc2]; subst. cbn in Hc1. destruct Hc1 as (Hx & Hy & Hz).
                split; [assumption|]. split; [intros p Hp; apply in_app_iff in Hp as [Hp|[<-|[]]]; auto|]. repeat constructor; assumption.
      + contradiction.
  Qed.

  Lemma size_rev (l : list (@source E)) : fold_right (fun s n => src_size s + n) 0 (rev l) = fold_right (fun s n => src_size s + n) 0 l.
  Proof.
    assert (H : forall l m : list (@source E), fold_right (fun s n => src_size s + n) 0 (l ++ m) = fold_right (fun s n => src_size s + n) 0 l + fold_right (fun s n => src_size s + n) 0 m).
    { induction l0 as [|x l0 IH]; intros m; cbn; [reflexivity|]. rewrite IH. lia. }
    induction l as [|x l IH]; cbn; [reflexivity|]. rewrite H, IH. cbn. lia.
  Qed.

  Lemma nested_and_shape (q p : pred) : nested_and q p -> exists qs ps, q = PAnd qs /\ p = PAnd ps.
  Proof. induction 1 as [qs ps H|x qs ps H _ IH]; [eauto|]. destruct IH as (a & b & -> & _). eauto. Qed.

  Lemma plain_create_and (cs : list pred) p : create_and cs = Ok p -> (forall c, In c cs -> wfp c = true /\ plain_condition c) ->
    wfp p = true /\ no_repeated_compound p.
  Proof.
    intros Hc H. destruct cs as [|x [|y r]]; cbn in Hc; [discriminate| |].
    - injection Hc as <-. destruct (H x (or_introl eq_refl)) as [? [? _]]. auto.
    - injection Hc as <-. split.
      + cbn [wfp]. apply andb_true_iff. split; [reflexivity|]. apply forallb_forall. intros c Hc'. now apply H.
      + intros q Hq. inversion Hq as [qs ps Hin|z qs ps Hin Hn]; subst.
        * destruct (H _ Hin) as [_ [_ Hp]]. exact Hp.
        * destruct (H _ Hin) as [_ [Hp _]]. apply Hp. assumption.
  Qed.

  Lemma e2i_spec ord items where_ :
    (forall l, lists_set (ord l) l) -> Forall inner_tree items ->
    (forall c, In c (match where_ with Some w => [w] | None => [] end ++ flat_map source_conds items) -> wfp c = true /\ plain_condition c) ->
    (exists a b c, In (SInner a b c) items) \/ where_ <> None ->
    exists tabs p, e2i ord items where_ = Ok (tabs, p) /\ Permutation tabs (flat_map source_tables items) /\
      forall (I : interp E) (ok : tbl -> Prop) (r : row I),
        ((forall t, In t tabs -> ok t) /\ sem I r p = T3) <->
        (Forall (admits I ok r) items /\ match where_ with Some w => sem I r w = T3 | None => True end).
  Proof.
    intros Hord Hin Hplain Hsome.
    unfold e2i, e2i_collect.
    destruct (e2i_loop_spec (S (fold_right (fun s n => src_size s + n) 0 items)) (rev items) [] [] []) as (tabs & preds & ps & H1 & H2 & H3 & H3' & H4).
    { rewrite Forall_forall in *. intros s Hs. apply Hin. now apply in_rev. }
    { reflexivity. }
    { rewrite size_rev. lia. }
    rewrite H1. cbn [rbind snd]. rewrite H2.
    set (conds := match where_ with Some w => w :: ps | None => ps end) in *.
    assert (Hne : conds <> []).
    { destruct where_ as [w|]; [discriminate|]. unfold conds. destruct Hsome as [(a & b & c & Hs)|Hs]; [|congruence].
      intros ->.
      exfalso. clear - H1 H2 Hs. 
      assert (Hlen : forall fuel (work : list (@source E)) tabs preds t' p', e2i_loop fuel work tabs preds = Ok (t', p') ->
                length preds <= length p' /\ ((exists a b c, In (SInner a b c) work) -> length preds < length p')).
      { induction fuel as [|fuel IH]; intros work tabs0 preds0 t' p' H; [discriminate|]. destruct work as [|s w]; cbn in H.
        - injection H as <- <-. split; [lia|]. intros (? & ? & ? & []).
        - destruct s as [t|l r c0|]; [|  |discriminate].
          + apply IH in H as [Ha Hb]. split; [assumption|]. intros (a0 & b0 & c1 & [Hx|Hx]); [discriminate|eauto].
          + apply IH in H as [Ha Hb]. rewrite app_length in Ha. cbn in Ha. split; [lia|]. intros _. lia. }
      apply Hlen in H1 as [_ Hlt]. assert (0 < length preds) by (apply Hlt; exists a, b, c; rewrite <- in_rev; assumption).
      destruct preds as [|[p|] preds]; cbn in *; [lia| |discriminate]. fold (all_some preds) in H2. destruct (all_some preds); discriminate. }
    assert (exists p, create_and conds = Ok p) as [p Hp].
    { destruct conds as [|x [|y z]]; [congruence|cbn; eauto|cbn; eauto]. }
    destruct (plain_create_and conds p Hp) as [Hwfp Hnr].
    { intros c Hc. apply Hplain. apply in_app_iff.
      assert (Hps : In c ps -> In c (flat_map source_conds items)).
      { intros Hx. apply (Permutation_in _ H3') in Hx. cbn in Hx. apply in_flat_map in Hx as (s & Hs & Hx). apply in_flat_map. exists s.
        split; [now apply in_rev|assumption]. }
      unfold conds in Hc. destruct where_ as [w|]; [destruct Hc as [<-|Hc]; [left; now left|auto]|auto]. }
    destruct (flatten_correct ord Hord p Hwfp Hnr) as (p' & Hf & Hsem & _).
    exists tabs, p'. split; [rewrite Hp; cbn [rbind]; rewrite Hf; reflexivity|]. split.
    { cbn in H3. rewrite H3. unfold work_tables. apply Permutation_flat_map. symmetry. apply Permutation_rev. }
    intros I ok r. rewrite Hsem. specialize (H4 I ok r).
    destruct (create_and_ok ecols I conds Hne) as (p2 & Hp2 & Hs2 & _). rewrite Hp in Hp2. injection Hp2 as <-. rewrite Hs2, all3_T.
    assert (Hadm : work_admits I ok r (rev items) <-> Forall (admits I ok r) items).
    { unfold work_admits. rewrite !Forall_forall. split; intros H s Hs; apply H; [now rewrite <- in_rev|now apply in_rev]. }
    rewrite Hadm in H4.
    assert (Hc : (forall x, In x (map (sem I r) conds) -> x = T3) <-> (match where_ with Some w => sem I r w = T3 | None => True end) /\ (forall p, In p ps -> sem I r p = T3)).
    { unfold conds. destruct where_ as [w|]; split.
      - intros H. split; [apply H; now left|]. intros q Hq. apply H. right. now apply in_map.
      - intros [Hw Hq] x [<-|Hx]; [assumption|]. apply in_map_iff in Hx as (q & <- & Hx). auto.
      - intros H. split; [exact Logic.I|]. intros q Hq. apply H. now apply in_map.
      - intros [_ Hq] x Hx. apply in_map_iff in Hx as (q & <- & Hx). auto. }
    rewrite Hc. split.
    - intros (Ht & Hw & Hq). split; [|assumption]. apply H4. auto.
    - intros (Ha & Hw). destruct (proj2 H4) as [Ht Hq]; [split; [intros ? []|split; [intros ? []|assumption]]|]. auto.
  Qed.
End P.
