(** Lemmas about remove_predicate. *)
From Coq Require Import List Bool Arith Lia.
From Verif Require Import PyBase Pred_model Pred_spec Pred_proofs Trans_model Trans_spec Trans_proofs.
Import ListNotations.

Section P.
  Context {E : Type} {EE : EqD E}.
  Notation pred := (pred E).

  Definition rem_kids x := fix go (l : list pred) : list pred := match l with
                | [] => []
                | c :: r => match remove_pred x c with Some q => q :: go r | None => go r end
                end.
  Lemma rem_kids_In x l q : In q (rem_kids x l) <-> exists c, In c l /\ remove_pred x c = Some q.
  Proof.
    induction l as [|c l IH]; cbn; [split; [tauto|intros (? & [] & _)]|]. fold (rem_kids x).
    destruct (remove_pred x c) as [y|] eqn:Hc; cbn [In]; rewrite IH; split.
    - intros [<-|(z & Hz & H)]; eauto.
    - intros (z & [<-|Hz] & H); [left; congruence|eauto].
    - intros (z & Hz & H); eauto.
    - intros (z & [<-|Hz] & H); [congruence|eauto].
  Qed.
  Lemma occurs_list x (ps : list pred) :
    (fix go l := match l with [] => False | q :: r => occurs x q \/ go r end) ps <-> exists q, In q ps /\ occurs x q.
  Proof.
    induction ps as [|q r IH]; [split; [tauto|intros (? & [] & _)]|]. rewrite IH. split.
    - intros [H|(z & Hz & H)]; [exists q|exists z]; simpl; auto.
    - intros (z & [->|Hz] & H); [auto|right; eauto].
  Qed.

  Lemma remove_no_leaf x p q : is_base x = true -> remove_pred x p = Some q -> ~ occurs x q.
  Proof.
    intros Hb. revert q. induction p as [op a b|a lo hi|a vs|op a|p IH|ps IH|ps IH] using pred_ind'; intros q Hq.
    1-4: cbn in Hq; match type of Hq with context [deqb ?u ?v] => destruct (deqb_spec u v) end; [discriminate|injection Hq as <-; cbn; intuition congruence].
    - cbn in Hq. destruct (deqb_spec (PNot p) x); [discriminate|]. destruct (remove_pred x p) as [y|] eqn:Hy; [|discriminate].
      injection Hq as <-. cbn. intros [->|H]; [discriminate|]. now apply (IH y).
    - cbn in Hq. destruct (deqb_spec (PAnd ps) x); [discriminate|]. fold (rem_kids x) in Hq.
      assert (Hk : forall y, In y (rem_kids x ps) -> ~ occurs x y).
      { intros y Hy. apply rem_kids_In in Hy as (c & Hc & Hy). rewrite Forall_forall in IH. eauto. }
      destruct (rem_kids x ps) as [|u [|v r]]; [discriminate|injection Hq as <-; apply Hk; now left|]. injection Hq as <-.
      intros [->|H]; [discriminate|]. destruct (proj1 (occurs_list x (u :: v :: r)) H) as (y & Hy & H'). now apply (Hk y).
    - cbn in Hq. destruct (deqb_spec (POr ps) x); [discriminate|]. fold (rem_kids x) in Hq.
      assert (Hk : forall y, In y (rem_kids x ps) -> ~ occurs x y).
      { intros y Hy. apply rem_kids_In in Hy as (c & Hc & Hy). rewrite Forall_forall in IH. eauto. }
      destruct (rem_kids x ps) as [|u [|v r]]; [discriminate|injection Hq as <-; apply Hk; now left|]. injection Hq as <-.
      intros [->|H]; [discriminate|]. destruct (proj1 (occurs_list x (u :: v :: r)) H) as (y & Hy & H'). now apply (Hk y).
  Qed.

  Lemma remove_absent x p : wfp p = true -> ~ occurs x p -> remove_pred x p = Some p.
  Proof.
    induction p as [op a b|a lo hi|a vs|op a|p IH|ps IH|ps IH] using pred_ind'; intros Hwf Hno.
    1-4: cbn; match goal with |- context [deqb ?u ?v] => destruct (deqb_spec u v) end; [exfalso; apply Hno; left; congruence|reflexivity].
    - cbn. destruct (deqb_spec (PNot p) x); [exfalso; apply Hno; left; congruence|]. rewrite IH; [reflexivity|exact Hwf|].
      intros H. apply Hno. right. exact H.
    - cbn [wfp] in Hwf. apply andb_true_iff in Hwf as [Hl Hwf]. rewrite forallb_forall in Hwf. rewrite Forall_forall in IH.
      assert (Hk : rem_kids x ps = ps).
      { assert (Hno' : forall c, In c ps -> ~ occurs x c) by (intros c Hc Ho; apply Hno; right; apply occurs_list; eauto).
        clear Hl Hno. induction ps as [|c ps IHp]; [reflexivity|]. cbn. fold (rem_kids x). rewrite (IH c (or_introl eq_refl) (Hwf c (or_introl eq_refl)) (Hno' c (or_introl eq_refl))).
        f_equal. apply IHp; intros; [apply IH|apply Hwf|apply Hno']; simpl; auto. }
      cbn. destruct (deqb_spec (PAnd ps) x); [exfalso; apply Hno; left; congruence|]. fold (rem_kids x). rewrite Hk.
      destruct ps as [|u [|v r]]; [discriminate|discriminate|reflexivity].
    - cbn [wfp] in Hwf. apply andb_true_iff in Hwf as [Hl Hwf]. rewrite forallb_forall in Hwf. rewrite Forall_forall in IH.
      assert (Hk : rem_kids x ps = ps).
      { assert (Hno' : forall c, In c ps -> ~ occurs x c) by (intros c Hc Ho; apply Hno; right; apply occurs_list; eauto).
        clear Hl Hno. induction ps as [|c ps IHp]; [reflexivity|]. cbn. fold (rem_kids x). rewrite (IH c (or_introl eq_refl) (Hwf c (or_introl eq_refl)) (Hno' c (or_introl eq_refl))).
        f_equal. apply IHp; intros; [apply IH|apply Hwf|apply Hno']; simpl; auto. }
      cbn. destruct (deqb_spec (POr ps) x); [exfalso; apply Hno; left; congruence|]. fold (rem_kids x). rewrite Hk.
      destruct ps as [|u [|v r]]; [discriminate|discriminate|reflexivity].
  Qed.

  (** [x] occurs only as a conjunct. *)
  Fixpoint only_conjunct (x p : pred) : Prop :=
    x = p \/
    match p with
    | PAnd ps => (fix go l := match l with [] => True | q :: r => only_conjunct x q /\ go r end) ps
    | _ => ~ occurs x p
    end.
  Lemma only_conjunct_list x (ps : list pred) :
    (fix go l := match l with [] => True | q :: r => only_conjunct x q /\ go r end) ps <-> Forall (only_conjunct x) ps.
  Proof. induction ps as [|q r IH]; [split; constructor|]. rewrite IH. split; [intros []; constructor; auto|intros H; inversion H; auto]. Qed.

  Definition osem (I : interp E) r (o : option pred) : tv := match o with Some q => sem I r q | None => T3 end.

  Lemma remove_conjunct (I : interp E) r x p : wfp p = true -> only_conjunct x p -> occurs x p ->
    and3 (osem I r (remove_pred x p)) (sem I r x) = sem I r p.
  Proof.
    assert (Hnoc : forall p, wfp p = true -> only_conjunct x p -> osem I r (remove_pred x p) = sem I r p \/ and3 (osem I r (remove_pred x p)) (sem I r x) = sem I r p /\ occurs x p).
    { clear p. intros p. induction p as [op a b|a lo hi|a vs|op a|p IH|ps IH|ps IH] using pred_ind'; intros Hwf Ho.
      1-5,7: cbn [only_conjunct] in Ho; destruct Ho as [->|Ho];
        [right; split; [|left; reflexivity]; cbn [remove_pred]; rewrite deqb_refl; cbn [osem]; apply and3_Tl
        |left; rewrite remove_absent by assumption; reflexivity].
      cbn [only_conjunct] in Ho. destruct Ho as [->|Ho].
      { right; split; [|left; reflexivity]. cbn [remove_pred]. rewrite deqb_refl. cbn [osem]. apply and3_Tl. }
      rewrite only_conjunct_list in Ho. cbn [wfp] in Hwf. apply andb_true_iff in Hwf as [_ Hwf]. rewrite forallb_forall in Hwf.
      cbn [remove_pred]. destruct (deqb_spec (PAnd ps) x) as [<-|Hn].
      { right; split; [|left; reflexivity]. cbn [osem]. apply and3_Tl. }
      fold (rem_kids x). replace (osem I r (match rem_kids x ps with [] => None | [q] => Some q | cs => Some (PAnd cs) end))
        with (all3 (map (sem I r) (rem_kids x ps))).
      2: { destruct (rem_kids x ps) as [|u [|v l]]; cbn [osem map all3 fold_right sem]; [reflexivity|apply and3_T|reflexivity]. }
      cbn [sem].
      assert (Hk : all3 (map (sem I r) (rem_kids x ps)) = all3 (map (sem I r) ps) \/
                   and3 (all3 (map (sem I r) (rem_kids x ps))) (sem I r x) = all3 (map (sem I r) ps) /\ exists q, In q ps /\ occurs x q).
      { clear Hn. induction IH as [|c ps Hc _ IHp]; [left; reflexivity|]. inversion Ho as [|? ? Ho1 Ho2]; subst.
        specialize (Hc (Hwf c (or_introl eq_refl)) Ho1). specialize (IHp (fun z Hz => Hwf z (or_intror Hz)) Ho2).
        assert (Hstep : all3 (map (sem I r) (rem_kids x (c :: ps))) = and3 (osem I r (remove_pred x c)) (all3 (map (sem I r) (rem_kids x ps)))).
        { cbn. fold (rem_kids x). destruct (remove_pred x c); [reflexivity|]. cbn [osem]. now rewrite and3_Tl. }
        rewrite Hstep. cbn [map]. change (all3 (sem I r c :: map (sem I r) ps)) with (and3 (sem I r c) (all3 (map (sem I r) ps))).
        set (o := osem I r (remove_pred x c)) in *. set (k := all3 (map (sem I r) (rem_kids x ps))) in *.
        destruct Hc as [Hc|[Hc Hoc]], IHp as [IHp|[IHp (q & Hq & Hoq)]].
        - left. now rewrite Hc, IHp.
        - right. split; [|exists q; simpl; auto]. rewrite and3_assoc, IHp, Hc. reflexivity.
        - right. split; [|exists c; simpl; auto]. rewrite (and3_comm o k), and3_assoc, Hc, IHp. apply and3_comm.
        - right. split; [|exists c; simpl; auto]. rewrite <- Hc, <- IHp. rewrite <- (and3_idem (sem I r x)) at 1.
          rewrite !and3_assoc. f_equal. rewrite (and3_comm (sem I r x) (and3 k (sem I r x))), <- !and3_assoc. reflexivity. }
      destruct Hk as [Hk|[Hk Hq]]; [left; exact Hk|right]. split; [exact Hk|]. right. apply occurs_list. exact Hq. }
    (* if x occurs it is a conjunct, so it absorbs *)
    assert (Habs : forall p, only_conjunct x p -> occurs x p -> and3 (sem I r p) (sem I r x) = sem I r p).
    { clear p. intros p. induction p as [op a b|a lo hi|a vs|op a|p IH|ps IH|ps IH] using pred_ind'; intros Ho Hoc.
      1-5,7: cbn [only_conjunct] in Ho; destruct Ho as [->|Ho]; [apply and3_idem|contradiction].
      cbn [only_conjunct] in Ho. destruct Ho as [->|Ho]; [apply and3_idem|]. rewrite only_conjunct_list in Ho.
      destruct Hoc as [->|Hoc]; [apply and3_idem|]. rewrite occurs_list in Hoc. destruct Hoc as (q & Hq & Hoc).
      rewrite Forall_forall in IH, Ho. specialize (IH q Hq (Ho q Hq) Hoc). cbn [sem].
      clear Ho. induction ps as [|c ps IHp]; [contradiction|]. cbn [map].
      change (all3 (sem I r c :: map (sem I r) ps)) with (and3 (sem I r c) (all3 (map (sem I r) ps))).
      destruct Hq as [->|Hq].
      - rewrite (and3_comm (sem I r q)), and3_assoc, IH. reflexivity.
      - rewrite and3_assoc, IHp; [reflexivity|assumption]. }
    intros Hwf Ho Hoc. destruct (Hnoc p Hwf Ho) as [H|[H _]]; [|exact H]. rewrite H. now apply Habs.
  Qed.
End P.
