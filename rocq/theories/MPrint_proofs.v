(** Lemmas about the text of arithmetic expressions. *)
From Coq Require Import List Bool Arith ZArith Lia.
From Verif Require Import PyBase Prec MPrint_model MPrint_spec.
Import ListNotations.

Lemma mdisjoint s s' k : mblvl s = Some k -> mulvl s' = Some k -> False.
Proof. intros H1 H2. rewrite <- H1 in H2. destruct s, s'; discriminate H2. Qed.

Lemma mexpr_ind' (P : mexpr -> Prop)
  (Ha : forall x, P (MAtom x)) (Hn : forall z, P (MNum z)) (Hu : forall o e, P e -> P (MUn o e))
  (Hb : forall o l r, P l -> P r -> P (MBin o l r)) (Hm : forall o e es, P e -> Forall P es -> P (MMany o e es)) : forall e, P e.
Proof.
  fix IH 1. intros [x|z|o e|o l r|o e es]; [apply Ha|apply Hn|apply Hu, IH|apply Hb; apply IH|apply Hm; [apply IH|]].
  induction es; constructor; [apply IH|assumption].
Qed.

Notation G := (@g matom mop 4 mblvl mulvl).

Lemma tokens_app l1 l2 : tokens (l1 ++ l2) = tokens l1 ++ tokens l2.
Proof. unfold tokens. apply flat_map_app. Qed.
Lemma tokens_bracket l : tokens (mbracket l) = TL :: tokens l ++ [TR].
Proof. unfold mbracket. cbn. now rewrite tokens_app. Qed.
Definition toks (e : mexpr) : list mtok := tokens (mprint e).
Definition otoks (o : mop) (e : mexpr) : list mtok := if requires_brackets o e then TL :: toks e ++ [TR] else toks e.
Lemma toks_bin o l r : toks (MBin o l r) = otoks o l ++ TSym o :: otoks o r.
Proof.
  unfold toks, otoks. cbn [mprint]. rewrite tokens_app. cbn. destruct (requires_brackets o l), (requires_brackets o r); rewrite ?tokens_bracket; reflexivity.
Qed.

Lemma mlvl_le o : mlvl o <= 2.
Proof. destruct o; cbn; lia. Qed.

Section Val.
  Definition means (t : tree matom mop) (e : mexpr) : Prop := forall A r, tval A r t = mval A r e.

  Lemma bin_g o ts1 t1 ts2 t2 : G (mlvl o) ts1 t1 -> G (S (mlvl o)) ts2 t2 -> G (mlvl o) (ts1 ++ TSym o :: ts2) (EBin o t1 t2).
  Proof. intros H1 H2. apply g_bin; [pose proof (mlvl_le o); lia|reflexivity|assumption|assumption]. Qed.
  Lemma down k k' ts t : k <= k' -> k' <= 4 -> G k' ts t -> G k ts t.
  Proof. apply g_down. Qed.

  (** [A e]: the text can be read with the value of [e], at every level up to that of its exposed operators. *)
  Definition okA (e : mexpr) : Prop := faithful e = true -> forall k, k <= 3 -> (forall o, In o (exposed e) -> k <= mlvl o) ->
    exists t, G k (toks e) t /\ means t e.
  (** [B e]: after [x o], the text of [e] continues the chain of the associative operator [o]. *)
  Definition okB (e : mexpr) : Prop := faithful e = true -> forall o, assocb o = true -> (forall x, In x (exposed e) -> mlvl o < mlvl x \/ x = o) ->
    forall ts1 t1, G (mlvl o) ts1 t1 ->
    exists t, G (mlvl o) (ts1 ++ TSym o :: toks e) t /\ forall A r, tval A r t = abin A o (tval A r t1) (mval A r e).

  Lemma assocb_in o : assocb o = true -> o = MAdd \/ o = MMul \/ o = MCat.
  Proof. destruct o; cbn; intros; try discriminate; auto. Qed.

  (** [B] from [A] if all exposed operators bind tighter. *)
  Lemma B_tight e o ts1 t1 : okA e -> faithful e = true -> (forall x, In x (exposed e) -> mlvl o < mlvl x) -> G (mlvl o) ts1 t1 ->
    exists t, G (mlvl o) (ts1 ++ TSym o :: toks e) t /\ forall A r, tval A r t = abin A o (tval A r t1) (mval A r e).
  Proof.
    intros HA Hf Hx H1. destruct (HA Hf (S (mlvl o))) as [t [H2 H3]]; [pose proof (mlvl_le o); lia|exact Hx|].
    exists (EBin o t1 t). split; [now apply bin_g|]. intros A r. cbn. now rewrite (H3 A r).
  Qed.

  Lemma paren_okay e k : okA e -> faithful e = true -> k <= 4 -> exists t, G k (TL :: toks e ++ [TR]) t /\ means t e.
  Proof.
    intros HA Hf Hk. destruct (HA Hf 0) as [t [H1 H2]]; [lia|intros; lia|]. exists t. split; [|exact H2].
    apply down with 4; [assumption|lia|]. now apply g_paren.
  Qed.

  Lemma exposed_bin_ge o l r : faithful (MBin o l r) = true -> forall x, In x (exposed (MBin o l r)) -> mlvl o <= mlvl x.
  Proof.
    intros Hf x Hx. cbn [faithful] in Hf. apply andb_true_iff in Hf as [Hf Hr]. apply andb_true_iff in Hf as [_ Hl].
    cbn [exposed] in Hx. destruct Hx as [<-|Hx]; [lia|]. apply in_app_iff in Hx as [Hx|Hx].
    - destruct (requires_brackets o l); [destruct Hx|]. cbn in Hl. rewrite forallb_forall in Hl. apply Nat.leb_le. now apply Hl.
    - destruct (requires_brackets o r); [destruct Hx|]. cbn in Hr. rewrite forallb_forall in Hr. specialize (Hr x Hx). apply orb_true_iff in Hr as [Hr|Hr].
      + apply Nat.ltb_lt in Hr. lia.
      + apply andb_true_iff in Hr as [Hr _]. apply deqb_true in Hr. subst. lia.
  Qed.

  Lemma left_operand o l : okA l -> faithful l = true -> requires_brackets o l || forallb (fun x => mlvl o <=? mlvl x) (exposed l) = true ->
    exists t, G (mlvl o) (otoks o l) t /\ means t l.
  Proof.
    intros HA Hf Hl. unfold otoks. destruct (requires_brackets o l) eqn:Hb.
    - apply paren_okay; [assumption..|]. pose proof (mlvl_le o). lia.
    - cbn in Hl. rewrite forallb_forall in Hl. apply HA; [assumption|pose proof (mlvl_le o); lia|]. intros x Hx. apply Nat.leb_le. now apply Hl.
  Qed.
  Lemma right_operand o r ts1 t1 : okA r -> okB r -> faithful r = true ->
    requires_brackets o r || forallb (fun x => (mlvl o <? mlvl x) || (deqb x o && assocb o)) (exposed r) = true -> G (mlvl o) ts1 t1 ->
    exists t, G (mlvl o) (ts1 ++ TSym o :: otoks o r) t /\ forall A v, tval A v t = abin A o (tval A v t1) (mval A v r).
  Proof.
    intros HA HB Hf Hr H1. unfold otoks. destruct (requires_brackets o r) eqn:Hb.
    - destruct (paren_okay r (S (mlvl o)) HA Hf) as [t [H2 H3]]; [pose proof (mlvl_le o); lia|]. exists (EBin o t1 t). split; [now apply bin_g|].
      intros A v. cbn. now rewrite (H3 A v).
    - cbn in Hr. rewrite forallb_forall in Hr. destruct (assocb o) eqn:Ho.
      + apply HB; [assumption..| |assumption]. intros x Hx. specialize (Hr x Hx). apply orb_true_iff in Hr as [Hr|Hr]; [left; now apply Nat.ltb_lt|].
        right. rewrite andb_true_r in Hr. now apply deqb_true in Hr.
      + apply B_tight; [assumption..| |assumption]. intros x Hx. specialize (Hr x Hx). rewrite andb_false_r, orb_false_r in Hr. now apply Nat.ltb_lt.
  Qed.

  Lemma okA_okB e : okA e /\ okB e.
  Proof.
    induction e as [x|z|o e [IHA IHB]|o l r [IHlA IHlB] [IHrA IHrB]|o e es [IHA IHB] IHes] using mexpr_ind'.
    - assert (HA : okA (MAtom x)).
      { intros _ k Hk _. exists (EAtom (AAtom x)). split; [apply down with 4; [lia|lia|apply g_atom]|]. intros A r. reflexivity. }
      split; [exact HA|]. intros Hf o Ho Hx ts1 t1 H1. apply B_tight; [exact HA|assumption| |assumption]. intros y [].
    - assert (HA : okA (MNum z)).
      { intros _ k Hk _. unfold toks. cbn [mprint]. destruct (Z.ltb_spec z 0) as [Hz|Hz].
        - exists (EUn MSub (EAtom (ANum (- z)))). split.
          + apply down with 3; [lia|lia|]. apply g_un; [lia|reflexivity|]. apply g_up; [lia|]. apply g_atom.
          + intros A r. cbn. now apply anum_neg.
        - exists (EAtom (ANum z)). split; [apply down with 4; [lia|lia|apply g_atom]|]. intros A r. reflexivity. }
      split; [exact HA|]. intros Hf o Ho Hx ts1 t1 H1. apply B_tight; [exact HA|assumption| |assumption]. intros y [].
    - assert (HA : okA (MUn o e)).
      { intros Hf k Hk _. cbn [faithful] in Hf. apply andb_true_iff in Hf as [Ho Hf].
        assert (He : exists t, G 3 (toks e) t /\ means t e).
        { destruct e as [x|z|o' e|o' l r|o' e es]; try discriminate Hf.
          - apply IHA; [reflexivity|lia|intros y []].
          - apply IHA; [reflexivity|lia|intros y []].
          - apply andb_true_iff in Hf as [_ Hf]. apply IHA; [assumption|lia|intros y []]. }
        destruct He as [t [H1 H2]]. exists (EUn o t). split.
        - apply down with 3; [lia|lia|]. unfold toks. cbn [mprint]. cbn. apply g_un; [lia| |exact H1]. destruct o; try discriminate Ho; reflexivity.
        - intros A r. cbn. now rewrite (H2 A r). }
      split; [exact HA|]. intros Hf o' Ho Hx ts1 t1 H1. apply B_tight; [exact HA|assumption| |assumption]. intros y [].
    - assert (HA : okA (MBin o l r)).
      { intros Hf k Hk Hx. assert (Hko : k <= mlvl o) by (apply Hx; now left). cbn [faithful] in Hf. apply andb_true_iff in Hf as [Hf Hr]. apply andb_true_iff in Hf as [Hf Hl].
        apply andb_true_iff in Hf as [Hfl Hfr]. destruct (left_operand o l IHlA Hfl Hl) as [t1 [H1 H2]].
        destruct (right_operand o r _ _ IHrA IHrB Hfr Hr H1) as [t [H3 H4]]. exists t. split.
        - rewrite toks_bin. apply down with (mlvl o); [assumption|pose proof (mlvl_le o); lia|assumption].
        - intros A v. rewrite H4, (H2 A v). reflexivity. }
      split; [exact HA|]. intros Hf o' Ho' Hx ts1 t1 H1.
      destruct (Hx o (or_introl eq_refl)) as [Hlt| ->].
      + apply B_tight; [exact HA|assumption| |assumption]. intros y Hy. apply exposed_bin_ge in Hy; [lia|assumption].
      + cbn [faithful] in Hf. apply andb_true_iff in Hf as [Hf Hr]. apply andb_true_iff in Hf as [Hf Hl]. apply andb_true_iff in Hf as [Hfl Hfr].
        assert (HL : exists t, G (mlvl o') (ts1 ++ TSym o' :: otoks o' l) t /\ forall A r0, tval A r0 t = abin A o' (tval A r0 t1) (mval A r0 l)).
        { unfold otoks. destruct (requires_brackets o' l) eqn:Hb.
          - destruct (paren_okay l (S (mlvl o')) IHlA Hfl) as [t [H2 H3]]; [pose proof (mlvl_le o'); lia|]. exists (EBin o' t1 t). split; [now apply bin_g|].
            intros A v. cbn. now rewrite (H3 A v).
          - apply IHlB; [assumption..| |assumption]. intros x Hxl. apply Hx. cbn [exposed]. rewrite Hb. right. apply in_app_iff. now left. }
        destruct HL as [t [H2 H3]]. destruct (right_operand o' r _ _ IHrA IHrB Hfr Hr H2) as [t' [H4 H5]]. exists t'. split.
        * rewrite toks_bin. rewrite <- app_assoc in H4. exact H4.
        * intros A v. rewrite H5, H3. cbn [mval]. apply aassoc. now apply assocb_in.
    - assert (HA : okA (MMany o e es)).
      { intros Hf k Hk Hx. assert (Hko : k <= mlvl o) by (apply Hx; now left). cbn [faithful] in Hf. apply andb_true_iff in Hf as [Hfe Hfes].
        assert (Hgen : forall ts t, G (mlvl o) ts t -> exists t', G (mlvl o) (ts ++ tokens (flat_map (fun x => Tk (TSym o) :: mbracket (mprint x)) es)) t' /\
          forall A r, tval A r t' = fold_left (fun acc x => abin A o acc (mval A r x)) es (tval A r t)).
        { clear IHA IHB Hfe Hx. induction es as [|x es IH]; intros ts t Ht.
          - exists t. cbn. rewrite app_nil_r. auto.
          - inversion IHes as [|? ? [HxA _] Hes]; subst. cbn [forallb] in Hfes. apply andb_true_iff in Hfes as [Hfx Hfes].
            destruct (paren_okay x (S (mlvl o)) HxA Hfx) as [tx [H2 H3]]; [pose proof (mlvl_le o); lia|].
            destruct (IH Hes Hfes (ts ++ TSym o :: TL :: toks x ++ [TR]) (EBin o t tx)) as [t' [H4 H5]]; [now apply bin_g|].
            exists t'. split.
            + cbn [flat_map]. rewrite tokens_app. cbn [tokens flat_map]. cbn. rewrite <- app_assoc in H4. cbn in H4.
              change (flat_map (fun p => match p with Tk t0 => [t0] | Blank => [] end) (mprint x ++ [Tk TR])) with (tokens (mprint x ++ [Tk TR])).
              rewrite tokens_app. cbn. rewrite <- app_assoc. rewrite <- app_assoc in H4. exact H4.
            + intros A r. rewrite H5. cbn. now rewrite (H3 A r). }
        destruct (paren_okay e (mlvl o) IHA Hfe) as [t [H1 H2]]; [pose proof (mlvl_le o); lia|]. destruct (Hgen _ _ H1) as [t' [H3 H4]]. exists t'. split.
        - apply down with (mlvl o); [assumption|pose proof (mlvl_le o); lia|]. unfold toks. cbn [mprint]. rewrite tokens_app, tokens_bracket. exact H3.
        - intros A r. rewrite H4, (H2 A r). reflexivity. }
      split; [exact HA|]. intros Hf o' Ho' Hx ts1 t1 H1. destruct (Hx o (or_introl eq_refl)) as [Hlt| ->].
      + apply B_tight; [exact HA|assumption| |assumption]. intros y [<-|[]]. exact Hlt.
      + cbn [faithful] in Hf. apply andb_true_iff in Hf as [Hfe Hfes].
        destruct (paren_okay e (S (mlvl o')) IHA Hfe) as [t [H2 H3]]; [pose proof (mlvl_le o'); lia|].
        assert (H4 : G (mlvl o') (ts1 ++ TSym o' :: TL :: toks e ++ [TR]) (EBin o' t1 t)) by now apply bin_g.
        assert (Hgen : forall es', Forall (fun x => okA x /\ okB x) es' -> forallb faithful es' = true -> forall acc ts t0, G (mlvl o') ts t0 ->
          (forall A r, tval A r t0 = abin A o' (tval A r t1) (acc A r)) ->
          exists t', G (mlvl o') (ts ++ tokens (flat_map (fun x => Tk (TSym o') :: mbracket (mprint x)) es')) t' /\
          forall A r, tval A r t' = abin A o' (tval A r t1) (fold_left (fun a x => abin A o' a (mval A r x)) es' (acc A r))).
        { clear - Ho'. induction es' as [|x es' IH]; intros Hes Hfes acc ts t0 Ht Hv.
          - exists t0. cbn. rewrite app_nil_r. auto.
          - inversion Hes as [|? ? [HxA _] Hes']; subst. cbn [forallb] in Hfes. apply andb_true_iff in Hfes as [Hfx Hfes].
            destruct (paren_okay x (S (mlvl o')) HxA Hfx) as [tx [H2 H3]]; [pose proof (mlvl_le o'); lia|].
            destruct (IH Hes' Hfes (fun A r => abin A o' (acc A r) (mval A r x)) (ts ++ TSym o' :: TL :: toks x ++ [TR]) (EBin o' t0 tx)) as [t' [H4 H5]];
              [now apply bin_g| |].
            + intros A r. cbn. rewrite Hv, (H3 A r). apply aassoc. now apply assocb_in.
            + exists t'. split; [|exact H5]. cbn [flat_map]. rewrite tokens_app. cbn. rewrite <- app_assoc in H4. cbn in H4.
              change (flat_map (fun p => match p with Tk t0 => [t0] | Blank => [] end) (mprint x ++ [Tk TR])) with (tokens (mprint x ++ [Tk TR])).
              rewrite tokens_app. cbn. rewrite <- app_assoc. rewrite <- app_assoc in H4. exact H4. }
        destruct (Hgen es IHes Hfes (fun A r => mval A r e) _ _ H4) as [t' [H5 H6]]; [intros A r; cbn; now rewrite (H3 A r)|].
        exists t'. split; [|exact H6]. unfold toks. cbn [mprint]. rewrite tokens_app, tokens_bracket.
        rewrite <- app_assoc in H5. exact H5.
  Qed.
End Val.

(** ** Comments *)
Definition starts_minus (l : list piece) : bool := match l with Tk (TSym MSub) :: _ => true | _ => false end.
Definition ends_minus (l : list piece) : bool := match rev l with Tk (TSym MSub) :: _ => true | _ => false end.
Lemma no_comment_app l1 l2 : no_comment l1 = true -> no_comment l2 = true -> (starts_minus l2 = false \/ ends_minus l1 = false) -> no_comment (l1 ++ l2) = true.
Proof.
  intros H1 H2 H. induction l1 as [|a l1 IH]; [exact H2|]. cbn [app].
  assert (Hrest : no_comment (l1 ++ l2) = true).
  { destruct l1 as [|b l1]; [exact H2|]. apply IH.
    - destruct a as [[x|[]| |]|]; try exact H1. destruct b as [[y|[]| |]|]; try exact H1. discriminate.
    - destruct H as [H|H]; [now left|right]. unfold ends_minus in *. cbn [rev] in *. rewrite <- app_assoc in H. cbn in H.
      destruct (rev l1); exact H. }
  destruct a as [[x|[]| |]|]; try exact Hrest. destruct l1 as [|b l1].
  - cbn [app] in *. destruct H as [H|H]; [|discriminate]. destruct l2 as [|[[y|[]| |]|] l2]; try exact Hrest; discriminate.
  - cbn [app] in *. destruct b as [[y|[]| |]|]; try exact Hrest. discriminate.
Qed.
Lemma ends_minus_app l1 l2 : l2 <> [] -> ends_minus (l1 ++ l2) = ends_minus l2.
Proof.
  intros H. unfold ends_minus. rewrite rev_app_distr. destruct (rev l2) eqn:E; [|reflexivity]. exfalso. apply H. rewrite <- (rev_involutive l2), E. reflexivity.
Qed.
Lemma mprint_nonempty e : mprint e <> [].
Proof. destruct e as [x|z|o e|o l r|o e es]; cbn; try discriminate; [destruct (z <? 0)%Z; discriminate|]. destruct (requires_brackets o l); [discriminate|]. destruct (mprint l); discriminate. Qed.
Lemma bracket_no_comment l : no_comment l = true -> no_comment (mbracket l) = true.
Proof. intros H. unfold mbracket. change (no_comment (l ++ [Tk TR]) = true). apply no_comment_app; [assumption|reflexivity|now left]. Qed.
Lemma bracket_ends l : ends_minus (mbracket l) = false.
Proof. unfold mbracket. change (Tk TL :: l ++ [Tk TR]) with ((Tk TL :: l) ++ [Tk TR]). rewrite ends_minus_app by discriminate. reflexivity. Qed.

Lemma many_app o es : forallb (fun e => no_comment (mprint e)) es = true ->
  no_comment (flat_map (fun x => Tk (TSym o) :: mbracket (mprint x)) es) = true /\ (es <> [] -> ends_minus (flat_map (fun x => Tk (TSym o) :: mbracket (mprint x)) es) = false).
Proof.
  induction es as [|x es IH]; [split; [reflexivity|congruence]|]. cbn [forallb]. intros H. apply andb_true_iff in H as [Hx Hes]. destruct (IH Hes) as [H1 H2].
  cbn [flat_map]. assert (Hone : no_comment (Tk (TSym o) :: mbracket (mprint x)) = true).
  { pose proof (bracket_no_comment _ Hx) as Hb. destruct o; exact Hb. }
  split.
  - apply no_comment_app; [exact Hone|exact H1|right]. change (Tk (TSym o) :: mbracket (mprint x)) with ([Tk (TSym o)] ++ mbracket (mprint x)).
    rewrite ends_minus_app by discriminate. apply bracket_ends.
  - intros _. destruct es as [|y es].
    + cbn [flat_map]. rewrite app_nil_r. change (Tk (TSym o) :: mbracket (mprint x)) with ([Tk (TSym o)] ++ mbracket (mprint x)).
      rewrite ends_minus_app by discriminate. apply bracket_ends.
    + rewrite ends_minus_app by discriminate. apply H2. discriminate.
Qed.

Lemma faithful_no_comment e : faithful e = true -> no_comment (mprint e) = true.
Proof.
  induction e as [x|z|o e IH|o l r IHl IHr|o e es IH IHes] using mexpr_ind'; intros Hf; cbn [faithful] in Hf.
  - reflexivity.
  - cbn. destruct (z <? 0)%Z; reflexivity.
  - apply andb_true_iff in Hf as [Ho Hf]. cbn [mprint].
    destruct e as [x|z|o' e|o' l r|o' e es]; try discriminate Hf.
    + destruct o; reflexivity.
    + cbn [mprint]. destruct (Z.ltb_spec z 0) as [Hz|Hz].
      * destruct o; try reflexivity. exfalso. apply orb_true_iff in Hf as [Hf|Hf]; [apply Z.leb_le in Hf; lia|discriminate].
      * destruct o; reflexivity.
    + apply andb_true_iff in Hf as [Hoo Hf]. specialize (IH Hf). cbn [mprint] in *. destruct o, o'; try exact IH; discriminate.
  - apply andb_true_iff in Hf as [Hf Hr]. apply andb_true_iff in Hf as [Hf Hl]. apply andb_true_iff in Hf as [Hfl Hfr]. specialize (IHl Hfl). specialize (IHr Hfr).
    cbn [mprint]. apply no_comment_app; [destruct (requires_brackets o l); [now apply bracket_no_comment|assumption]| |now left].
    assert (H : no_comment (if requires_brackets o r then mbracket (mprint r) else mprint r) = true) by (destruct (requires_brackets o r); [now apply bracket_no_comment|assumption]).
    destruct o; exact H.
  - apply andb_true_iff in Hf as [Hfe Hfes]. cbn [mprint]. rewrite Forall_forall in IHes. rewrite forallb_forall in Hfes.
    destruct (many_app o es) as [H1 _]; [apply forallb_forall; intros x Hx; apply IHes; [assumption|now apply Hfes]|].
    apply no_comment_app; [apply bracket_no_comment; now apply IH|exact H1|right; apply bracket_ends].
Qed.
