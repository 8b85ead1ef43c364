(** Lemmas about the text of predicates. *)
From Coq Require Import List Bool Arith Lia.
From Verif Require Import PyBase Pred_model Pred_spec Pred_proofs Prec PPrint_model PPrint_spec.
Import ListNotations.

Lemma pdisjoint s s' k : pblvl s = Some k -> pulvl s' = Some k -> False.
Proof. destruct s, s'; cbn; congruence. Qed.

Section PPrint.
  Context {E : Type}.
  Notation G := (@g (patom E) psym 3 pblvl pulvl).
  Notation T := (tree (patom E) psym).
  Definition same_sem (t : T) (f : forall I : interp E, row I -> tv) : Prop := forall I r, tsem I r t = f I r.

  Lemma and3_assoc' a b c : and3 (and3 a b) c = and3 a (and3 b c).
  Proof. destruct a, b, c; reflexivity. Qed.
  Lemma or3_assoc' a b c : or3 (or3 a b) c = or3 a (or3 b c).
  Proof. destruct a, b, c; reflexivity. Qed.

  Lemma and_join ts1 t1 : G 1 ts1 t1 -> forall k ts2 t2, G k ts2 t2 -> k = 1 ->
    exists t, G 1 (ts1 ++ TSym SAnd :: ts2) t /\ forall I r, tsem I r t = and3 (tsem I r t1) (tsem I r t2).
  Proof.
    intros H1 k ts2 t2 H2. induction H2 as [a|ts e H IH|k ts e Hk H IH|k s tsa ea tsb eb Hk Hs Ha IHa Hb IHb|k s ts e Hk Hs H IH]; intros Ek; try discriminate Ek; subst k.
    - exists (EBin SAnd t1 e). split; [|reflexivity]. apply g_bin; auto.
    - destruct s; try discriminate Hs. destruct (IHa eq_refl) as [t [Ht1 Ht2]]. exists (EBin SAnd t eb). split.
      + rewrite app_comm_cons, app_assoc. apply g_bin; auto.
      + intros I r. cbn. rewrite Ht2. apply and3_assoc'.
    - destruct s; discriminate Hs.
  Qed.

  Lemma and_list (l : list (list (ptok E))) (fs : list (forall I : interp E, row I -> tv)) :
    Forall2 (fun ts f => exists t, G 1 ts t /\ same_sem t f) l fs -> l <> [] ->
    exists t, G 1 (sep_join SAnd l) t /\ forall I r, tsem I r t = all3 (map (fun f => f I r) fs).
  Proof.
    induction 1 as [|ts f l fs [t [Ht1 Ht2]] Hl IH]; intros Hne; [destruct (Hne eq_refl)|]. destruct Hl as [|ts' f' l fs Hx Hl].
    - exists t. split; [exact Ht1|]. intros I r. cbn. rewrite Ht2. destruct (f I r); reflexivity.
    - destruct IH as [t' [H1 H2]]; [discriminate|]. destruct (and_join _ _ Ht1 _ _ _ H1 eq_refl) as [t2 [H3 H4]]. exists t2. split; [exact H3|].
      intros I r. rewrite H4, H2, Ht2. reflexivity.
  Qed.

  Lemma or_join ts1 t1 : G 0 ts1 t1 -> forall k ts2 t2, G k ts2 t2 -> k = 0 ->
    exists t, G 0 (ts1 ++ TSym SOr :: ts2) t /\ forall I r, tsem I r t = or3 (tsem I r t1) (tsem I r t2).
  Proof.
    intros H1 k ts2 t2 H2. induction H2 as [a|ts e H IH|k ts e Hk H IH|k s tsa ea tsb eb Hk Hs Ha IHa Hb IHb|k s ts e Hk Hs H IH]; intros Ek; try discriminate Ek; subst k.
    - exists (EBin SOr t1 e). split; [|reflexivity]. apply g_bin; auto.
    - destruct s; try discriminate Hs. destruct (IHa eq_refl) as [t [Ht1 Ht2]]. exists (EBin SOr t eb). split.
      + rewrite app_comm_cons, app_assoc. apply g_bin; auto.
      + intros I r. cbn. rewrite Ht2. apply or3_assoc'.
    - destruct s; discriminate Hs.
  Qed.
  Lemma or_list (l : list (list (ptok E))) (fs : list (forall I : interp E, row I -> tv)) :
    Forall2 (fun ts f => exists t, G 0 ts t /\ same_sem t f) l fs -> l <> [] ->
    exists t, G 0 (sep_join SOr l) t /\ forall I r, tsem I r t = any3 (map (fun f => f I r) fs).
  Proof.
    induction 1 as [|ts f l fs [t [Ht1 Ht2]] Hl IH]; intros Hne; [destruct (Hne eq_refl)|]. destruct Hl as [|ts' f' l fs Hx Hl].
    - exists t. split; [exact Ht1|]. intros I r. cbn. rewrite Ht2. destruct (f I r); reflexivity.
    - destruct IH as [t' [H1 H2]]; [discriminate|]. destruct (or_join _ _ Ht1 _ _ _ H1 eq_refl) as [t2 [H3 H4]]. exists t2. split; [exact H3|].
      intros I r. rewrite H4, H2, Ht2. reflexivity.
  Qed.

  Definition plevel (p : pred E) : nat := match p with PAnd _ => 1 | PNot (PIn _ _) => 3 | PNot _ => 2 | _ => 3 end.
  Lemma plevel_le p : plevel p <= 3.
  Proof. destruct p as [| | | |[]| |]; cbn; lia. Qed.
  Lemma plevel_ge p : 1 <= plevel p.
  Proof. destruct p as [| | | |[]| |]; cbn; lia. Qed.

  Lemma bracket_g k ts t : k <= 3 -> G 0 ts t -> G k (bracketed ts) t.
  Proof. intros Hk H. apply g_down with 3; [assumption|lia|]. now apply g_paren. Qed.

  Lemma pprint_main p : wfp p = true -> no_not_and p = true ->
    exists t, G (plevel p) (pprint p) t /\ same_sem t (fun I r => sem I r p).
  Proof.
    induction p as [op a b|a lo hi|a vs|op a|p IH|ps IH|ps IH] using pred_ind'; intros Hwf Hs.
    1-4: eexists; split; [apply g_atom|intros I r; reflexivity].
    - assert (Hnot : no_not_and p = true -> match p with PAnd _ | PIn _ _ => False | _ => True end ->
        exists t, G 2 (TSym SNot :: pprint p) t /\ same_sem t (fun I r => not3 (sem I r p))).
      { intros Hp Hn. destruct (IH Hwf Hp) as [t [H1 H2]]. exists (EUn SNot t). split.
        - apply g_un; [lia|reflexivity|]. apply g_down with (plevel p); [|apply plevel_le|assumption].
          destruct p as [| | | |[]| |]; cbn; try lia; destruct Hn.
        - intros I r. cbn. now rewrite (H2 I r). }
      destruct p as [op a b|a lo hi|a vs|op a|p|ps|ps]; cbn [no_not_and] in Hs; try discriminate Hs; try (apply Hnot; [exact Hs|exact I]).
      exists (EAtom (true, PIn a vs)). split; [apply g_atom|intros I r; reflexivity].
    - cbn [wfp no_not_and] in Hwf, Hs. apply andb_true_iff in Hwf as [Hlen Hwf]. rewrite forallb_forall in Hwf, Hs. rewrite Forall_forall in IH.
      cbn [plevel pprint sem]. apply Nat.leb_le in Hlen.
      destruct (and_list (map pprint ps) (map (fun q I r => sem I r q) ps)) as [t [H1 H2]].
      + clear Hlen. induction ps as [|q ps IHps]; cbn; constructor.
        * destruct (IH q (or_introl eq_refl) (Hwf q (or_introl eq_refl)) (Hs q (or_introl eq_refl))) as [t [H1 H2]].
          exists t. split; [|exact H2]. apply g_down with (plevel q); [apply plevel_ge|apply plevel_le|assumption].
        * apply IHps; intros z Hz; [apply IH|apply Hwf|apply Hs]; now right.
      + destruct ps; cbn in Hlen; [lia|discriminate].
      + exists t. split; [exact H1|]. intros I r. rewrite H2, map_map. reflexivity.
    - cbn [wfp no_not_and] in Hwf, Hs. apply andb_true_iff in Hwf as [Hlen Hwf]. rewrite forallb_forall in Hwf, Hs. rewrite Forall_forall in IH.
      cbn [plevel pprint sem]. apply Nat.leb_le in Hlen.
      destruct (or_list (map (fun c => if is_base c then pprint c else bracketed (pprint c)) ps) (map (fun q I r => sem I r q) ps)) as [t [H1 H2]].
      + clear Hlen. induction ps as [|q ps IHps]; cbn [map]; constructor.
        * destruct (IH q (or_introl eq_refl) (Hwf q (or_introl eq_refl)) (Hs q (or_introl eq_refl))) as [t [H1 H2]].
          exists t. split; [|exact H2]. assert (H0 : G 0 (pprint q) t) by (apply g_down with (plevel q); [lia|apply plevel_le|assumption]).
          destruct (is_base q); [exact H0|]. apply bracket_g; [lia|exact H0].
        * apply IHps; intros z Hz; [apply IH|apply Hwf|apply Hs]; now right.
      + destruct ps; cbn in Hlen; [lia|discriminate].
      + exists t. split; [now apply bracket_g|]. intros I r. rewrite H2, map_map. reflexivity.
  Qed.

  Lemma quick_format_same (p : pred E) : wfp p = true -> quick_format_pred p = pprint p.
  Proof.
    destruct p as [op a b|a lo hi|a vs|op a|p|ps|ps]; try reflexivity. intros Hwf. destruct ps as [|c r]; [reflexivity|]. clear Hwf.
    cbn [quick_format_pred pprint]. revert c. induction r as [|d r IH]; intros c; [cbn; apply app_nil_r|].
    cbn [flat_map map]. change (sep_join SAnd (pprint c :: pprint d :: map pprint r)) with (pprint c ++ TSym SAnd :: sep_join SAnd (pprint d :: map pprint r)).
    rewrite <- app_comm_cons. do 2 f_equal. apply IH.
  Qed.
End PPrint.
