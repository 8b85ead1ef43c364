(** The fragments that are built during the translation, and their meaning. *)
From Coq Require Import List Bool Arith Permutation Lia.
From Verif Require Import PyBase Collections_proofs Pred_model Pred_spec Pred_proofs QPred3_proofs DP_proofs Rel_model Rel_spec Rel_proofs RelP_proofs.
Import ListNotations.

Section Fragments.
  Context (ordp : list rpred -> list rpred) (ordn : list rnode -> list rnode).
  Context (Hordp : forall l, Permutation (ordp l) l) (Hordn : forall l, Permutation (ordn l) l).
  Context (from : list tbl).

  Record Inv (f : frags) (D : list rpred) : Prop := {
    i_wf : dwf f;
    i_dom : forall t, In t from <-> exists n, dget f t = Some n;
    i_node : forall t n, dget f t = Some n -> wfn n /\ In t (ntabs n) /\ forall u, In u (ntabs n) -> dget f u = Some n;
    i_app : forall p, In p D <-> exists t n, dget f t = Some n /\ In p (applied n) }.

  Lemma set_all_get n f t : dget (set_all f n) t = if mem t (ntabs n) then Some n else dget f t.
  Proof.
    unfold set_all. generalize (ntabs n). intros ts. revert f. induction ts as [|u ts IH]; intros f; cbn [fold_left]; [reflexivity|].
    rewrite IH. cbn [mem existsb]. change (existsb (deqb t) ts) with (mem t ts). destruct (mem t ts); [now rewrite orb_true_r|]. rewrite orb_false_r, dset_spec. unfold deqb. destruct (eqd t u); reflexivity.
  Qed.
  Lemma set_all_wf n f : dwf f -> dwf (set_all f n).
  Proof.
    unfold set_all. generalize (ntabs n). intros ts. revert f. induction ts as [|u ts IH]; intros f H; cbn; [exact H|]. apply IH, dwf_dset, H.
  Qed.

  Lemma replace f D n p xs : Inv f D -> wfn n ->
    (forall t, In t (ntabs n) <-> exists x, In x xs /\ In t (ntabs x)) ->
    (forall x, In x xs -> exists t, dget f t = Some x) ->
    (forall q, In q (applied n) <-> q = p \/ exists x, In x xs /\ In q (applied x)) ->
    Inv (set_all f n) (p :: D).
  Proof.
    intros I W Ht Hx Ha.
    assert (Hout : forall t m, dget f t = Some m -> ~ In t (ntabs n) -> forall u, In u (ntabs m) -> ~ In u (ntabs n)).
    { intros t m Hm Hn u Hu Hun. apply Hn. apply Ht in Hun as (x & Hin & Hux). destruct (Hx x Hin) as [s Hs].
      destruct (i_node f D I s x Hs) as (_ & _ & Hall). destruct (i_node f D I t m Hm) as (_ & Hmt & Hallm).
      pose proof (Hall u Hux) as E1. rewrite (Hallm u Hu) in E1. injection E1 as ->. apply Ht. eauto. }
    split.
    - apply set_all_wf, (i_wf f D I).
    - intros t. rewrite (i_dom f D I t), set_all_get. destruct (mem t (ntabs n)) eqn:E; [|reflexivity]. apply mem_In in E. split; [eauto|]. intros _.
      apply Ht in E as (x & Hin & Hux). destruct (Hx x Hin) as [s Hs]. destruct (i_node f D I s x Hs) as (_ & _ & Hall). eauto.
    - intros t m. rewrite set_all_get. destruct (mem t (ntabs n)) eqn:E.
      + intros Hm. injection Hm as <-. split; [exact W|]. split; [now apply mem_In|]. intros u Hu. rewrite set_all_get. apply mem_In in Hu. now rewrite Hu.
      + apply mem_nIn in E. intros Hm. destruct (i_node f D I t m Hm) as (W' & Hin & Hall). split; [exact W'|]. split; [exact Hin|]. intros u Hu. rewrite set_all_get.
        pose proof (Hout t m Hm E u Hu) as Hno. apply mem_nIn in Hno. rewrite Hno. now apply Hall.
    - intros q. split.
      + intros [<-|Hq].
        * destruct (ntabs_nonempty n W) as [t Hin]. exists t, n. rewrite set_all_get. apply mem_In in Hin. rewrite Hin. split; [reflexivity|]. apply Ha. now left.
        * apply (i_app f D I) in Hq as (t & m & Hm & Hq). destruct (mem t (ntabs n)) eqn:E.
          -- exists t, n. rewrite set_all_get, E. split; [reflexivity|]. apply Ha. right. apply mem_In in E. apply Ht in E as (x & Hin & Hux). destruct (Hx x Hin) as [s Hs].
             destruct (i_node f D I s x Hs) as (_ & _ & Hall). rewrite (Hall t Hux) in Hm. injection Hm as ->. eauto.
          -- exists t, m. rewrite set_all_get, E. auto.
      + intros (t & m & Hm & Hq). rewrite set_all_get in Hm. destruct (mem t (ntabs n)) eqn:E.
        * injection Hm as <-. apply Ha in Hq as [->|(x & Hin & Hq)]; [now left|]. right. apply (i_app f D I). destruct (Hx x Hin) as [s Hs]. eauto.
        * right. apply (i_app f D I). eauto.
  Qed.

  (** Predicates whose columns belong to tables of the fragments. *)
  Definition here (p : rpred) : Prop := forall c, In c (pcols xcols p) -> exists t, c_tab c = Some t /\ In t from.
  Lemma here_bound p : here p -> all_bound (pcols xcols p).
  Proof. intros H c Hc E. destruct (H c Hc) as (t & E' & _). congruence. Qed.
  Lemma owned_In ts c t : c_tab c = Some t -> In t ts -> owned ts c = true.
  Proof. intros E H. unfold owned. rewrite E. now apply mem_In. Qed.

  (** *** Base tables *)
  Definition base (f : frags) : Prop := forall t n, dget f t = Some n -> ntabs n = [t].
  Lemma set_all_one f t n : ntabs n = [t] -> set_all f n = dset f t n.
  Proof. intros E. unfold set_all. now rewrite E. Qed.
  Lemma apply_base_inv d : forall f D f', Inv f D -> base f -> (forall t q, In (t, q) d -> forall c, In c (pcols xcols q) -> c_tab c = Some t) ->
    apply_base d f = Ok f' -> exists D', Inv f' D' /\ base f' /\ forall q, In q D' <-> In q D \/ exists t, In (t, q) d.
  Proof.
    induction d as [|[t p] d IH]; intros f D f' I B Hc H; cbn [apply_base] in H.
    - injection H as <-. exists D. split; [exact I|]. split; [exact B|]. intros q. split; [tauto|]. intros [H|(t & [])]; exact H.
    - unfold resolve in H. destruct (dget f t) as [n|] eqn:E; [|discriminate]. cbn [rbind] in H.
      set (n' := convert_predicate p n) in *. assert (Et : ntabs n' = [t]) by (unfold n', convert_predicate; cbn; rewrite with_map_tabs; now apply B).
      rewrite <- (set_all_one f t n' Et) in H.
      assert (I' : Inv (set_all f n') (p :: D)).
      { apply (replace f D n' p [n] I).
        - unfold n', convert_predicate. cbn. rewrite with_map_wfn, with_map_tabs. split; [apply (i_node f D I t n E)|]. intros c Hin. rewrite (B t n E). apply (owned_In _ _ t); [apply (Hc t p); [now left|exact Hin]|now left].
        - intros u. rewrite Et. split; [intros [<-|[]]; exists n; split; [now left|]; apply (i_node f D I t n E)|]. intros (x & [<-|[]] & Hu). now rewrite (B t n E) in Hu.
        - intros x [<-|[]]. eauto.
        - intros q. unfold n', convert_predicate. cbn. rewrite with_map_applied. split; [intros [->|Hq]; [now left|right; eauto]|]. intros [->|(x & [<-|[]] & Hq)]; auto. }
      destruct (IH _ _ f' I') as (D' & I'' & B'' & Hd); [| |exact H|].
      + intros u m. rewrite set_all_get. destruct (mem u (ntabs n')) eqn:Em; [|apply B]. intros Hm. injection Hm as <-. rewrite Et in *. apply mem_In in Em as [->|[]]. reflexivity.
      + intros u q Hin. apply Hc. now right.
      + exists D'. split; [exact I''|]. split; [exact B''|]. intros q. rewrite Hd. cbn. split.
        * intros [[->|Hq]|(u & Hu)]; [right; exists t; now left|now left|right; exists u; now right].
        * intros [Hq|(u & [Hu|Hu])]; [left; now right|injection Hu as _ ->; left; now left|right; eauto].
  Qed.

  (** *** Joins *)
  Lemma resolve_all f D p ns : Inv f D -> rmapM (resolve f) (rptabs p) = Ok ns ->
    (forall x, In x (ordn (ndedup ns)) -> exists t, dget f t = Some x) /\ NoDup (ordn (ndedup ns)) /\
    (forall t, In t (rptabs p) -> exists x, In x (ordn (ndedup ns)) /\ In t (ntabs x)).
  Proof.
    intros I H. destruct (rmapM_In (resolve f) _ ns H) as [H1 H2]. destruct (ndedup_spec ns) as (N1 & N2 & N3). repeat split.
    - intros x Hx. apply (Permutation_in _ (Hordn _)), N1 in Hx. apply H1 in Hx as (t & _ & Ht). unfold resolve in Ht. destruct (dget f t) eqn:E; [|discriminate]. injection Ht as <-. eauto.
    - eapply Permutation_NoDup; [symmetry; apply Hordn|exact N2].
    - intros t Ht. destruct (H2 t Ht) as [n Hn]. assert (Hin : In n ns) by (apply H1; eauto). unfold resolve in Hn. destruct (dget f t) as [m|] eqn:E; [|discriminate]. injection Hn as ->.
      destruct (N3 n Hin) as (m & Hm & Em). exists m. split; [apply (Permutation_in _ (Permutation_sym (Hordn _))), Hm|]. rewrite Em. apply (i_node f D I t n E).
  Qed.
  Lemma join_nodes_shape p a b l r n : join_nodes p a b l r = Ok n ->
    exists l' r', n = NTheta l' r' p /\ ntabs l' = ntabs l /\ ntabs r' = ntabs r /\ applied l' = applied l /\ applied r' = applied r /\ (wfn l -> wfn l') /\ (wfn r -> wfn r').
  Proof.
    unfold join_nodes. intros H. destruct (add_expression a l) as [l1|] eqn:E1; [|discriminate]. cbn [rbind] in H. destruct (add_expression b r) as [r1|] eqn:E2; [|discriminate]. cbn [rbind] in H.
    destruct (distribute _ l1 r1) as [[el er]|]; [|discriminate]. cbn [rbind] in H. injection H as <-.
    destruct (add_expression_same _ _ _ E1) as (A1 & A2 & A3). destruct (add_expression_same _ _ _ E2) as (B1 & B2 & B3).
    exists (map_if l1 el), (map_if r1 er). rewrite !map_if_tabs, !map_if_applied, !map_if_wfn. auto 10.
  Qed.
  Lemma convert_join_inv f D p n : Inv f D -> here p -> convert_join ordn f p = Ok n -> Inv (set_all f n) (p :: D).
  Proof.
    intros I Hh H. unfold convert_join in H. destruct (rmapM (resolve f) (rptabs p)) as [ns|] eqn:E; [|discriminate]. cbn [rbind] in H.
    destruct (resolve_all f D p ns I E) as (R1 & R2 & R3). destruct (ordn (ndedup ns)) as [|x [|y [|z l]]] eqn:El; [discriminate| | |discriminate].
    - injection H as <-. destruct (R1 x (or_introl eq_refl)) as [t Ht]. destruct (i_node f D I t x Ht) as (W & _ & _).
      apply (replace f D _ p [x] I).
      + cbn. rewrite with_map_wfn, with_map_tabs. split; [exact W|]. intros c Hc. destruct (Hh c Hc) as (u & Eu & _). apply (owned_In _ _ u Eu).
        destruct (R3 u) as (x' & [<-|[]] & Hin); [apply In_rptabs; eauto|exact Hin].
      + intros u. cbn. rewrite with_map_tabs. split; [intros Hu; exists x; auto|]. intros (x' & [<-|[]] & Hu). exact Hu.
      + intros x' [<-|[]]. eauto.
      + intros q. cbn. rewrite with_map_applied. split; [intros [->|Hq]; [now left|right; exists x; auto]|]. intros [->|(x' & [<-|[]] & Hq)]; auto.
    - assert (G : forall l r a b, join_nodes p a b l r = Ok n -> (l = x /\ r = y) \/ (l = y /\ r = x) -> Inv (set_all f n) (p :: D)).
      { intros l r a b Hj Hlr. apply join_nodes_shape in Hj as (l' & r' & -> & Tl & Tr & Al & Ar & Wl & Wr).
        assert (Hxy : x <> y). { intros ->. inversion R2 as [|? ? Hn]; subst. apply Hn. now left. }
        assert (Hlr' : l <> r) by (destruct Hlr as [[-> ->]|[-> ->]]; congruence).
        assert (Hset : forall z, (z = l \/ z = r) <-> In z [x; y]) by (intros z; cbn; destruct Hlr as [[-> ->]|[-> ->]]; intuition congruence).
        destruct (R1 l (proj1 (Hset l) (or_introl eq_refl))) as [tl Htl]. destruct (R1 r (proj1 (Hset r) (or_intror eq_refl))) as [tr Htr].
        destruct (i_node f D I tl l Htl) as (W1 & _ & All1). destruct (i_node f D I tr r Htr) as (W2 & _ & All2).
        apply (replace f D _ p [x; y] I).
        - cbn. rewrite Tl, Tr. split; [auto|]. split; [auto|]. split.
          + intros t H1 H2. apply Hlr'. specialize (All1 t H1). specialize (All2 t H2). congruence.
          + intros c Hc. destruct (Hh c Hc) as (u & Eu & _). apply (owned_In _ _ u Eu). apply in_app_iff. destruct (R3 u) as (z & Hz & Hin); [apply In_rptabs; eauto|].
            apply Hset in Hz as [->| ->]; auto.
        - intros t. cbn [ntabs]. rewrite Tl, Tr, in_app_iff. split.
          + intros [Ht|Ht]; [exists l|exists r]; (split; [|exact Ht]); apply Hset; auto.
          + intros (z & Hz & Ht). apply Hset in Hz as [->| ->]; auto.
        - intros z Hz. now apply R1.
        - intros q. cbn [applied]. rewrite Al, Ar. cbn [In]. rewrite in_app_iff. split.
          + intros [->|[Hq|Hq]]; [now left|right; exists l|right; exists r]; (split; [|exact Hq]); apply Hset; auto.
          + intros [->|(z & Hz & Hq)]; [now left|]. apply Hset in Hz as [->| ->]; auto. }
      destruct p as [op a b| | | | | |]; try discriminate.
      destruct (subsetb (xtabs a) (ntabs x) && subsetb (xtabs b) (ntabs y)); [apply (G x y a b H); auto|].
      destruct (subsetb (xtabs a) (ntabs y) && subsetb (xtabs b) (ntabs x)); [apply (G y x a b H); auto|discriminate].
  Qed.
  Lemma apply_joins_inv ps : forall f D f', Inv f D -> (forall p, In p ps -> here p) -> apply_joins ordn ps f = Ok f' ->
    exists D', Inv f' D' /\ forall q, In q D' <-> In q D \/ In q ps.
  Proof.
    induction ps as [|p ps IH]; intros f D f' I Hh H; cbn [apply_joins] in H.
    - injection H as <-. exists D. split; [exact I|]. intros q. cbn. tauto.
    - destruct (convert_join ordn f p) as [n|] eqn:E; [|discriminate]. cbn [rbind] in H.
      destruct (IH _ (p :: D) f' (convert_join_inv f D p n I (Hh p (or_introl eq_refl)) E)) as (D' & I' & Hd); [intros; apply Hh; now right|exact H|].
      exists D'. split; [exact I'|]. intros q. rewrite Hd. cbn. tauto.
  Qed.

  (** *** Cross products *)
  Lemma fold_cross_tabs r : forall n, ntabs (fold_left NCross r n) = ntabs n ++ flat_map ntabs r /\ applied (fold_left NCross r n) = applied n ++ flat_map applied r.
  Proof.
    induction r as [|x r IH]; intros n; cbn [fold_left flat_map]; [rewrite !app_nil_r; auto|]. destruct (IH (NCross n x)) as [-> ->]. cbn. rewrite !app_assoc. auto.
  Qed.
  Lemma fold_cross_wfn r : forall n, wfn n -> (forall x, In x r -> wfn x) -> NoDup (ntabs n ++ flat_map ntabs r) -> wfn (fold_left NCross r n).
  Proof.
    induction r as [|x r IH]; intros n W Wr N; cbn [fold_left flat_map] in *; [exact W|]. apply IH.
    - cbn. split; [exact W|]. split; [apply Wr; now left|]. intros t H1 H2. clear IH. induction (ntabs n) as [|u l IHl]; [destruct H1|]. cbn in N. inversion N as [|? ? Hn N']; subst.
      destruct H1 as [->|H1]; [|auto]. apply Hn. rewrite !in_app_iff. tauto.
    - intros; apply Wr; now right.
    - cbn. now rewrite <- app_assoc.
  Qed.
  Lemma NoDup_flat_map {A B} (h : A -> list B) l : NoDup l -> (forall x, In x l -> NoDup (h x)) -> (forall x y b, In x l -> In y l -> In b (h x) -> In b (h y) -> x = y) -> NoDup (flat_map h l).
  Proof.
    induction 1 as [|x l Hn Hd IH]; intros H1 H2; cbn; [constructor|]. apply NoDup_app_intro; [apply H1; now left| |].
    - apply IH; [intros; apply H1; now right|]. intros a b c Ha Hb. apply H2; now right.
    - intros b Hb Hin. apply in_flat_map in Hin as (y & Hy & Hb'). apply Hn. rewrite (H2 x y b); auto; [now left|now right].
  Qed.
  Lemma cross_heads_spec f D n : NoDup from -> Inv f D -> cross_heads ordn f = Ok n ->
    wfn n /\ Permutation (ntabs n) from /\ forall p, In p (applied n) <-> In p D.
  Proof.
    intros Nf I H. unfold cross_heads in H. destruct (ndedup_spec (dvalues f)) as (N1 & N2 & N3).
    assert (Hin : forall x, In x (ordn (ndedup (dvalues f))) -> exists t, dget f t = Some x).
    { intros x Hx. apply (Permutation_in _ (Hordn _)), N1 in Hx. unfold dvalues in Hx. apply in_map_iff in Hx as ([t y] & <- & Hx). exists t. apply In_dget; [apply (i_wf f D I)|exact Hx]. }
    assert (Hnd : NoDup (ordn (ndedup (dvalues f)))) by (eapply Permutation_NoDup; [symmetry; apply Hordn|exact N2]).
    assert (Hall : forall t x, dget f t = Some x -> In x (ordn (ndedup (dvalues f)))).
    { intros t x Hx. apply (Permutation_in _ (Permutation_sym (Hordn _))). destruct (N3 x) as (m & Hm & Em); [unfold dvalues; change x with (snd (t, x)); apply in_map, dget_In, Hx|].
      apply N1 in Hm as Hm'. unfold dvalues in Hm'. apply in_map_iff in Hm' as ([s y] & Ey & Hs). cbn in Ey. subst y. apply (In_dget f s m (i_wf f D I)) in Hs.
      destruct (i_node f D I s m Hs) as (_ & _ & Hm''). rewrite Em in Hm''. rewrite (Hm'' t) in Hx by apply (i_node f D I t x Hx). injection Hx as ->. exact Hm. }
    destruct (ordn (ndedup (dvalues f))) as [|n0 r] eqn:El; [discriminate|]. injection H as <-.
    destruct (fold_cross_tabs r n0) as [Et Ea]. rewrite Et, Ea.
    change (ntabs n0 ++ flat_map ntabs r) with (flat_map ntabs (n0 :: r)). change (applied n0 ++ flat_map applied r) with (flat_map applied (n0 :: r)).
    assert (Hn : NoDup (flat_map ntabs (n0 :: r))).
    { apply NoDup_flat_map; [exact Hnd| |].
      - intros x Hx. destruct (Hin x Hx) as [t Ht]. apply wfn_nodup, (i_node f D I t x Ht).
      - intros x y t Hx Hy H1 H2. destruct (Hin x Hx) as [s Hs]. destruct (Hin y Hy) as [u Hu]. pose proof (proj2 (proj2 (i_node f D I s x Hs)) t H1). pose proof (proj2 (proj2 (i_node f D I u y Hu)) t H2). congruence. }
    split; [|split].
    - apply fold_cross_wfn; [|intros x Hx|exact Hn].
      + destruct (Hin n0 (or_introl eq_refl)) as [t Ht]. apply (i_node f D I t n0 Ht).
      + destruct (Hin x (or_intror Hx)) as [t Ht]. apply (i_node f D I t x Ht).
    - apply NoDup_Permutation; [exact Hn|exact Nf|]. intros t. rewrite in_flat_map, (i_dom f D I t). split.
      + intros (x & Hx & Ht). destruct (Hin x Hx) as [s Hs]. exists x. now apply (i_node f D I s x Hs).
      + intros (x & Hx). exists x. split; [now apply (Hall t)|]. apply (i_node f D I t x Hx).
    - intros p. rewrite in_flat_map, (i_app f D I p). split.
      + intros (x & Hx & Hp). destruct (Hin x Hx) as [s Hs]. eauto.
      + intros (t & x & Hx & Hp). eauto.
  Qed.

  (** *** The start *)
  Lemma add_tables_get cs ts : forall f t, dget (add_tables cs ts f) t = if mem t ts then Some (NRel t (required_cols cs t)) else dget f t.
  Proof.
    unfold add_tables. induction ts as [|u ts IH]; intros f t; cbn [fold_left]; [reflexivity|]. rewrite IH. cbn [mem existsb]. change (existsb (deqb t) ts) with (mem t ts).
    destruct (mem t ts); [now rewrite orb_true_r|]. rewrite orb_false_r, dset_spec. unfold deqb. destruct (eqd t u) as [->|]; reflexivity.
  Qed.
  Lemma add_tables_wf cs ts : forall f, dwf f -> dwf (add_tables cs ts f).
  Proof. unfold add_tables. induction ts as [|u ts IH]; intros f H; cbn; [exact H|]. apply IH, dwf_dset, H. Qed.
  Definition inside (f : frags) : Prop := dwf f /\ forall t n, dget f t = Some n -> In t from.
  Lemma add_tables_inv cs f0 : inside f0 -> Inv (add_tables cs from f0) [] /\ base (add_tables cs from f0).
  Proof.
    intros [Hwf Hin]. assert (E : forall t n, dget (add_tables cs from f0) t = Some n -> In t from /\ n = NRel t (required_cols cs t)).
    { intros t n. rewrite add_tables_get. destruct (mem t from) eqn:Em; [|intros H; apply mem_nIn in Em; destruct Em; eauto]. intros H. injection H as <-. split; [now apply mem_In|reflexivity]. }
    split; [split|].
    - apply add_tables_wf, Hwf.
    - intros t. rewrite add_tables_get. destruct (mem t from) eqn:Em; [apply mem_In in Em|apply mem_nIn in Em]; [split; [eauto|auto]|]. split; [tauto|]. intros (n & Hn). eauto.
    - intros t n H. apply E in H as [H ->]. cbn. split; [exact Logic.I|]. split; [now left|]. intros u [<-|[]]. rewrite add_tables_get. apply mem_In in H. now rewrite H.
    - intros p. split; [intros []|]. intros (t & n & H & Hp). apply E in H as [_ ->]. destruct Hp.
    - intros t n H. apply E in H as [_ ->]. reflexivity.
  Qed.
  Lemma inside_nil : inside []. Proof. split; [constructor|discriminate]. Qed.
End Fragments.
