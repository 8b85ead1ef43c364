(** Availability of the expressions in the translated tree. *)
From Coq Require Import List Bool Arith Permutation Lia.
From Verif Require Import PyBase Collections_proofs Pred_model Pred_spec Pred_proofs QPred3_proofs DP_proofs Hint_proofs Rel_model Rel_spec Rel_proofs RelP_proofs RelF_proofs RelM_proofs RelT_proofs.
Import ListNotations.

Lemma usable_incl P Q e : incl P Q -> usable P e -> usable Q e.
Proof. intros H. destruct e; cbn; auto. Qed.
Lemma computable_incl P Q e : incl P Q -> computable P e -> computable Q e.
Proof. intros H. destruct e as [| | |k l]; cbn; auto. destruct k; auto; intros Hc a Ha; eapply usable_incl; eauto. Qed.
Lemma atoms_agg e a : In a (atoms e) -> (exists c, a = RCol c) \/ (exists k l, a = RApp (KAgg k) l).
Proof.
  induction e as [v| |c|k l IH] using rx_ind2; intros H; [destruct H|destruct H|destruct H as [<-|[]]; eauto|]. rewrite Forall_forall in IH.
  assert (G : In a (flat_map atoms l) -> (exists c, a = RCol c) \/ (exists k l, a = RApp (KAgg k) l)) by (intros H'; apply in_flat_map in H' as (x & Hx & H'); eauto).
  destruct k; try exact (G H). destruct H as [<-|[]]. eauto.
Qed.
Lemma atoms_cols e : forall c, In (RCol c) (atoms e) -> In c (xcols e).
Proof.
  induction e as [v| |d|k l IH] using rx_ind2; intros c H; [destruct H|destruct H|destruct H as [H|[]]; injection H as ->; now left|]. rewrite Forall_forall in IH.
  assert (G : In (RCol c) (flat_map atoms l) -> In c (xcols (RApp k l))) by (intros H'; apply in_flat_map in H' as (x & Hx & H'); cbn; apply in_flat_map; eauto).
  destruct k; try exact (G H). destruct H as [H|[]]. discriminate.
Qed.
Lemma atoms_no_agg e : has_agg e = false -> forall a, In a (atoms e) -> exists c, a = RCol c.
Proof.
  induction e as [v| |d|k l IH] using rx_ind2; intros Hn a H; [destruct H|destruct H|destruct H as [<-|[]]; eauto|]. rewrite Forall_forall in IH.
  assert (G : existsb has_agg l = false -> In a (flat_map atoms l) -> exists c, a = RCol c).
  { intros E H'. apply in_flat_map in H' as (x & Hx & H'). apply (IH x Hx); [|exact H']. destruct (has_agg x) eqn:Ex; [|reflexivity]. rewrite <- E. symmetry. apply existsb_exists. eauto. }
  destruct k; try exact (G Hn H). discriminate.
Qed.

(** What is required for an expression can be computed from its columns and aggregates. *)
Definition closed (P req : list rx) : Prop := forall x, In x req -> In x P \/ computable (P ++ req) x.
Lemma collect_needs e x : In x (collect_all e) -> needs_mapping x = true.
Proof.
  induction e as [v| |d|k l IH] using rx_ind2; intros H; [destruct H|destruct H|destruct H as [<-|[]]; reflexivity|].
  cbn [collect_all] in H. destruct (is_agg (RApp k l)); [destruct H as [<-|[]]; reflexivity|]. now apply filter_In in H as [_ H].
Qed.
Lemma collect_self e : needs_mapping e = true -> In e (collect_all e).
Proof. destruct e as [v| |c|k l]; try discriminate; intros _; [now left|]. cbn [collect_all]. destruct (is_agg _); now left. Qed.
Lemma collect_app k l x : is_agg (RApp k l) = false -> In x (collect_all (RApp k l)) <-> x = RApp k l \/ exists a, In a l /\ In x (collect_all a).
Proof.
  intros E. cbn [collect_all]. rewrite E, filter_In. cbn [In]. rewrite in_flat_map. split.
  - intros [[<-|(a & Ha & Hx)] _]; eauto.
  - intros [->|(a & Ha & Hx)]; [split; [now left|reflexivity]|]. split; [eauto|]. now apply collect_needs in Hx.
Qed.
Lemma usable_collect P e : usable (P ++ collect_all e) e.
Proof. destruct e as [v| |c|k l]; cbn [usable]; try exact Logic.I; apply in_app_iff; right; now apply collect_self. Qed.
Lemma collect_closed P e : incl (atoms e) P -> closed P (collect_all e).
Proof.
  induction e as [v| |d|k l IH] using rx_ind2; intros H x Hx; [destruct Hx|destruct Hx|left; apply H; exact Hx|]. rewrite Forall_forall in IH.
  destruct (is_agg (RApp k l)) eqn:E.
  - destruct k; try discriminate. left. apply H. exact Hx.
  - apply (collect_app k l x E) in Hx as [->|(a & Ha & Hx)].
    + right. assert (forall a, In a l -> usable (P ++ collect_all (RApp k l)) a).
      { intros a Ha. eapply usable_incl; [|apply (usable_collect P a)]. apply incl_app; [apply incl_appl, incl_refl|]. apply incl_appr. intros y Hy. apply collect_app; eauto. }
      destruct k; try exact H0. discriminate.
    + assert (Hat : incl (atoms a) P). { intros y Hy. apply H. destruct k; try (apply in_flat_map; eauto). discriminate. }
      destruct (IH a Ha Hat x Hx) as [Hin|Hc]; [now left|right]. eapply computable_incl; [|exact Hc]. apply incl_app; [apply incl_appl, incl_refl|]. apply incl_appr. intros y Hy. apply collect_app; eauto.
Qed.
Lemma collect_list_closed P es : (forall e, In e es -> incl (atoms e) P) -> closed P (flat_map collect_all es).
Proof.
  intros H x Hx. apply in_flat_map in Hx as (e & He & Hx). destruct (collect_closed P e (H e He) x Hx) as [Hin|Hc]; [now left|right]. eapply computable_incl; [|exact Hc].
  apply incl_app; [apply incl_appl, incl_refl|]. apply incl_appr. intros y Hy. apply in_flat_map. eauto.
Qed.

Lemma missing_In req P x : In x (missing req P) <-> In x req /\ ~ In x P.
Proof. unfold missing. rewrite dedup_In, filter_In, negb_true_iff, mem_nIn. reflexivity. Qed.
Lemma in_dec_rx (x : rx) P : {In x P} + {~ In x P}.
Proof. destruct (mem x P) eqn:E; [left; now apply mem_In|right; now apply mem_nIn]. Qed.
Lemma with_map_provided n req x : In x (provided (with_map n req)) <-> In x (provided n) \/ In x req.
Proof.
  unfold with_map. destruct (missing req (provided n)) as [|y l] eqn:E.
  - split; [now left|]. intros [H|H]; [exact H|]. destruct (in_dec_rx x (provided n)) as [Hi|Hi]; [exact Hi|]. assert (In x (missing req (provided n))) as Hm by now apply missing_In. rewrite E in Hm. destruct Hm.
  - cbn [provided]. rewrite <- E, in_app_iff, missing_In. split; [tauto|]. intros [H|H]; [now left|]. destruct (in_dec_rx x (provided n)); tauto.
Qed.
Lemma with_map_avail n req : avail n -> closed (provided n) req -> avail (with_map n req).
Proof.
  intros A C. unfold with_map. destruct (missing req (provided n)) as [|y l] eqn:E; [exact A|]. cbn [avail]. split; [exact A|]. intros x Hx. rewrite <- E in Hx. apply missing_In in Hx as [Hx Hn].
  destruct (C x Hx) as [Hi|Hc]; [contradiction|]. eapply computable_incl; [|exact Hc]. rewrite <- E. intros z Hz. apply in_app_iff in Hz as [Hz|Hz]; apply in_app_iff; [now left|]. destruct (in_dec_rx z (provided n)); [now left|]. right. now apply missing_In.
Qed.

(** *** Fragments *)
Record G (cs : list col) (n : rnode) : Prop := {
  g_avail : avail n;
  g_cols : forall c t, In c cs -> c_tab c = Some t -> In t (ntabs n) -> In (RCol c) (provided n);
  g_tabs : forall e, In e (provided n) -> incl (xtabs e) (ntabs n);
  g_args : forall e, In e (provided n) -> match e with RApp _ _ => computable (provided n) e | RCol _ => True | _ => False end }.

Section Frag.
  Context (cs : list col).
  (** An expression over some of the columns, without aggregates. *)
  Definition fine (n : rnode) (e : rx) : Prop := has_agg e = false /\ forall c, In c (xcols e) -> In c cs /\ exists t, c_tab c = Some t /\ In t (ntabs n).
  Lemma fine_atoms n e : G cs n -> fine n e -> incl (atoms e) (provided n).
  Proof.
    intros Gn [Ha Hc] a Hin. destruct (atoms_no_agg e Ha a Hin) as [c ->]. apply atoms_cols in Hin. destruct (Hc c Hin) as (H1 & t & H2 & H3). apply (g_cols cs n Gn c t); auto.
  Qed.
  Lemma with_map_G n es : G cs n -> (forall e, In e es -> fine n e) -> G cs (with_map n (flat_map collect_all es)).
  Proof.
    intros Gn Hf. assert (C : closed (provided n) (flat_map collect_all es)) by (apply collect_list_closed; intros e He; apply fine_atoms; auto). split.
    - apply with_map_avail; [apply (g_avail cs n Gn)|exact C].
    - intros c t H1 H2 H3. rewrite with_map_tabs in H3. rewrite with_map_provided. left. now apply (g_cols cs n Gn c t).
    - intros e He. rewrite with_map_tabs. apply with_map_provided in He as [He|He]; [now apply (g_tabs cs n Gn)|]. apply in_flat_map in He as (x & Hx & He). apply collect_all_cols in He.
      intros t Ht. apply xtabs_In in Ht as (c & Hc & Et). destruct (Hf x Hx) as [_ Hx']. destruct (Hx' c (He c Hc)) as (_ & u & Eu & Hu). congruence.
    - intros e He. assert (Hi : incl (provided n ++ flat_map collect_all es) (provided (with_map n (flat_map collect_all es)))) by (intros y Hy; apply with_map_provided; now apply in_app_iff).
      assert (Hold : In e (provided n) -> match e with RApp _ _ => computable (provided (with_map n (flat_map collect_all es))) e | RCol _ => True | _ => False end).
      { intros H. pose proof (g_args cs n Gn e H) as Hg. destruct e; auto. eapply computable_incl; [|exact Hg]. intros y Hy. apply with_map_provided. now left. }
      apply with_map_provided in He as [He|He]; [now apply Hold|]. destruct (C e He) as [H|H]; [now apply Hold|]. destruct e; try destruct H. eapply computable_incl; eassumption.
  Qed.
  Lemma with_map_usable n es e : In e es -> usable (provided (with_map n (flat_map collect_all es))) e.
  Proof.
    intros He. destruct e as [v| |c|k l]; cbn [usable]; try exact Logic.I; apply with_map_provided; right; apply in_flat_map; eexists; (split; [exact He|]); now apply collect_self.
  Qed.
  Lemma sel_G n p : G cs n -> (forall e, In e (pexprs p) -> fine n e) -> G cs (convert_predicate p n).
  Proof.
    intros Gn Hf. pose proof (with_map_G n (pexprs p) Gn Hf) as Gm. fold (pneeds p) in Gm. unfold convert_predicate. destruct Gm as [A1 A2 A3 A4]. split; try assumption.
    cbn [avail]. split; [exact A1|]. intros e He. now apply with_map_usable.
  Qed.
  Lemma cross_G l r : G cs l -> G cs r -> G cs (NCross l r).
  Proof.
    intros [A1 A2 A3 A4] [B1 B2 B3 B4]. split.
    - cbn. auto.
    - cbn. intros c t H1 H2 H3. rewrite in_app_iff in *. destruct H3; eauto.
    - cbn. intros e He. apply in_app_iff in He as [He|He]; [apply incl_appl|apply incl_appr]; auto.
    - cbn. intros e He. apply in_app_iff in He as [He|He]; [specialize (A4 e He)|specialize (B4 e He)]; destruct e; auto; (eapply computable_incl; [|eassumption]); [apply incl_appl|apply incl_appr]; apply incl_refl.
  Qed.
  Lemma theta_G l r p : G cs l -> G cs r -> (forall e, In e (pexprs p) -> usable (provided l ++ provided r) e) -> G cs (NTheta l r p).
  Proof. intros Gl Gr Hu. destruct (cross_G l r Gl Gr) as [A1 A2 A3 A4]. split; try assumption. cbn in *. tauto. Qed.
  Lemma add_expression_G e n m : G cs n -> fine n e -> add_expression e n = Ok m ->
    G cs m /\ ntabs m = ntabs n /\ (forall x, In x (provided n) -> In x (provided m)) /\ (usable (provided m) e \/ computable (provided m) e).
  Proof.
    intros Gn Hf H. pose proof (add_expression_same _ _ _ H) as (Ht & _). unfold add_expression in H. destruct (mem e (provided n)) eqn:Em.
    { injection H as <-. apply mem_In in Em. split; [exact Gn|]. split; [reflexivity|]. split; [auto|]. left. destruct e; cbn; auto. }
    assert (K : forall k l, e = RApp k l -> is_agg e = false -> m = with_map n (flat_map collect_all l) -> G cs m /\ ntabs m = ntabs n /\ (forall x, In x (provided n) -> In x (provided m)) /\ (usable (provided m) e \/ computable (provided m) e)).
    { intros k l -> Ha ->. split; [apply with_map_G; [exact Gn|]|split; [exact Ht|split]].
      - intros x Hx. destruct Hf as [F1 F2]. split; [|intros c Hc; apply F2; cbn; apply in_flat_map; eauto].
        destruct (has_agg x) eqn:Ex; [|reflexivity]. exfalso. destruct k; try discriminate; cbn in F1; (assert (existsb has_agg l = true) as E by (apply existsb_exists; eauto)); congruence.
      - intros x Hx. apply with_map_provided. now left.
      - right. destruct k; try discriminate; cbn [computable]; intros a Ha'; now apply with_map_usable. }
    destruct e as [v| |c|k l]; [injection H as <-; split; [exact Gn|split; [reflexivity|split; [auto|left; exact Logic.I]]]|discriminate| |].
    - injection H as <-. split; [exact Gn|]. split; [reflexivity|]. split; [auto|]. left. cbn. destruct Hf as [_ Hc]. destruct (Hc c (or_introl eq_refl)) as (H1 & t & H2 & H3). now apply (g_cols cs n Gn c t).
    - destruct k; try discriminate; injection H as <-; try (eapply K; reflexivity). destruct Hf as [Hf _]. discriminate.
  Qed.
  Lemma fine_tabs n m e : ntabs m = ntabs n -> fine n e -> fine m e.
  Proof. intros E. unfold fine. now rewrite E. Qed.

  Lemma distribute_In es l r : forall a b, distribute es l r = Ok (a, b) ->
    (forall e, In e a <-> In e es /\ incl (xtabs e) (ntabs l)) /\ (forall e, In e b <-> In e es /\ ~ incl (xtabs e) (ntabs l) /\ incl (xtabs e) (ntabs r)).
  Proof.
    induction es as [|e es IH]; intros a b H; cbn [distribute] in H; [injection H as <- <-; split; intros e; cbn; tauto|].
    destruct (subsetb (xtabs e) (ntabs l)) eqn:E1.
    - destruct (distribute es l r) as [[a' b']|]; [|discriminate]. cbn [rbind] in H. injection H as <- <-. destruct (IH a' b' eq_refl) as [I1 I2]. apply subsetb_incl in E1. split; intros x; cbn [In].
      + rewrite I1. split; [intros [<-|?]; tauto|]. tauto.
      + rewrite I2. split; [tauto|]. intros [[<-|?] ?]; tauto.
    - destruct (subsetb (xtabs e) (ntabs r)) eqn:E2; [|discriminate]. destruct (distribute es l r) as [[a' b']|]; [|discriminate]. cbn [rbind] in H. injection H as <- <-. destruct (IH a' b' eq_refl) as [I1 I2]. apply subsetb_incl in E2.
      assert (N1 : ~ incl (xtabs e) (ntabs l)) by (intros Hi; apply subsetb_incl in Hi; congruence). split; intros x; cbn [In].
      + rewrite I1. split; [tauto|]. intros [[<-|?] ?]; tauto.
      + rewrite I2. split; [intros [<-|?]; tauto|]. tauto.
  Qed.
  (** Everything below an expression that can be computed is there already. *)
  Lemma subs_provided n e : G cs n -> usable (provided n) e -> forall x, In x (collect_all e) -> In x (provided n).
  Proof.
    intros Gn. induction e as [v| |c|k l IH] using rx_ind2; intros Hu x Hx; [destruct Hx|destruct Hx|destruct Hx as [<-|[]]; exact Hu|]. rewrite Forall_forall in IH.
    pose proof (g_args cs n Gn _ Hu) as Hc. assert (E : is_agg (RApp k l) = false) by (destruct k; try reflexivity; destruct Hc).
    apply (collect_app k l x E) in Hx as [->|(a & Ha & Hx)]; [exact Hu|]. apply (IH a Ha); [|exact Hx]. destruct k; try (now apply Hc). destruct Hc.
  Qed.
  Lemma subs_computable n e : G cs n -> usable (provided n) e \/ computable (provided n) e -> forall x, In x (collect_all e) -> In x (provided n) \/ x = e.
  Proof.
    intros Gn [Hu|Hc] x Hx; [left; now apply (subs_provided n e)|]. destruct e as [v| |c|k l]; try destruct Hc. assert (E : is_agg (RApp k l) = false) by (destruct k; try reflexivity; destruct Hc).
    apply (collect_app k l x E) in Hx as [->|(a & Ha & Hx)]; [now right|left]. apply (subs_provided n a Gn); [|exact Hx]. destruct k; try (now apply Hc). destruct Hc.
  Qed.
  Lemma map_if_G n es : G cs n -> (forall e, In e es -> computable (provided n) e /\ incl (xtabs e) (ntabs n)) -> G cs (map_if n es).
  Proof.
    intros Gn H. destruct es as [|y l]; [exact Gn|]. destruct Gn as [A1 A2 A3 A4]. set (L := y :: l) in *. change (map_if n L) with (NMap n L). split.
    - cbn [avail]. split; [exact A1|]. intros e He. eapply computable_incl; [apply incl_appl, incl_refl|]. now apply H.
    - cbn [provided ntabs]. intros c t H1 H2 H3. apply in_app_iff. left. eauto.
    - cbn [provided ntabs]. intros e He. apply in_app_iff in He as [He|He]; [auto|]. now apply H.
    - cbn [provided]. intros e He. apply in_app_iff in He as [He|He].
      + specialize (A4 e He). destruct e; auto. eapply computable_incl; [apply incl_appl, incl_refl|exact A4].
      + destruct (H e He) as [Hc _]. destruct e; try destruct Hc. eapply computable_incl; [apply incl_appl, incl_refl|exact Hc].
  Qed.
  Lemma join_nodes_G op a b l r n : G cs l -> G cs r -> (forall t, In t (ntabs l) -> ~ In t (ntabs r)) -> fine l a -> fine r b -> xcols a <> [] -> xcols b <> [] ->
    join_nodes (PBin op a b) a b l r = Ok n -> G cs n.
  Proof.
    intros Gl Gr Hd Fa Fb Na Nb H. unfold join_nodes in H. destruct (add_expression a l) as [l1|] eqn:E1; [|discriminate]. cbn [rbind] in H. destruct (add_expression b r) as [r1|] eqn:E2; [|discriminate]. cbn [rbind] in H.
    destruct (add_expression_G a l l1 Gl Fa E1) as (Gl1 & Tl & _ & Ul). destruct (add_expression_G b r r1 Gr Fb E2) as (Gr1 & Tr & _ & Ur).
    destruct (distribute _ l1 r1) as [[el er]|] eqn:Ed; [|discriminate]. cbn [rbind] in H. injection H as <-. destruct (distribute_In _ _ _ _ _ Ed) as [D1 D2].
    assert (Sa : incl (xtabs a) (ntabs l1)) by (rewrite Tl; intros t Ht; apply xtabs_In in Ht as (c & Hc & Et); destruct (proj2 Fa c Hc) as (_ & u & Eu & Hu); congruence).
    assert (Sb : incl (xtabs b) (ntabs r1)) by (rewrite Tr; intros t Ht; apply xtabs_In in Ht as (c & Hc & Et); destruct (proj2 Fb c Hc) as (_ & u & Eu & Hu); congruence).
    assert (Nbl : ~ incl (xtabs b) (ntabs l1)).
    { rewrite Tl. intros Hi. destruct (xcols b) as [|c cl] eqn:Ec; [congruence|]. destruct (proj2 Fb c) as (_ & u & Eu & Hu); [rewrite Ec; now left|]. apply (Hd u); [|exact Hu]. apply Hi, xtabs_In. exists c. split; [rewrite Ec; now left|exact Eu]. }
    assert (Nar : ~ incl (xtabs a) (ntabs r1)).
    { rewrite Tr. intros Hi. destruct (xcols a) as [|c cl] eqn:Ec; [congruence|]. destruct (proj2 Fa c) as (_ & u & Eu & Hu); [rewrite Ec; now left|]. apply (Hd u); [exact Hu|]. apply Hi, xtabs_In. exists c. split; [rewrite Ec; now left|exact Eu]. }
    set (P := provided l1 ++ provided r1) in *.
    assert (Miss : forall x, In x (missing (pneeds (PBin op a b)) P) -> x = a \/ x = b).
    { intros x Hx. apply missing_In in Hx as [Hx Hn]. unfold pneeds in Hx. apply in_flat_map in Hx as (e & [<-|[<-|[]]] & Hx);
        [destruct (subs_computable l1 a Gl1 Ul x Hx) as [Hi|Hi]|destruct (subs_computable r1 b Gr1 Ur x Hx) as [Hi|Hi]]; auto; exfalso; apply Hn, in_app_iff; auto. }
    assert (El : forall x, In x el -> x = a /\ ~ In x P).
    { intros x Hx. apply D1 in Hx as [Hx Hi]. split; [|now apply missing_In in Hx]. destruct (Miss x Hx) as [->| ->]; [reflexivity|contradiction]. }
    assert (Er : forall x, In x er -> x = b /\ ~ In x P).
    { intros x Hx. apply D2 in Hx as (Hx & Hi & Hj). split; [|now apply missing_In in Hx]. destruct (Miss x Hx) as [->| ->]; [contradiction|reflexivity]. }
    assert (Ca : forall x, In x el -> computable (provided l1) x).
    { intros x Hx. destruct (El x Hx) as [-> Hn]. destruct Ul as [Hu|Hc]; [|exact Hc]. exfalso. destruct a as [v| |c|k la]; cbn in Hu, Na; try congruence; apply Hn, in_app_iff; now left. }
    assert (Cb : forall x, In x er -> computable (provided r1) x).
    { intros x Hx. destruct (Er x Hx) as [-> Hn]. destruct Ur as [Hu|Hc]; [|exact Hc]. exfalso. destruct b as [v| |c|k lb]; cbn in Hu, Nb; try congruence; apply Hn, in_app_iff; now right. }
    apply theta_G.
    - apply map_if_G; [exact Gl1|]. intros x Hx. split; [now apply Ca|]. now apply D1 in Hx.
    - apply map_if_G; [exact Gr1|]. intros x Hx. split; [now apply Cb|]. now apply D2 in Hx.
    - assert (Pl : forall x, In x (provided l1) \/ In x el -> In x (provided (map_if l1 el))) by (intros x Hx; destruct el; cbn; [destruct Hx as [Hx|[]]; exact Hx|apply in_app_iff; tauto]).
      assert (Pr : forall x, In x (provided r1) \/ In x er -> In x (provided (map_if r1 er))) by (intros x Hx; destruct er; cbn; [destruct Hx as [Hx|[]]; exact Hx|apply in_app_iff; tauto]).
      assert (Ka : needs_mapping a = true) by (destruct a; cbn in Na; try congruence; reflexivity). assert (Kb : needs_mapping b = true) by (destruct b; cbn in Nb; try congruence; reflexivity).
      assert (Ua : In a (provided l1) \/ In a el).
      { destruct (in_dec_rx a (provided l1)) as [Hi|Hi]; [now left|right]. apply D1. split; [|exact Sa]. apply missing_In. split; [unfold pneeds; apply in_flat_map; exists a; split; [now left|now apply collect_self]|].
        intros Hp. apply in_app_iff in Hp as [Hp|Hp]; [contradiction|]. apply Nar. now apply (g_tabs cs r1 Gr1). }
      assert (Ub : In b (provided r1) \/ In b er).
      { destruct (in_dec_rx b (provided r1)) as [Hi|Hi]; [now left|right]. apply D2. split; [|split; [exact Nbl|exact Sb]]. apply missing_In. split; [unfold pneeds; apply in_flat_map; exists b; split; [right; now left|now apply collect_self]|].
        intros Hp. apply in_app_iff in Hp as [Hp|Hp]; [|contradiction]. apply Nbl. now apply (g_tabs cs l1 Gl1). }
      assert (U : forall Q e, In e Q -> usable Q e) by (intros Q e He; destruct e; cbn; auto).
      intros e [<-|[<-|[]]]; apply U, in_app_iff; [left; now apply Pl|right; now apply Pr].
  Qed.
End Frag.

Lemma create_and_exprs l p : create_and l = Ok p -> forall e, In e (pexprs p) -> exists q, In q l /\ In e (pexprs q).
Proof.
  destruct l as [|a [|b l]]; cbn [create_and]; intros H e He; [discriminate| |].
  - injection H as <-. exists a. split; [now left|exact He].
  - injection H as <-. cbn [pexprs] in He. now apply in_flat_map in He.
Qed.
Lemma top_exprs p q : In q (top p) -> incl (pexprs q) (pexprs p).
Proof. destruct p; cbn [top]; try (intros [<-|[]]; apply incl_refl). intros H c Hc. cbn. apply in_flat_map. eauto. Qed.

Section Tree.
  Context (ordp : list rpred -> list rpred) (ordn : list rnode -> list rnode).
  Context (Hordp : forall l, Permutation (ordp l) l) (Hordn : forall l, Permutation (ordn l) l).
  Context (cs : list col).

  Lemma split_filter_exprs p : forall d, split_filter ordp p = Ok d -> forall t q, In (t, q) d -> incl (pexprs q) (pexprs p).
  Proof.
    assert (Hbase : forall p d, rbind (base_lookup p) (fun t => Ok [(t, p)]) = Ok d -> forall t q, In (t, q) d -> incl (pexprs q) (pexprs p)).
    { intros q d H t r Hin. destruct (base_lookup q); [|discriminate]. cbn in H. injection H as <-. destruct Hin as [E|[]]. injection E as <- <-. apply incl_refl. }
    induction p as [op a b|a lo hi|a vs|op a|p IH|ps IH|ps IH] using pred_ind'; intros d H; cbn [split_filter] in H;
      (destruct (is_filter xcols _) eqn:Ef; [|discriminate]); try (exact (Hbase _ d H)).
    clear Hbase Ef. match type of H with rbind (?G ps []) _ = _ => set (go := G) in * end. rewrite Forall_forall in IH.
    assert (Hgo : forall l acc raw, incl l ps -> go l acc = Ok raw -> dwf acc -> (forall t q, in_raw acc t q -> incl (pexprs q) (pexprs (PAnd ps))) ->
      dwf raw /\ forall t q, in_raw raw t q -> incl (pexprs q) (pexprs (PAnd ps))).
    { induction l as [|x l IHl]; intros acc raw Hi Hg Hw Hc; cbn in Hg; [injection Hg as <-; auto|].
      assert (Hx : In x ps) by (apply Hi; now left). destruct (split_filter ordp x) as [dx|] eqn:Ex; [|discriminate]. cbn [rbind] in Hg.
      apply (IHl _ raw (fun y Hy => Hi y (or_intror Hy)) Hg (fold_raw_wf dx acc Hw)). intros t q Hin. apply fold_raw_spec in Hin as [Hin|Hin]; [eauto|].
      intros e He. cbn. apply in_flat_map. exists x. split; [exact Hx|]. exact (IH x Hx dx Ex t q Hin e He). }
    destruct (go ps []) as [raw|] eqn:Eg; [|discriminate]. cbn [rbind] in H.
    destruct (Hgo ps [] raw (incl_refl _) Eg) as [R1 R2]; [constructor|intros t q (l & E & _); discriminate|].
    destruct (build_ands_spec ordp raw d H) as [D1 _]. intros t q Hq e He. destruct (D1 t q Hq) as (ps' & Hp & Ec). destruct (create_and_exprs _ _ Ec e He) as (q' & Hq' & He').
    apply (Permutation_in _ (Hordp _)) in Hq'. rewrite dedup_In in Hq'. apply (R2 t q'); [|exact He']. exists ps'. split; [now apply In_dget|exact Hq'].
  Qed.

  Definition allG (f : frags) : Prop := forall t n, dget f t = Some n -> G cs n.
  Definition no_agg (p : rpred) : Prop := forall e, In e (pexprs p) -> has_agg e = false.
  Definition known (p : rpred) : Prop := forall c, In c (pcols xcols p) -> In c cs.
  Lemma pexprs_cols p e c : In e (pexprs p) -> In c (xcols e) -> In c (pcols xcols p).
  Proof. intros He Hc. rewrite pcols_pexprs. apply in_flat_map. eauto. Qed.

  Lemma apply_base_G from d : forall f D f', Inv from f D -> base f -> allG f ->
    (forall t q, In (t, q) d -> no_agg q /\ known q /\ forall c, In c (pcols xcols q) -> c_tab c = Some t) -> apply_base d f = Ok f' -> allG f'.
  Proof.
    induction d as [|[t p] d IH]; intros f D f' I B A Hd H; [injection H as <-; exact A|].
    assert (Hstep : exists n, dget f t = Some n /\ apply_base d (dset f t (convert_predicate p n)) = Ok f').
    { cbn [apply_base] in H. unfold resolve in H. destruct (dget f t) as [n|]; [|discriminate]. cbn [rbind] in H. eauto. }
    destruct Hstep as (n & E & H'). destruct (Hd t p (or_introl eq_refl)) as (N & K & C).
    destruct (apply_base_inv from [(t, p)] f D (dset f t (convert_predicate p n)) I B) as (D' & I' & B' & _).
    { intros u q [Eq|[]]. injection Eq as <- <-. exact C. }
    { cbn [apply_base]. unfold resolve. rewrite E. reflexivity. }
    apply (IH _ D' f' I' B'); [|intros u q Hin; apply Hd; now right|exact H'].
    intros u m. rewrite dset_spec. destruct (eqd u t) as [->|]; [|apply A]. intros Em. injection Em as <-. apply sel_G; [now apply (A t)|]. intros e He. split; [now apply N|].
    intros c Hc. pose proof (pexprs_cols p e c He Hc) as Hc'. split; [now apply K|]. exists t. split; [now apply C|]. apply (i_node from f D I t n E).
  Qed.
  Lemma convert_join_G from f D p n : Inv from f D -> allG f -> here from p -> no_agg p -> known p -> convert_join ordn f p = Ok n -> G cs n.
  Proof.
    intros I A Hh N K H. unfold convert_join in H. destruct (rmapM (resolve f) (rptabs p)) as [ns|] eqn:E; [|discriminate]. cbn [rbind] in H.
    destruct (resolve_all ordn Hordn from f D p ns I E) as (R1 & R2 & R3). 
    destruct (rmapM_In (resolve f) _ ns E) as [M1 _]. destruct (ndedup_spec ns) as (N1 & _ & _).
    assert (R4 : forall z, In z (ordn (ndedup ns)) -> exists t, In t (rptabs p) /\ dget f t = Some z).
    { intros z Hz. apply (Permutation_in _ (Hordn _)), N1, M1 in Hz as (t & Ht & Ez). unfold resolve in Ez. destruct (dget f t) as [m|] eqn:Em; [|discriminate]. injection Ez as ->. eauto. }
    destruct (ordn (ndedup ns)) as [|x [|y [|z l]]] eqn:El; [discriminate| | |discriminate].
    - injection H as <-. destruct (R1 x (or_introl eq_refl)) as [t Ht]. apply (sel_G cs x p); [now apply (A t)|]. intros e He. split; [now apply N|]. intros c Hc. pose proof (pexprs_cols p e c He Hc) as Hc'.
      split; [now apply K|]. destruct (Hh c Hc') as (u & Eu & _). exists u. split; [exact Eu|]. destruct (R3 u) as (x' & [<-|[]] & Hin); [apply In_rptabs; eauto|exact Hin].
    - assert (Hxy : x <> y). { intros ->. inversion R2 as [|? ? Hno]; subst. apply Hno. now left. }
      assert (GG : forall op a b l r, p = PBin op a b -> (l = x /\ r = y) \/ (l = y /\ r = x) -> incl (xtabs a) (ntabs l) -> incl (xtabs b) (ntabs r) -> join_nodes p a b l r = Ok n -> G cs n).
      { intros op a b l r Ep Hlr Sa Sb Hj. subst p. assert (Hin : In l [x; y] /\ In r [x; y] /\ l <> r) by (destruct Hlr as [[-> ->]|[-> ->]]; cbn; auto). destruct Hin as (Hl & Hr & Hne).
        destruct (R4 l Hl) as (tl & Htl & El'). destruct (R4 r Hr) as (tr & Htr & Er').
        assert (Hd : forall t, In t (ntabs l) -> ~ In t (ntabs r)).
        { intros t H1 H2. pose proof (proj2 (proj2 (i_node from f D I tl l El')) t H1). pose proof (proj2 (proj2 (i_node from f D I tr r Er')) t H2). congruence. }
        assert (F : forall e z, In e [a; b] -> incl (xtabs e) (ntabs z) -> fine cs z e).
        { intros e z He Hi. split; [now apply N|]. intros c Hc. pose proof (pexprs_cols (PBin op a b) e c He Hc) as Hc'. split; [now apply K|]. destruct (Hh c Hc') as (u & Eu & _). exists u. split; [exact Eu|]. apply Hi, xtabs_In. eauto. }
        assert (Ne : forall e e' z z' t, (forall u, In u (rptabs (PBin op a b)) -> In u (xtabs e) \/ In u (xtabs e')) -> incl (xtabs e') (ntabs z') -> (forall t, In t (ntabs z) -> ~ In t (ntabs z')) -> In t (rptabs (PBin op a b)) -> In t (ntabs z) -> xcols e <> []).
        { intros e e' z z' t Hu Hi Hz Ht Hz' En. destruct (Hu t Ht) as [H1|H1]; [apply xtabs_In in H1 as (c & Hc & _); rewrite En in Hc; destruct Hc|]. apply (Hz t Hz'). now apply Hi. }
        assert (Hu : forall u, In u (rptabs (PBin op a b)) -> In u (xtabs a) \/ In u (xtabs b)).
        { intros u Hu. apply In_rptabs in Hu as (c & Hc & Eu). cbn in Hc. apply in_app_iff in Hc as [Hc|Hc]; [left|right]; apply xtabs_In; eauto. }
        apply (join_nodes_G cs op a b l r n); [now apply (A tl)|now apply (A tr)|exact Hd|apply F; cbn; auto|apply F; cbn; auto| | |exact Hj].
        - apply (Ne a b l r tl Hu Sb Hd Htl). apply (i_node from f D I tl l El').
        - apply (Ne b a r l tr); [intros u Hu'; destruct (Hu u Hu'); auto|exact Sa|intros t H1 H2; now apply (Hd t)|exact Htr|]. apply (i_node from f D I tr r Er'). }
      destruct p as [op a b| | | | | |]; try discriminate.
      destruct (subsetb (xtabs a) (ntabs x) && subsetb (xtabs b) (ntabs y)) eqn:E1; [apply andb_true_iff in E1 as [S1 S2]; apply subsetb_incl in S1, S2; apply (GG op a b x y eq_refl); auto|].
      destruct (subsetb (xtabs a) (ntabs y) && subsetb (xtabs b) (ntabs x)) eqn:E2; [apply andb_true_iff in E2 as [S1 S2]; apply subsetb_incl in S1, S2; apply (GG op a b y x eq_refl); auto|discriminate].
  Qed.
  Lemma apply_joins_G from ps : forall f D f', Inv from f D -> allG f -> (forall p, In p ps -> here from p /\ no_agg p /\ known p) -> apply_joins ordn ps f = Ok f' -> allG f'.
  Proof.
    induction ps as [|p ps IH]; intros f D f' I A Hp H; cbn [apply_joins] in H; [injection H as <-; exact A|].
    destruct (convert_join ordn f p) as [n|] eqn:E; [|discriminate]. cbn [rbind] in H. destruct (Hp p (or_introl eq_refl)) as (P1 & P2 & P3).
    apply (IH (set_all f n) (p :: D) f'); [now apply (convert_join_inv ordn Hordn)| |intros; apply Hp; now right|exact H].
    intros t m. rewrite set_all_get. destruct (mem t (ntabs n)); [|apply A]. intros Em. injection Em as <-. now apply (convert_join_G from f D p).
  Qed.
  Lemma cross_heads_G f n : dwf f -> allG f -> cross_heads ordn f = Ok n -> G cs n.
  Proof.
    intros Hw A H. unfold cross_heads in H. destruct (ndedup_spec (dvalues f)) as (N1 & _ & _).
    assert (Hin : forall x, In x (ordn (ndedup (dvalues f))) -> G cs x).
    { intros x Hx. apply (Permutation_in _ (Hordn _)), N1 in Hx. unfold dvalues in Hx. apply in_map_iff in Hx as ([t y] & <- & Hx). apply (A t). now apply In_dget. }
    destruct (ordn (ndedup (dvalues f))) as [|n0 r]; [discriminate|]. injection H as <-. pose proof (Hin n0 (or_introl eq_refl)) as G0.
    assert (Hr : forall x, In x r -> G cs x) by (intros; apply Hin; now right). clear Hin N1. revert n0 G0. induction r as [|x r IH]; intros n0 G0; cbn [fold_left]; [exact G0|].
    apply IH; [intros; apply Hr; now right|]. apply cross_G; [exact G0|apply Hr; now left].
  Qed.
  Lemma add_tables_G from : allG (add_tables cs from []).
  Proof.
    intros t n. rewrite add_tables_get. destruct (mem t from); [|discriminate]. intros H. injection H as <-. split; cbn.
    - exact Logic.I.
    - intros c u H1 H2 [<-|[]]. apply in_map. unfold required_cols. rewrite dedup_In. apply filter_In. split; [exact H1|]. rewrite H2. apply deqb_refl.
    - intros e He. apply in_map_iff in He as (c & <- & Hc). unfold required_cols in Hc. rewrite dedup_In in Hc. apply filter_In in Hc as [_ Hc]. apply deqb_true in Hc.
      intros u Hu. apply xtabs_In in Hu as (d & [<-|[]] & Eu). rewrite Hc in Eu. injection Eu as <-. now left.
    - intros e He. apply in_map_iff in He as (c & <- & Hc). exact Logic.I.
  Qed.

  (** *** The upper part *)
  Definition L (A : list rx) (n : rnode) : Prop := avail n /\ incl A (provided n).
  Lemma L_map A n es : L A n -> (forall e, In e es -> incl (atoms e) A) -> L A (with_map n (flat_map collect_all es)).
  Proof.
    intros [L1 L2] H. split.
    - apply with_map_avail; [exact L1|]. apply collect_list_closed. intros e He. eapply incl_tran; [now apply H|exact L2].
    - intros x Hx. apply with_map_provided. left. auto.
  Qed.
  Lemma L_sel A n p : L A n -> (forall e, In e (pexprs p) -> incl (atoms e) A) -> L A (convert_predicate p n).
  Proof.
    intros H Hp. destruct (L_map A n (pexprs p) H Hp) as [L1 L2]. unfold convert_predicate. fold (pneeds p) in *. split; [|exact L2]. cbn [avail]. split; [exact L1|]. intros e He. now apply (with_map_usable n (pexprs p)).
  Qed.
  Lemma filter_phase_exprs p ph q : filter_phase p ph = Ok (Some q) -> incl (pexprs q) (pexprs p).
  Proof.
    intros E e He. unfold filter_phase in E. destruct (pred_phase p) as [x|]; [|discriminate]. cbn [rbind] in E. destruct (x <? ph); [discriminate|].
    destruct p as [op a b|a lo hi|a vs|op a|p|ps|ps]; try (destruct (x =? ph); [injection E as <-; exact He|discriminate]).
    destruct (keep_phase ps ph) as [l|] eqn:El; [|discriminate]. cbn [rbind] in E. destruct l as [|y l]; [discriminate|]. unfold rmap in E. destruct (create_and (y :: l)) as [r'|] eqn:Ec; [|discriminate]. cbn [rbind] in E. injection E as ->.
    destruct (create_and_exprs _ _ Ec e He) as (r & Hr & He'). apply (keep_phase_spec _ _ _ El) in Hr as [Hr _]. cbn. apply in_flat_map. eauto.
  Qed.
  Lemma L_late A w ph n m : L A n -> (forall p, w = Some p -> forall e, In e (pexprs p) -> incl (atoms e) A) -> late_phase w ph n = Ok m -> L A m.
  Proof.
    intros Hl Hw H. destruct w as [p|]; cbn [late_phase] in H; [|injection H as <-; exact Hl]. destruct (filter_phase p ph) as [o|] eqn:E; [|discriminate]. cbn [rbind] in H. injection H as <-.
    destruct o as [r|]; [|exact Hl]. apply L_sel; [exact Hl|]. intros e He. apply (Hw p eq_refl). now apply (filter_phase_exprs p ph r E).
  Qed.
  Lemma L_order A ks n m : L A n -> (forall k, In k ks -> match fst k with RVal _ => True | RStar => False | e => In e A end) ->
    add_ordering ks n = Ok m -> L A m.
  Proof.
    intros Hl Hk H. assert (K : forall n0, L A n0 -> (forall k, In k ks -> add_expression (fst k) n0 = Ok n0) -> add_keys ks n0 = Ok n0).
    { clear. intros n0 _ H. induction ks as [|k ks IH]; cbn [add_keys]; [reflexivity|]. rewrite (H k (or_introl eq_refl)). cbn [rbind]. apply IH. intros; apply H; now right. }
    assert (Hs : add_keys ks n = Ok n).
    { apply K; [exact Hl|]. intros k Hin. specialize (Hk k Hin). unfold add_expression. destruct (fst k) as [v| |c|j l]; [destruct (mem _ _); reflexivity|destruct Hk| |];
        (apply (proj2 Hl) in Hk; apply mem_In in Hk; now rewrite Hk). }
    destruct ks as [|k ks]; cbn [add_ordering] in H; [injection H as <-; exact Hl|]. rewrite Hs in H. cbn in H. injection H as <-. destruct Hl as [L1 L2]. split; [|exact L2]. cbn [avail]. split; [exact L1|].
    intros k' Hin. specialize (Hk k' Hin). destruct (fst k') as [v| |c|j l]; cbn; try exact Logic.I; apply L2, Hk.
  Qed.

  (** *** The lower part *)
  Definition clean (p : rpred) : Prop := no_agg p /\ known p.
  Lemma clean_incl p r : incl (pexprs r) (pexprs p) -> clean p -> clean r.
  Proof.
    intros H [N K]. split; [intros e He; apply N; auto|]. intros c Hc. apply K. rewrite pcols_pexprs in *. apply in_flat_map in Hc as (e & He & Hc). apply in_flat_map. exists e. auto.
  Qed.
  Lemma here_incl from p r : incl (pexprs r) (pexprs p) -> here from p -> here from r.
  Proof. intros H Hh c Hc. apply Hh. rewrite pcols_pexprs in *. apply in_flat_map in Hc as (e & He & Hc). apply in_flat_map. exists e. auto. Qed.
  Lemma where_clean p : (forall r, In r (top p) -> phas_agg r = false) -> known p -> clean p.
  Proof.
    intros H K. split; [|exact K]. intros e He.
    assert (Ht : exists r, In r (top p) /\ In e (pexprs r)). { destruct p; cbn [top] in *; try (eexists; split; [now left|exact He]). cbn in He. now apply in_flat_map in He. }
    destruct Ht as (r & Hr & He'). specialize (H r Hr). rewrite phas_agg_pexprs in H. destruct (has_agg e) eqn:E; [|reflexivity]. rewrite <- H. symmetry. apply existsb_exists. eauto.
  Qed.

  Let M0 : rsem unit := {| gval := fun _ _ => tt; gop := fun _ _ _ => T3; gun := fun _ _ => T3 |}.
  Lemma lower_G q f1 f2 n1 n2 : NoDup (q_from q) -> where_ok q -> (forall p, q_where q = Some p -> known p) ->
    base_phase ordp (q_where q) (add_tables cs (q_from q) []) = Ok f1 -> join_phase ordp ordn (q_where q) f1 = Ok f2 -> cross_heads ordn f2 = Ok n1 ->
    late_phase (q_where q) PostJoin n1 = Ok n2 -> G cs n2 /\ incl (q_from q) (ntabs n2).
  Proof.
    intros Nf W K E1 E2 E3 E4.
    assert (HW : forall p, q_where q = Some p -> here (q_from q) p) by (intros p Ep; apply (proj1 (W p Ep))).
    assert (HG : good_where (q_where q)). { destruct (q_where q) as [p|] eqn:Ep; [|exact Logic.I]. exact (proj2 (W p Ep)). }
    assert (HC : forall p, q_where q = Some p -> clean p). { intros p Ep. apply where_clean; [|auto]. intros r Hr. now apply (proj2 (W p Ep)). }
    destruct (base_phase_inv ordp Hordp M0 (q_from q) cs (q_where q) [] f1 (inside_nil _) HW HG E1) as (D1 & I1 & _).
    destruct (join_phase_inv ordp ordn Hordp Hordn M0 (q_from q) (q_where q) f1 D1 f2 HW HG I1 E2) as (D2 & I2 & _).
    destruct (cross_heads_spec ordn Hordn (q_from q) f2 D2 n1 Nf I2 E3) as (_ & P & _).
    assert (A1 : allG f1).
    { destruct (q_where q) as [p|]; cbn [base_phase] in E1; [|injection E1 as <-; apply add_tables_G]. destruct (filter_phase p BaseTable) as [o|] eqn:Ef; [|discriminate]. cbn [rbind] in E1.
      destruct o as [r|]; [|injection E1 as <-; apply add_tables_G]. destruct (split_filter ordp r) as [d|] eqn:Es; [|discriminate]. cbn [rbind] in E1.
      pose proof (filter_phase_exprs p _ r Ef) as Hi. destruct (add_tables_inv (q_from q) cs [] (inside_nil _)) as [I0 B0].
      apply (apply_base_G (q_from q) d _ [] f1 I0 B0 (add_tables_G _)); [|exact E1]. intros t s Hin.
      pose proof (split_filter_exprs r d Es t s Hin) as Hi'. destruct (clean_incl p s) as [C1 C2]; [eapply incl_tran; eassumption|now apply HC|]. split; [exact C1|]. split; [exact C2|].
      assert (Bq : all_bound (pcols xcols r)) by (apply (here_bound (q_from q)), (here_incl _ p); auto).
      intros c Hc. apply (proj1 (split_filter_spec ordp Hordp M0 r Bq d Es) t s Hin c Hc). }
    assert (A2 : allG f2).
    { destruct (q_where q) as [p|]; cbn [join_phase] in E2; [|injection E2 as <-; exact A1]. destruct (filter_phase p Join) as [o|] eqn:Ef; [|discriminate]. cbn [rbind] in E2.
      destruct o as [r|]; [|injection E2 as <-; exact A1]. destruct (split_join ordp r) as [ps|] eqn:Es; [|discriminate]. cbn [rbind] in E2. pose proof (filter_phase_exprs p _ r Ef) as Hi.
      apply (apply_joins_G (q_from q) ps f1 D1 f2 I1 A1); [|exact E2]. intros s Hs.
      assert (Ht : In s (top r)). { unfold split_join in Es. destruct (is_join xcols r); [|discriminate]. injection Es as <-. destruct r; cbn [top]; try exact Hs. rewrite (ordp_In ordp Hordp), dedup_In in Hs. exact Hs. }
      pose proof (top_exprs r s Ht) as Hi'. assert (Hi2 : incl (pexprs s) (pexprs p)) by (eapply incl_tran; eassumption).
      split; [now apply (here_incl _ p); auto|]. now apply (clean_incl p); auto. }
    assert (G1 : G cs n1) by (apply (cross_heads_G f2); [apply (i_wf _ _ _ I2)|exact A2|exact E3]).
    assert (S1 : incl (q_from q) (ntabs n1)) by (intros t Ht; apply (Permutation_in _ (Permutation_sym P)); exact Ht).
    destruct (q_where q) as [p|]; cbn [late_phase] in E4; [|injection E4 as <-; auto]. destruct (filter_phase p PostJoin) as [o|] eqn:Ef; [|discriminate]. cbn [rbind] in E4. injection E4 as <-.
    destruct o as [r|]; [|auto]. pose proof (filter_phase_exprs p _ r Ef) as Hi. split; [|unfold convert_predicate; cbn; now rewrite with_map_tabs].
    apply sel_G; [exact G1|]. destruct (clean_incl p r Hi (HC p eq_refl)) as [C1 C2]. pose proof (here_incl _ p r Hi (HW p eq_refl)) as Hr. intros e He. split; [now apply C1|].
    intros c Hc. pose proof (pexprs_cols r e c He Hc) as Hc'. split; [now apply C2|]. destruct (Hr c Hc') as (t & Et & Ht). exists t. split; [exact Et|]. now apply S1.
  Qed.
End Tree.

(** *** Aggregates *)
Lemma aggs_atoms e a : In a (aggs_of e) <-> In a (atoms e) /\ is_agg a = true.
Proof.
  induction e as [v| |c|k l IH] using rx_ind2; cbn [aggs_of is_agg atoms]; try (cbn; intuition (subst; discriminate)). rewrite Forall_forall in IH.
  assert (G : In a (flat_map aggs_of l) <-> In a (flat_map atoms l) /\ is_agg a = true).
  { rewrite !in_flat_map. split; [intros (x & Hx & H); apply (IH x Hx) in H as [H1 H2]; split; [eauto|exact H2]|intros [(x & Hx & H) H2]; exists x; split; [exact Hx|]; apply (IH x Hx); auto]. }
  destruct k; try exact G. cbn. split; [intros [<-|[]]; auto|intros [[<-|[]] _]; auto].
Qed.
Lemma query_aggs_In q a : In a (query_aggs q) <-> In a (flat_map atoms (late_exprs q)) /\ is_agg a = true.
Proof.
  unfold query_aggs, late_exprs, select_of. rewrite dedup_In, in_app_iff, flat_map_app, in_app_iff.
  assert (G : forall es, In a (flat_map aggs_of es) <-> In a (flat_map atoms es) /\ is_agg a = true).
  { intros es. rewrite !in_flat_map. split; [intros (x & Hx & H); apply aggs_atoms in H as [H1 H2]; eauto|intros [(x & Hx & H) H2]; exists x; split; [exact Hx|]; apply aggs_atoms; auto]. }
  destruct (q_select q), (q_having q); rewrite ?G; cbn; tauto.
Qed.
Lemma collect_t e : has_agg e = false -> collect_all_t e = collect_all e.
Proof. destruct e as [v| |c|k l]; try reflexivity. intros H. unfold collect_all_t. cbn [collect_all]. destruct k; try reflexivity. discriminate. Qed.
Lemma grouped_false q : grouped q = false -> q_group q = [] /\ query_aggs q = [].
Proof.
  unfold grouped. intros H. apply orb_false_iff in H as [H H2]. apply orb_false_iff in H as [H H1]. split; [destruct (q_group q); [reflexivity|discriminate]|]. apply query_aggs_nil. now rewrite H1, H2.
Qed.

Lemma atoms_agg2 es a : In a (flat_map atoms es) -> (exists c, a = RCol c) \/ (exists k l, a = RApp (KAgg k) l).
Proof. intros H. apply in_flat_map in H as (e & _ & H). now apply (atoms_agg e). Qed.

Section Upper.
  Context (ordp : list rpred -> list rpred) (ordn : list rnode -> list rnode).
  Context (Hordp : forall l, Permutation (ordp l) l) (Hordn : forall l, Permutation (ordn l) l).
  Lemma late_col q c : In (RCol c) (flat_map atoms (late_exprs q)) -> In c (sel_cols q).
  Proof.
    intros H. apply in_flat_map in H as (e & He & H). apply atoms_cols in H. unfold late_exprs, select_of in He. unfold sel_cols. rewrite !in_app_iff. apply in_app_iff in He as [He|He].
    - right. right. right. right. destruct (q_select q); [|destruct He]. apply in_flat_map. eauto.
    - right. right. left. destruct (q_having q) as [h|]; [|destruct He]. cbn [opt_pcols]. now apply (pexprs_cols h e).
  Qed.
  Lemma args_cols q k l a c : In (RApp k l) (flat_map atoms (late_exprs q)) -> In a l -> In c (xcols a) -> In c (sel_cols q).
  Proof.
    intros H Ha Hc.
    assert (Hx : forall e, In (RApp k l) (atoms e) -> In c (xcols e)).
    { induction e as [v| |d|k' l' IH] using rx_ind2; intros H'; [destruct H'|destruct H'|destruct H' as [H'|[]]; discriminate|]. rewrite Forall_forall in IH.
      assert (G : In (RApp k l) (flat_map atoms l') -> In c (xcols (RApp k' l'))) by (intros H0; apply in_flat_map in H0 as (x & Hx & H0); cbn; apply in_flat_map; eauto).
      destruct k'; try exact (G H'). destruct H' as [H'|[]]. injection H' as <- <-. cbn. apply in_flat_map. eauto. }
    apply in_flat_map in H as (e & He & H). apply Hx in H. unfold late_exprs, select_of in He. unfold sel_cols. rewrite !in_app_iff. apply in_app_iff in He as [He|He].
    - right. right. right. right. destruct (q_select q); [|destruct He]. apply in_flat_map. eauto.
    - right. right. left. destruct (q_having q) as [h|]; [|destruct He]. cbn [opt_pcols]. now apply (pexprs_cols h e).
  Qed.
  Lemma avail_all q n : regular q -> parse ordp ordn (QSel q) = Ok n -> avail n.
  Proof.
    intros R H. unfold parse in H. cbn [generate] in H. set (cs := sel_cols q).
    assert (Hu : update_query (QSel q) (mkst [] []) = mkst [] cs) by reflexivity. rewrite Hu in H. clear Hu. unfold gen_select in H. cbn [st_cols st_frags] in H.
    destruct (base_phase ordp (q_where q) (add_tables cs (q_from q) [])) as [f1|] eqn:E1; [|discriminate]. cbn [rbind] in H.
    destruct (join_phase ordp ordn (q_where q) f1) as [f2|] eqn:E2; [|discriminate]. cbn [rbind] in H.
    destruct (cross_heads ordn f2) as [n1|] eqn:E3; [|discriminate]. cbn [rbind] in H.
    destruct (late_phase (q_where q) PostJoin n1) as [n2|] eqn:E4; [|discriminate]. cbn [rbind] in H.
    destruct (late_phase (q_having q) PostAggregation (add_aggregation q n2)) as [n3|] eqn:E5; [|discriminate]. cbn [rbind] in H.
    destruct (add_ordering (q_order q) n3) as [n4|] eqn:E6; [|discriminate]. cbn in H. injection H as <-.
    destruct R as [R1 R2 R3 R4 R5 R6 R7].
    destruct (lower_G ordp ordn Hordp Hordn cs q f1 f2 n1 n2) as [G2 S2]; auto.
    { intros p Ep c Hc. unfold cs, sel_cols. rewrite Ep. apply in_app_iff. now left. }
    assert (Hcol : forall c, In c cs -> In (RCol c) (provided n2)). { intros c Hc. destruct (R2 c Hc) as (t & Et & Ht). apply (g_cols cs n2 G2 c t); auto. }
    assert (U : exists A, L A (add_aggregation q n2) /\ incl (flat_map atoms (late_exprs q)) A /\
      forall k, In k (q_order q) -> match fst k with RVal _ => True | RStar => False | e => In e A end).
    { destruct (grouped q) eqn:Eg.
      - exists (q_group q ++ query_aggs q).
        assert (Hag : forall a, In a (query_aggs q) -> exists k l, a = RApp (KAgg k) l /\ In a (flat_map atoms (late_exprs q))).
        { intros a Ha. apply query_aggs_In in Ha as [Ha Hi]. destruct a as [v| |c|[] l]; try discriminate. eauto. }
        assert (Hat : forall x, In x (flat_map (fun a => args a) (query_aggs q)) -> has_agg x = false /\ incl (atoms x) (provided n2)).
        { intros x Hx. apply in_flat_map in Hx as (a & Ha & Hx). destruct (Hag a Ha) as (k & l & -> & Hl). cbn [args] in Hx. pose proof (R5 k l x Hl Hx) as Hn. split; [exact Hn|].
          intros y Hy. destruct (atoms_no_agg x Hn y Hy) as [c ->]. apply Hcol. apply atoms_cols in Hy. now apply (args_cols q (KAgg k) l x). }
        assert (Eq : add_aggregation q n2 = NGroup (with_map n2 (flat_map collect_all (flat_map (fun a => args a) (query_aggs q)))) (q_group q) (query_aggs q)).
        { assert (Ef : forall ag, incl ag (query_aggs q) -> flat_map (fun a => flat_map collect_all_t (args a)) ag = flat_map collect_all (flat_map (fun a => args a) ag)).
          { induction ag as [|a ag IH]; intros Hi; [reflexivity|]. cbn [flat_map]. rewrite IH, flat_map_app; [|intros y Hy; apply Hi; now right]. f_equal.
            assert (Hs : forall x, In x (args a) -> has_agg x = false) by (intros x Hx; apply Hat; apply in_flat_map; exists a; split; [apply Hi; now left|exact Hx]).
            induction (args a) as [|x l IHl]; [reflexivity|]. cbn [flat_map]. rewrite IHl, collect_t; [reflexivity|apply Hs; now left|intros; apply Hs; now right]. }
          pose proof (Ef (query_aggs q) (incl_refl _)) as Ef'. unfold add_aggregation. destruct (q_group q) as [|g gc] eqn:Egc; [|now rewrite Ef']. destruct (query_aggs q) eqn:Eq; [|now rewrite Ef'].
          exfalso. unfold grouped in Eg. rewrite Egc in Eg. cbn in Eg. apply query_aggs_nil in Eq. congruence. }
        rewrite Eq. split; [|split].
        + split; [|cbn [provided]; apply incl_refl]. cbn [avail]. split; [|split].
          * apply with_map_avail; [apply (g_avail cs n2 G2)|]. apply collect_list_closed. intros x Hx. now apply Hat.
          * intros g Hg. destruct (R4 g Hg) as [c ->]. cbn. apply with_map_provided. left. apply Hcol. unfold cs, sel_cols. rewrite !in_app_iff. right. left. apply in_flat_map. exists (RCol c). split; [exact Hg|now left].
          * intros a Ha. destruct (Hag a Ha) as (k & l & -> & _). intros x Hx. apply with_map_usable. apply in_flat_map. exists (RApp (KAgg k) l). auto.
        + intros x Hx. destruct (atoms_agg2 _ _ Hx) as [[c ->]|(k & l & ->)]; apply in_app_iff; [left; now apply R6|right]. apply query_aggs_In. auto.
        + intros k Hk. specialize (R7 k Hk). destruct (fst k) as [v| |c|[] l]; try exact R7; try contradiction; apply in_app_iff; [left; auto|right]. apply query_aggs_In. auto.
      - exists (map RCol cs). destruct (grouped_false q Eg) as [Eg1 Eg2].
        assert (Ea : add_aggregation q n2 = n2) by (unfold add_aggregation; now rewrite Eg1, Eg2). rewrite Ea. split; [|split].
        + split; [apply (g_avail cs n2 G2)|]. intros x Hx. apply in_map_iff in Hx as (c & <- & Hc). auto.
        + intros x Hx. destruct (atoms_agg2 _ _ Hx) as [[c ->]|(k & l & ->)]; [apply in_map; now apply late_col|]. assert (Hq : In (RApp (KAgg k) l) (query_aggs q)) by (apply query_aggs_In; auto). rewrite Eg2 in Hq. destruct Hq.
        + intros k Hk. pose proof (R7 k Hk) as H7. destruct (fst k) as [v| |c|[] l] eqn:Ek; try exact H7; try contradiction.
          * apply in_map. unfold cs, sel_cols. rewrite !in_app_iff. right. right. right. left. apply in_flat_map. exists k. split; [exact Hk|]. rewrite Ek. now left.
          * assert (Hq : forall a, is_agg a = true -> In a (flat_map atoms (late_exprs q)) -> False) by (intros a H1 H2; assert (Hq : In a (query_aggs q)) by (apply query_aggs_In; auto); rewrite Eg2 in Hq; destruct Hq). exfalso. exact (Hq (RApp (KAgg f) l) eq_refl H7). }
    destruct U as (A & L0 & UA & UO).
    assert (L3 : L A n3). { apply (L_late A (q_having q) PostAggregation _ n3 L0); [|exact E5]. intros p Ep e He x Hx. apply UA. apply in_flat_map. exists e. split; [|exact Hx]. unfold late_exprs. apply in_app_iff. right. now rewrite Ep. }
    assert (L4 : L A n4) by exact (L_order A (q_order q) n3 n4 L3 UO E6).
    unfold final_projection. destruct (q_select q) as [ts|] eqn:Es; [|apply L4].
    destruct (L_map A n4 ts L4) as [L5 _].
    { intros e He x Hx. apply UA. apply in_flat_map. exists e. split; [|exact Hx]. unfold late_exprs, select_of. rewrite Es. apply in_app_iff. now left. }
    cbn [avail]. split; [exact L5|]. intros e He. now apply with_map_usable.
  Qed.
End Upper.
