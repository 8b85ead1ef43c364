(** The cross product check, and which tables a join touches. *)
From Coq Require Import List Bool Arith Lia.
From Verif Require Import PyBase Pred_model Pred_spec Pred_proofs Graph QPred_model QPred_spec QPred_proofs QPred2_proofs.
Import ListNotations.

Section P.
  Context {E : Type} (ecols : E -> list col).
  Notation pred := (pred E).

  Lemma jg_edges_ok js : (forall j, In j js -> jp_ok ecols j) -> exists es, jg_edges ecols js = Ok es /\
    forall a b, In (a, b) es <-> exists j ps x y, In j js /\ join_partners ecols j = Ok ps /\ In (x, y) ps /\ a = c_tab x /\ b = c_tab y.
  Proof.
    induction js as [|j js IH]; intros H; cbn [jg_edges].
    - exists []. split; [reflexivity|]. intros a b. split; [intros []|intros (? & ? & ? & ? & [] & _)].
    - destruct (H j (or_introl eq_refl)) as [ps Hps]. rewrite Hps. cbn [rbind].
      destruct IH as (es & Hes & HI); [intros; apply H; now right|]. rewrite Hes. cbn [rbind]. eexists. split; [reflexivity|].
      intros a b. rewrite in_app_iff, in_map_iff, HI. split.
      + intros [([x y] & [= <- <-] & Hxy)|(j' & ps' & x & y & Hj & Hrest)].
        * exists j, ps, x, y. simpl. auto.
        * exists j', ps', x, y. simpl. intuition.
      + intros (j' & ps' & x & y & [<-|Hj] & Hp & Hxy & -> & ->).
        * left. exists (x, y). rewrite Hps in Hp. injection Hp as <-. auto.
        * right. exists j', ps', x, y. auto.
  Qed.

  Lemma cross_product_check_spec js root : (forall j, In j js -> jp_ok ecols j) ->
    (forall j c, In j js -> In c (pcols ecols j) -> exists t, c_tab c = Some t /\ In t root) -> root <> [] ->
    exists b, cross_product_check ecols js root = Ok b /\ (b = true <-> tables_connected ecols js root).
  Proof.
    intros Hok Hcols Hne. destruct (jg_edges_ok js Hok) as (es & Hes & HI). unfold cross_product_check. rewrite Hes. cbn [rbind].
    set (ns := join_graph_nodes root es).
    assert (Hns : forall n, In n ns <-> exists t, n = Some t /\ In t root).
    { intros n. unfold ns, join_graph_nodes. rewrite dedup_In, in_app_iff, in_map_iff, in_flat_map. split.
      - intros [(t & <- & Ht)|([a b] & He & Hn)]; [eauto|]. apply HI in He as (j & ps & x & y & Hj & Hp & Hxy & -> & ->).
        destruct (partner_cols ecols j ps Hp x y Hxy) as [Hx Hy]. cbn in Hn. destruct Hn as [<-|[<-|[]]]; eapply Hcols; eauto.
      - intros (t & -> & Ht). left. eauto. }
    destruct ns as [|n0 ns'] eqn:Hn.
    { exfalso. destruct root as [|t root']; [congruence|]. apply (proj2 (Hns (Some t))). exists t. simpl. auto. }
    rewrite <- Hn in *. exists (connectedb ns es). split; [reflexivity|]. rewrite connectedb_spec.
    assert (Hadj : forall t u, adj es (Some t) (Some u) <-> exists j, In j js /\ links ecols t u j).
    { intros t u. unfold adj. split.
      - intros [He|He]; apply HI in He as (j & ps & x & y & Hj & Hp & Hxy & Ha & Hb); exists j; (split; [assumption|]);
          apply (join_partners_links ecols j t u ps Hp); [exists x, y|exists y, x]; auto.
      - intros (j & Hj & Hl). destruct (Hok j Hj) as [ps Hp]. apply (join_partners_links ecols j t u ps Hp) in Hl.
        destruct Hl as (x & y & [Hxy|Hxy] & Hx & Hy); [left|right]; apply HI; [exists j, ps, x, y|exists j, ps, y, x]; auto. }
    unfold connected, tables_connected. split.
    - intros H t u Ht Hu.
      assert (Hp : forall a b, path ns es a b -> forall t, a = Some t -> In t root -> forall u, b = Some u -> chain (fun a b => exists j, In j js /\ links ecols a b j) root t u).
      { clear t u Ht Hu. intros a b. induction 1 as [x Hx|x y z Hxy IH Hyz Hz]; intros t -> Ht u Hb.
        - injection Hb as <-. now constructor.
        - subst z. assert (Hy : In y ns) by (destruct (path_In _ _ _ _ Hxy); assumption). apply Hns in Hy as (v & -> & Hv).
          eapply chain_step; [now apply (IH t eq_refl Ht v)|now apply Hadj|]. apply Hns in Hz as (w & [= <-] & Hw). assumption. }
      eapply Hp; [apply (H (Some t) (Some u)); apply Hns; eauto|reflexivity|assumption|reflexivity].
    - intros H a b Ha Hb. apply Hns in Ha as (t & -> & Ht), Hb as (u & -> & Hu). specialize (H t u Ht Hu).
      induction H as [x Hx|x y z Hxy IH Hyz Hz]; [constructor; apply Hns; eauto|].
      eapply path_step; [apply IH; [assumption|]| |].
      + clear - Hxy. destruct Hxy; assumption.
      + apply Hadj. assumption.
      + apply Hns. eauto.
  Qed.

  (** A reported join mentions two different tables. *)
  Lemma many_two s : NoDup s -> many s = true -> exists t u, t <> u /\ In t s /\ In u s.
  Proof.
    unfold many. intros Hnd H. destruct s as [|t [|u r]]; try discriminate. exists t, u. inversion Hnd as [|? ? Hn _]; subst.
    split; [intros ->; apply Hn; now left|]. simpl. auto.
  Qed.
  Lemma ctabs_NoDup cs : NoDup (ctabs cs).
  Proof. apply dedup_NoDup. Qed.
  Lemma etabs_sub e p : incl (ecols e) (pcols ecols p) -> incl (etabs ecols e) (ptabs ecols p).
  Proof. intros H t Ht. apply In_ctabs in Ht as (c & Hc & Ht). apply In_ctabs. exists c. auto. Qed.

  Lemma is_join_two p : is_join ecols p = true -> exists t u, t <> u /\ In t (ptabs ecols p) /\ In u (ptabs ecols p).
  Proof.
    assert (Hsub : forall l p, (exists t u, t <> u /\ In t l /\ In u l) -> incl l (ptabs ecols p) -> exists t u, t <> u /\ In t (ptabs ecols p) /\ In u (ptabs ecols p)).
    { intros l q (t & u & Hn & Ht & Hu) Hi. exists t, u. auto. }
    induction p as [op a b|a lo hi|a vs|op a|p IH|ps IH|ps IH] using pred_ind'; intros Hj.
    - cbn [is_join] in Hj. set (p := PBin op a b).
      assert (Ha : incl (etabs ecols a) (ptabs ecols p)) by (apply etabs_sub; intros c Hc; cbn; apply in_app_iff; auto).
      assert (Hb : incl (etabs ecols b) (ptabs ecols p)) by (apply etabs_sub; intros c Hc; cbn; apply in_app_iff; auto).
      destruct (many (etabs ecols a)) eqn:Hma; [eapply Hsub; [apply many_two; [apply ctabs_NoDup|eassumption]|assumption]|].
      destruct (many (etabs ecols b)) eqn:Hmb; [eapply Hsub; [apply many_two; [apply ctabs_NoDup|eassumption]|assumption]|].
      apply andb_true_iff in Hj as [Hj Hne]. apply andb_true_iff in Hj as [Hna Hnb].
      destruct (etabs ecols a) as [|t [|? ?]] eqn:Ea; [discriminate| |discriminate].
      destruct (etabs ecols b) as [|u [|? ?]] eqn:Eb; [discriminate| |discriminate].
      exists t, u. split; [|split; [apply Ha; now left|apply Hb; now left]].
      intros ->. apply negb_true_iff in Hne. assert (seteqb [u] [u] = true) by (apply seteqb_seteq; intros x; tauto). congruence.
    - cbn [is_join] in Hj. set (p := PBetween a lo hi).
      assert (Ha : incl (etabs ecols a) (ptabs ecols p)) by (apply etabs_sub; intros c Hc; cbn; rewrite !in_app_iff; auto).
      assert (Hl : incl (etabs ecols lo) (ptabs ecols p)) by (apply etabs_sub; intros c Hc; cbn; rewrite !in_app_iff; auto).
      assert (Hh : incl (etabs ecols hi) (ptabs ecols p)) by (apply etabs_sub; intros c Hc; cbn; rewrite !in_app_iff; auto).
      apply orb_true_iff in Hj as [Hj|Hj]; [apply orb_true_iff in Hj as [Hj|Hj]|].
      + eapply Hsub; [apply many_two; [apply ctabs_NoDup|eassumption]|assumption].
      + eapply Hsub; [apply many_two; [apply dedup_NoDup|eassumption]|]. intros t Ht. rewrite dedup_In, in_app_iff in Ht. destruct Ht; auto.
      + eapply Hsub; [apply many_two; [apply dedup_NoDup|eassumption]|]. intros t Ht. rewrite dedup_In, in_app_iff in Ht. destruct Ht; auto.
    - cbn [is_join] in Hj. set (p := PIn a vs).
      assert (Ha : incl (etabs ecols a) (ptabs ecols p)) by (apply etabs_sub; intros c Hc; cbn; rewrite !in_app_iff; auto).
      apply orb_true_iff in Hj as [Hj|Hj].
      + eapply Hsub; [apply many_two; [apply ctabs_NoDup|eassumption]|assumption].
      + apply existsb_exists in Hj as (v & Hv & Hj).
        assert (Hvs : incl (etabs ecols v) (ptabs ecols p)) by (apply etabs_sub; intros c Hc; cbn; rewrite !in_app_iff, in_flat_map; eauto).
        eapply Hsub; [apply many_two; [apply dedup_NoDup|eassumption]|]. intros t Ht. rewrite dedup_In, in_app_iff in Ht. destruct Ht; auto.
    - cbn [is_join] in Hj. eapply Hsub; [apply many_two; [apply ctabs_NoDup|eassumption]|]. apply etabs_sub. intros c Hc. exact Hc.
    - exact (IH Hj).
    - apply existsb_exists in Hj as (q & Hq & Hj). rewrite Forall_forall in IH. eapply Hsub; [apply (IH q Hq Hj)|].
      apply ptabs_sub. intros c Hc. cbn. apply in_flat_map. eauto.
    - apply existsb_exists in Hj as (q & Hq & Hj). rewrite Forall_forall in IH. eapply Hsub; [apply (IH q Hq Hj)|].
      apply ptabs_sub. intros c Hc. cbn. apply in_flat_map. eauto.
  Qed.

  (** For comparisons the converse holds, too. *)
  Lemma bin_filter_one op a b t u : is_join ecols (PBin op a b) = false -> In t (ptabs ecols (PBin op a b)) -> In u (ptabs ecols (PBin op a b)) -> t = u.
  Proof.
    cbn [is_join]. intros H Ht Hu.
    assert (Hab : forall x, In x (ptabs ecols (PBin op a b)) -> In x (etabs ecols a) \/ In x (etabs ecols b)).
    { intros x Hx. apply In_ctabs in Hx as (c & Hc & Hx). cbn in Hc. apply in_app_iff in Hc as [Hc|Hc]; [left|right]; apply In_ctabs; eauto. }
    apply Hab in Ht. apply Hab in Hu.
    destruct (many (etabs ecols a)) eqn:Hma; [discriminate|]. destruct (many (etabs ecols b)) eqn:Hmb; [discriminate|].
    unfold many in *. destruct (etabs ecols a) as [|x [|? ?]]; [| |discriminate]; destruct (etabs ecols b) as [|y [|? ?]]; try discriminate;
      cbn [In] in *; try (destruct Ht as [Ht|Ht], Hu as [Hu|Hu]; intuition congruence).
    cbn [nonempty andb] in H. apply negb_false_iff, seteqb_seteq in H. destruct (proj1 (H x) (or_introl eq_refl)) as [->|[]].
    intuition congruence.
  Qed.
End P.
