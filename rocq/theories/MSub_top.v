(** move_into_subquery keeps the result. *)
From Coq Require Import List Bool Arith Lia Permutation.
From Verif Require Collections_proofs.
From Verif Require Import PyBase Pred_model Trans_model MSub_model MSub_spec MSub_proofs MSub_sem.
Import ListNotations.

Lemma q_pred_plain q F : q_from q = map IDirect F -> q_pred q = q_where q.
Proof.
  intros H. unfold q_pred. rewrite H.
  assert (E : flat_map (fun i => olist (item_pred i)) (map IDirect F) = []) by (clear H; induction F; auto). rewrite E. cbn. rewrite app_nil_r. destruct (q_where q); reflexivity.
Qed.
Lemma inside_direct ts t : NoDup ts -> 2 <= length ts -> inside ts (IDirect t) = mem t ts.
Proof.
  intros N L. unfold inside. cbn [item_tables forallb existsb]. rewrite andb_true_r. destruct (mem t ts) eqn:M; [|reflexivity]. cbn [andb].
  apply existsb_exists. destruct ts as [|a [|b r]]; cbn in L; try lia. inversion N as [|? ? Na _]; subst.
  destruct (Nat.eq_dec a t) as [->|Ha].
  - exists b. split; [right; left; reflexivity|]. rewrite orb_false_r. apply negb_true_iff. apply deqb_neq. intros ->. apply Na. left. reflexivity.
  - exists a. split; [left; reflexivity|]. rewrite orb_false_r. apply negb_true_iff. apply deqb_neq. exact Ha.
Qed.
Lemma filter_outside ts F : NoDup ts -> 2 <= length ts ->
  filter (fun i => negb (inside ts i)) (map IDirect F) = map IDirect (filter (fun t => negb (mem t ts)) F).
Proof. intros N L. induction F as [|t F IH]; [reflexivity|]. cbn [map filter]. rewrite inside_direct by assumption. destruct (mem t ts); cbn; rewrite IH; reflexivity. Qed.
Lemma NoDup_len_dedup {A} {EA : EqD A} (l : list A) : length l <= length (dedup l) -> NoDup l.
Proof.
  intros H. apply NoDup_incl_NoDup with (dedup l); [apply dedup_NoDup|exact H|]. intros x Hx. rewrite dedup_In in Hx. exact Hx.
Qed.
Lemma find_name cols c : NoDup (map c_name cols) -> In c cols -> find (fun d => Nat.eqb (c_name d) (c_name c)) cols = Some c.
Proof.
  induction cols as [|d cols IH]; cbn; intros N H; [destruct H|]. inversion N as [|? ? Nd N']; subst. destruct H as [->|H]; [rewrite Nat.eqb_refl; reflexivity|].
  destruct (Nat.eqb (c_name d) (c_name c)) eqn:E; [|auto]. apply Nat.eqb_eq in E. destruct Nd. rewrite E. apply in_map. exact H.
Qed.

Section Top.
  Context {V : Type} (I : interp V) (db : tbl -> list (@row V)).
  Notation env := (@env V).
  Lemma cross_assoc (a b c : list env) : cross a (cross b c) = cross (cross a b) c.
  Proof.
    unfold cross. induction a as [|x a IHa]; [reflexivity|]. cbn. rewrite IHa, flat_map_app. f_equal. clear.
    induction b as [|y b IHb]; [reflexivity|]. cbn. rewrite map_app, IHb, !map_map. f_equal. apply map_ext. intros. apply app_assoc.
  Qed.
  Lemma cross_nil_l (a : list env) : cross [[]] a = a.
  Proof. unfold cross. cbn. rewrite app_nil_r. apply map_id. Qed.
  Lemma cross_nil_r (a : list env) : cross a [[]] = a.
  Proof. unfold cross. induction a as [|x a IH]; [reflexivity|]. cbn. cbn in IH. rewrite IH, app_nil_r. reflexivity. Qed.
  Lemma from_rows_app a b : from_rows I db (a ++ b) = cross (from_rows I db a) (from_rows I db b).
  Proof. induction a as [|i a IH]; cbn [app from_rows fold_right]; [symmetry; apply cross_nil_l|]. fold (from_rows I db (a ++ b)). rewrite IH, cross_assoc. reflexivity. Qed.
  Lemma from_rows_direct F : from_rows I db (map IDirect F) = combos db F.
  Proof. induction F as [|t F IH]; [reflexivity|]. cbn [map from_rows fold_right]. fold (from_rows I db (map IDirect F)). rewrite IH. reflexivity. Qed.
  Lemma from_rows_wrap F : from_rows I db (map IWrap F) = from_rows I db F.
  Proof. induction F as [|t F IH]; [reflexivity|]. cbn [map from_rows fold_right]. fold (from_rows I db (map IWrap F)). rewrite IH. reflexivity. Qed.
  Lemma from_rows_one i : from_rows I db [i] = rows_of I db i.
  Proof. cbn. apply cross_nil_r. Qed.
  Lemma cross_cons x a b : cross (x :: a) b = map (fun y => x ++ y) b ++ @cross V a b.
  Proof. reflexivity. Qed.
  Lemma flat_cross {X} (h : env -> list X) a b : flat_map h (cross a b) = flat_map (fun x => flat_map (fun y => h (x ++ y)) b) a.
  Proof.
    induction a as [|x a IH]; [reflexivity|]. rewrite cross_cons. cbn [flat_map]. etransitivity; [apply flat_map_app|]. f_equal; [|exact IH]. clear. induction b as [|y b IH]; [reflexivity|]. cbn [map flat_map]. rewrite IH. reflexivity.
  Qed.
  Lemma flat_map_ext_in {A B} (f g : A -> list B) l : (forall x, In x l -> f x = g x) -> flat_map f l = flat_map g l.
  Proof. induction l as [|x l IH]; cbn; intros H; [reflexivity|]. rewrite H by auto. f_equal. apply IH. auto. Qed.
  Definition emit (q : query) (k : env) : list (list V) := if keeps I (val I k) (q_where q) then [map (ev I (val I k)) (q_rest q)] else [].
  Lemma result_flat q : result I db q = flat_map (emit q) (from_rows I db (q_from q)).
  Proof.
    unfold result, emit. induction (from_rows I db (q_from q)) as [|k l IH]; [reflexivity|]. cbn. destruct (keeps I (val I k) (q_where q)); cbn; rewrite IH; reflexivity.
  Qed.
  Lemma emit_perm q k k' : NoDup (map fst k) -> Permutation k k' -> emit q k = emit q k'.
  Proof.
    intros N P. assert (E : forall c, val I k c = val I k' c). { intros c. unfold val. destruct (c_tab c); [|reflexivity]. rewrite (lookup_perm k k' P N). reflexivity. }
    unfold emit. rewrite (keeps_ext I (val I k) (val I k')) by auto.
    rewrite (map_ext (ev I (val I k)) (ev I (val I k'))); [reflexivity|]. intros e. apply ev_ext. auto.
  Qed.

  Section Pointwise.
    Context (q : query) (ts O : list tbl) (name : tbl) (sp : list prd).
    Let cols := filter (fun c => match c_tab c with Some t => mem t ts | None => false end) (dedup (q_cols q)).
    Let ren c := if mem c cols then mkcol (Some name) (c_name c) else c.
    Hypothesis Huniq : NoDup (map c_name cols).
    Hypothesis Hdisj : forall t, In t O -> ~ In t ts.
    Hypothesis Hname : ~ In name O.
    Hypothesis Hncol : forall c, In c (q_cols q) -> c_tab c <> Some name.

    Lemma in_cols c : In c (q_cols q) -> (In c cols <-> exists t, c_tab c = Some t /\ In t ts).
    Proof.
      intros H. unfold cols. rewrite filter_In, dedup_In. split.
      - intros [_ M]. destruct (c_tab c) as [t|]; [|discriminate]. exists t. split; [reflexivity|]. apply mem_In. exact M.
      - intros (t & Et & Ht). split; [exact H|]. rewrite Et. apply mem_In. exact Ht.
    Qed.
    Lemma val_ren a s c : map fst a = O -> map fst s = ts -> In c (q_cols q) ->
      val I (a ++ [(name, sub_row I cols s)]) (ren c) = val I (a ++ s) c.
    Proof.
      intros Ka Ks Hc. unfold ren. destruct (mem c cols) eqn:M.
      - apply mem_In in M. pose proof (proj1 (in_cols c Hc) M) as (t & Et & Ht).
        unfold val at 1. cbn [c_tab c_name]. rewrite lookup_app, lookup_none by (rewrite Ka; exact Hname). cbn [lookup]. rewrite Nat.eqb_refl.
        unfold sub_row. rewrite find_name by assumption. unfold val. rewrite Et, lookup_app, (lookup_none a t); [reflexivity|]. rewrite Ka. intros X. exact (Hdisj t X Ht).
      - unfold val. destruct (c_tab c) as [t|] eqn:Et; [|reflexivity]. rewrite !lookup_app. destruct (lookup a t); [reflexivity|]. cbn [lookup].
        destruct (Nat.eqb t name) eqn:E; [apply Nat.eqb_eq in E; subst; destruct (Hncol c Hc Et)|].
        rewrite lookup_none; [reflexivity|]. rewrite Ks. intros X. apply mem_nIn in M. apply M. apply (in_cols c Hc). eauto.
    Qed.

    Hypothesis Hclosed : forall c t, In c (ocols (and_opt sp)) -> c_tab c = Some t -> In t ts.
    Hypothesis Hsub : forall d, In d (oconj (and_opt sp)) -> In d (oconj (q_where q)).
    Hypothesis Hrem1 : forall d, In d (oconj (remove_all sp (q_where q))) -> In d (oconj (q_where q)).
    Hypothesis Hrem2 : forall d, In d (oconj (q_where q)) -> In d (oconj (remove_all sp (q_where q))) \/ exists x, In x sp /\ In d (conjuncts x).
    Let q' := mkq (map (ren_e ren) (q_rest q)) [] (option_map (rename_pred (ren_e ren)) (remove_all sp (q_where q))).

    Lemma where_cols w c : (forall d, In d (oconj w) -> In d (oconj (q_where q))) -> In c (ocols w) -> In c (q_cols q).
    Proof.
      intros H Hc. apply cols_oconj in Hc as (d & Hd & Hc). unfold q_cols. apply in_app_iff. right. apply H in Hd. exact (oconj_cols d _ Hd c Hc).
    Qed.
    Lemma keeps_split v : keeps I v (q_where q) = keeps I v (and_opt sp) && keeps I v (remove_all sp (q_where q)).
    Proof.
      rewrite !keeps_conj. apply eq_true_iff_eq. rewrite andb_true_iff, !forallb_forall. split.
      - intros H. split; intros d Hd; apply H; auto.
      - intros [H1 H2] d Hd. destruct (Hrem2 d Hd) as [H|(x & Hx & H)]; [auto|]. apply H1. rewrite and_opt_conj. apply in_flat_map. eauto.
    Qed.
    Lemma emit_sub a s : map fst a = O -> map fst s = ts ->
      emit q (a ++ s) = if keeps I (val I s) (and_opt sp) then emit q' (a ++ [(name, sub_row I cols s)]) else [].
    Proof.
      intros Ka Ks. unfold emit at 1. rewrite keeps_split.
      rewrite (keeps_ext I (val I (a ++ s)) (val I s) (and_opt sp)).
      2:{ intros c Hc. unfold val. destruct (c_tab c) as [t|] eqn:Et; [|reflexivity]. rewrite lookup_app, (lookup_none a t); [reflexivity|]. rewrite Ka. intros X. apply (Hdisj t X). exact (Hclosed c t Hc Et). }
      destruct (keeps I (val I s) (and_opt sp)); cbn [andb]; [|reflexivity].
      unfold emit, q'. cbn [q_where q_rest]. rewrite keeps_ren.
      rewrite (keeps_ext I (fun c => val I (a ++ [(name, sub_row I cols s)]) (ren c)) (val I (a ++ s)) (remove_all sp (q_where q))).
      2:{ intros c Hc. apply val_ren; auto. exact (where_cols _ c Hrem1 Hc). }
      destruct (keeps I (val I (a ++ s)) (remove_all sp (q_where q))); [|reflexivity]. f_equal. rewrite map_map. apply map_ext_in. intros e He.
      rewrite ev_ren. apply ev_ext. intros c Hc. symmetry. apply val_ren; auto. unfold q_cols. apply in_app_iff. left. apply in_flat_map. eauto.
    Qed.
  End Pointwise.

  Theorem move_result virtual ord ts name q q' F s rest :
    (forall l x, In x (ord l) -> In x l) -> NoDup ts ->
    plain_from q F -> incl ts F -> ~ In name F -> (forall c, In c (q_cols q) -> c_tab c <> Some name) ->
    (forall p, q_where q = Some p -> wfp p = true /\ unmixed p) ->
    move virtual ord ts name q = Ok q' -> q_from q' = rest ++ [IWrap (ISub s name)] ->
    (forall p c t, s_where s = Some p -> In c (pcols xcols p) -> c_tab c = Some t -> In t ts) ->
    (forall p p' y d, s_where s = Some p -> q_where q = Some p' -> In y (conjuncts p) -> In d (conjuncts p') -> y = d \/ ~ within y d) ->
    Permutation (result I db q') (result I db q).
  Proof.
    intros Hord Nts [HF NF] Hin Hname Hncol Hwf Hmove Hfrom Hclosed Hguard.
    unfold move in Hmove. rewrite HF in Hmove. destruct (map IDirect F) as [|i0 l0] eqn:EF; [discriminate|]. rewrite <- EF in *.
    destruct (existsb _ (q_tables q)); [discriminate|]. destruct (existsb _ (q_tables q)); [discriminate|].
    destruct (length ts <? 2) eqn:Hl; [discriminate|]. apply Nat.ltb_ge in Hl.
    rewrite (q_pred_plain q F HF) in Hmove.
    destruct (sub_preds ord ts (q_where q)) as [sp|] eqn:Hsp; cbn [rbind] in Hmove; [|discriminate].
    set (cols := filter _ _) in Hmove. destruct (length (dedup (map c_name cols)) <? length cols) eqn:Hu; [discriminate|]. apply Nat.ltb_ge in Hu.
    destruct cols as [|c0 cs0] eqn:Ecols; [discriminate|]. rewrite <- Ecols in *.
    assert (Uniq : NoDup (map c_name cols)) by (apply NoDup_len_dedup; rewrite map_length; exact Hu).
    injection Hmove as <-. cbn [q_from] in Hfrom.
    assert (Es : IWrap (ISub (mksub cols ts (and_opt sp)) name) = IWrap (ISub s name)) by (apply app_inj_tail in Hfrom as [_ H]; exact H).
    injection Es as Es. subst s. cbn [s_where] in *. clear Hfrom rest.
    (* the conditions *)
    assert (Hsub : forall d, In d (oconj (and_opt sp)) -> In d (oconj (q_where q))).
    { intros d Hd. rewrite and_opt_conj in Hd. apply in_flat_map in Hd as (x & Hx & Hd). destruct (q_where q) as [p|] eqn:Ew.
      - destruct (Hwf p eq_refl) as [_ U]. exact (sub_preds_conj ord ts p sp Hord U Hsp x d Hx Hd).
      - cbn in Hsp. injection Hsp as <-. destruct Hx. }
    assert (Hne : forall p x, q_where q = Some p -> In x sp -> conjuncts x <> []).
    { intros p x Ew Hx. rewrite Ew in Hsp. cbn [sub_preds] in Hsp. destruct (query_predicates _ _ _) as [m|] eqn:M; cbn [rbind] in Hsp; [|discriminate]. injection Hsp as <-. destruct (Hwf p Ew) as [W U].
      apply in_app_iff in Hx as [Hx|Hx].
      - apply in_flat_map in Hx as (t & _ & Hx). apply In_olist in Hx. pose proof (and_opt_conj (filters_for xcols (ord (collect_filters xcols p)) t)) as E. rewrite Hx in E. cbn [oconj] in E. rewrite E.
        destruct (filters_for xcols (ord (collect_filters xcols p)) t) as [|f l] eqn:Ef; [discriminate Hx|]. assert (Hf : In f (filters_for xcols (ord (collect_filters xcols p)) t)) by (rewrite Ef; left; reflexivity).
        unfold filters_for in Hf. apply filter_In in Hf as [Hf _]. apply Hord in Hf. destruct (collect_filters_conj p U f Hf) as [_ B]. cbn. rewrite B. discriminate.
      - apply In_olist in Hx. pose proof (and_opt_conj (ord (map_joins_between m ts ts))) as E. rewrite Hx in E. cbn [oconj] in E. rewrite E.
        destruct (ord (map_joins_between m ts ts)) as [|j l] eqn:Ej; [discriminate Hx|]. assert (Hj : In j (map_joins_between m ts ts)) by (apply Hord; rewrite Ej; left; reflexivity).
        cbn. intros X. apply app_eq_nil in X as [X _]. revert X.
        unfold map_joins_between in Hj. apply in_flat_map in Hj as (a & _ & Hj). apply in_flat_map in Hj as (b & _ & Hj).
        destruct (dget m _) as [j'|] eqn:Eg; [|destruct Hj]. destruct Hj as [->|[]].
        refine (init_map_ne _ _ _ [] m M _ _ _ Eg); [|intros k j0 X; discriminate X]. intros i Hi. apply Hord in Hi. destruct (collect_joins_conj p U i Hi) as [_ B]. rewrite B. discriminate. }
    assert (Hg : forall x, In x sp -> forall p, q_where q = Some p -> guarded x p).
    { intros x Hx p Ew d Hd. destruct (conjuncts x) as [|y r] eqn:Ex; [destruct (Hne p x Ew Hx Ex)|].
      assert (Hy : In y (conjuncts x)) by (rewrite Ex; left; reflexivity).
      assert (Hys : In y (oconj (and_opt sp))) by (rewrite and_opt_conj; apply in_flat_map; eauto).
      destruct (and_opt sp) as [ps|] eqn:Ep; [|destruct Hys]. destruct (Hguard ps p y d eq_refl Ew Hys Hd) as [->|N].
      - destruct (eqd d x) as [->|Nx]; [left; reflexivity|]. right. intros W. apply Nx. apply within_antisym; [apply conjunct_within; exact Hy|exact W].
      - right. intros W. apply N. eapply within_trans; [apply conjunct_within; exact Hy|exact W]. }
    assert (Wf : match q_where q with Some p => wfp p = true | None => True end) by (destruct (q_where q) as [p|]; [apply (Hwf p eq_refl)|exact Logic.I]).
    destruct (remove_all_conj sp (q_where q) Wf Hg) as [R1 R2].
    set (O := filter (fun t => negb (mem t ts)) F).
    assert (Hdisj : forall t, In t O -> ~ In t ts). { intros t Ht. unfold O in Ht. apply filter_In in Ht as [_ Ht]. apply negb_true_iff in Ht. apply mem_nIn. exact Ht. }
    assert (HnO : ~ In name O). { intros X. unfold O in X. apply filter_In in X as [X _]. auto. }
    assert (PF : Permutation F (O ++ ts)).
    { apply NoDup_Permutation; [exact NF| |].
      - apply Collections_proofs.NoDup_app_intro; [apply NoDup_filter; exact NF|exact Nts|]. intros t H1 H2. exact (Hdisj t H1 H2).
      - intros t. rewrite in_app_iff. unfold O. rewrite filter_In. split.
        + intros Ht. destruct (mem t ts) eqn:M; [right; apply mem_In; exact M|left; auto].
        + intros [[Ht _]|Ht]; auto. }
    rewrite !result_flat. cbn [q_from]. rewrite HF, filter_outside by assumption. fold O.
    rewrite from_rows_app, from_rows_wrap, !from_rows_direct, from_rows_one. cbn [rows_of s_where s_from s_cols].
    transitivity (flat_map (emit q) (combos db (O ++ ts))).
    - rewrite combos_app, !flat_cross.
      match goal with |- Permutation ?A ?B => assert (E : A = B); [|rewrite E; reflexivity] end.
      apply flat_map_ext_in. intros a Ha. apply combos_keys in Ha.
      set (C := combos db ts). assert (HC : forall k, In k C -> map fst k = ts) by (intros k Hk; exact (combos_keys db ts k Hk)). revert HC. generalize C. clear C. intros C HC.
      induction C as [|k C IHC]; [reflexivity|]. cbn [filter flat_map map].
      rewrite (emit_sub q ts O name sp Uniq Hdisj HnO Hncol) with (a := a) (s := k); auto.
      + fold cols. unfold env in *. destruct (keeps I (val I k) (and_opt sp)); cbn [map flat_map].
        * f_equal. apply IHC. intros z Hz. apply HC. right. exact Hz.
        * apply IHC. intros z Hz. apply HC. right. exact Hz.
      + intros c t Hc Et. unfold ocols in Hc. destruct (and_opt sp) as [p|] eqn:Ep; [|destruct Hc]. cbn in Hc. rewrite app_nil_r in Hc. exact (Hclosed p c t eq_refl Hc Et).
      + apply HC. left. reflexivity.
    - symmetry. pose proof (combos_perm db (emit q) F (O ++ ts) PF (emit_perm q) [] NF) as P. cbn [app] in P.
      rewrite !flat_map_concat_map. rewrite <- (flat_map_concat_map), <- flat_map_concat_map.
      assert (X : forall l, flat_map (emit q) l = flat_map (fun x => x) (map (emit q) l)) by (intros l; rewrite !flat_map_concat_map, map_map; reflexivity).
      rewrite !X. apply Permutation_flat_map. exact P.
  Qed.
End Top.
