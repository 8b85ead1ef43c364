(** Properties C220-C225: fragments of queries. *)
From Coq Require Import List Bool Arith Lia Permutation.
From Verif Require Import PyBase Src_model Src_spec Frag_model Frag_spec.
Import ListNotations.

Section Props.
  Context (kor knot kcount : nat) (ord : list (option tref) -> list (option tref)).
  Context (Hord : forall l, NoDup (ord l) /\ forall t, In t (ord l) <-> In t l).
  Notation extract := (extract kor knot kcount ord).
  Notation frag_e := (frag_e kor knot).

  Lemma flat_In {A B} (f : A -> list B) l y : In y (flat f l) <-> exists x, In x l /\ In y (f x).
  Proof. induction l as [|x l IH]; cbn; [split; [contradiction|now intros (x & [] & _)]|]. rewrite in_app_iff, IH. split; [intros [H|(z & Hz & H)]; eauto|intros (z & [<-|Hz] & H); eauto]. Qed.
  Lemma flat_fst_In {A B C} (f : A -> list B) (l : list (A * C)) y : In y (flat_fst f l) <-> exists x n, In (x, n) l /\ In y (f x).
  Proof. induction l as [|[x n] l IH]; cbn; [split; [contradiction|now intros (x & n & [] & _)]|]. rewrite in_app_iff, IH. split; [intros [H|(z & m & Hz & H)]; eauto 6|intros (z & m & [E|Hz] & Hy); [injection E as -> ->; now left|right; eauto]]. Qed.
  Lemma inside_only ref l : inside ref l = true <-> only ref l.
  Proof.
    unfold inside, only. rewrite forallb_forall. unfold wanted. split.
    - intros H t Ht. specialize (H t Ht). destruct t as [t|]; [|discriminate]. apply mem_In in H. eauto.
    - intros H t Ht. destruct (H t Ht) as (x & -> & Hx). now apply mem_In.
  Qed.
  Lemma covers_all ref l : covers ref l = true <-> forall t, In t ref -> In (Some t) l.
  Proof. unfold covers. rewrite forallb_forall. split; intros H t Ht; specialize (H t Ht); now apply mem_In. Qed.
  Lemma covers_not ref l : covers ref l = false -> exists t, In t ref /\ ~ In (Some t) l.
  Proof.
    unfold covers. induction ref as [|t ref IH]; [discriminate|]. cbn. destruct (mem (Some t) l) eqn:E.
    - intros H. destruct (IH H) as (x & Hx & Hn). eauto.
    - intros _. exists t. split; [now left|]. now apply mem_nIn.
  Qed.
  (** The nested list of children *)
  Fixpoint kids_of (ref : list tref) (l : list expr) : res (list expr) :=
    match l with [] => Ok [] | c :: r => rbind (frag_e ref c) (fun x => rbind (kids_of ref r) (fun ys => Ok (match x with Some q => q :: ys | None => ys end))) end.
  Definition wrap (mk : list expr -> expr) (cs : list expr) : option expr := match cs with [] => None | [c] => Some c | _ => Some (mk cs) end.
  Lemma frag_and ref ps : frag_e ref (EAnd ps) = rmap (wrap EAnd) (kids_of ref ps).
  Proof. cbn [Frag_model.frag_e]. unfold rmap, wrap. f_equal. induction ps as [|p ps IH]; [reflexivity|]. cbn [kids_of]. now rewrite IH. Qed.
  Lemma frag_node ref k a ps : frag_e ref (ENode k a ps) = if Nat.eqb k knot then Raise TypeError else if Nat.eqb k kor then rmap (wrap (ENode k a)) (kids_of ref ps) else Ok (if inside ref (tables_e (ENode k a ps)) then Some (ENode k a ps) else None).
  Proof. cbn [Frag_model.frag_e]. destruct (Nat.eqb k knot); [reflexivity|]. destruct (Nat.eqb k kor); [|reflexivity]. unfold rmap, wrap. f_equal. induction ps as [|p ps IH]; [reflexivity|]. cbn [kids_of]. now rewrite IH. Qed.
  Definition expr_ind' (P : expr -> Prop) (H1 : P EVal) (H2 : P EStar) (H3 : forall c, P (ECol c)) (H4 : forall ps, Forall P ps -> P (EAnd ps)) (H5 : forall k a args, Forall P args -> P (ENode k a args)) (H6 : forall q, P (ESub q)) : forall e, P e :=
    fix go e := let gol := fix gol l := match l return Forall P l with [] => Forall_nil _ | x :: r => Forall_cons _ (go x) (gol r) end in
      match e with EVal => H1 | EStar => H2 | ECol c => H3 c | EAnd ps => H4 ps (gol ps) | ENode k a args => H5 k a args (gol args) | ESub q => H6 q end.
  Lemma kids_only ref ps cs : Forall (fun e => forall e', frag_e ref e = Ok (Some e') -> only ref (tables_e e')) ps -> kids_of ref ps = Ok cs -> forall c, In c cs -> only ref (tables_e c).
  Proof.
    intros H. revert cs. induction H as [|p ps Hp Hps IH]; intros cs; cbn [kids_of]; [intros [= <-]; contradiction|].
    destruct (frag_e ref p) as [x|] eqn:E; [|discriminate]. cbn [rbind]. destruct (kids_of ref ps) as [ys|]; [|discriminate]. cbn [rbind]. intros [= <-] c Hc.
    destruct x as [q|]; [destruct Hc as [<-|Hc]|]; eauto.
  Qed.
  Lemma wrap_only ref mk cs e : (forall l, tables_e (mk l) = flat tables_e l) -> (forall c, In c cs -> only ref (tables_e c)) -> wrap mk cs = Some e -> only ref (tables_e e).
  Proof.
    intros Hmk H. destruct cs as [|c [|c' cs]]; cbn; [discriminate|intros [= <-]; apply H; now left|]. intros [= <-]. rewrite Hmk. intros t Ht. apply flat_In in Ht as (x & Hx & Ht). now apply (H x Hx).
  Qed.
  Lemma frag_only ref e : forall e', frag_e ref e = Ok (Some e') -> only ref (tables_e e').
  Proof.
    assert (Hb : forall e e', Ok (if inside ref (tables_e e) then Some e else None) = Ok (Some e') -> only ref (tables_e e')).
    { intros b b'. destruct (inside ref (tables_e b)) eqn:E; [|discriminate]. intros [= <-]. now apply inside_only. }
    induction e as [| |c|ps IH|k a args IH|q] using expr_ind'; intros e'; try (apply Hb).
    - rewrite frag_and. destruct (kids_of ref ps) as [cs|] eqn:E; [|discriminate]. cbn. intros [= H]. eapply (wrap_only ref EAnd); [reflexivity| |exact H]. eapply kids_only; [exact IH|exact E].
    - rewrite frag_node. destruct (Nat.eqb k knot); [discriminate|]. destruct (Nat.eqb k kor); [|apply Hb]. destruct (kids_of ref args) as [cs|] eqn:E; [|discriminate]. cbn. intros [= H]. eapply (wrap_only ref (ENode k a)); [reflexivity| |exact H]. eapply kids_only; [exact IH|exact E].
  Qed.
  Lemma frag_opt_only ref o e : frag_opt kor knot ref o = Ok (Some e) -> only ref (tables_e e).
  Proof. destruct o as [x|]; [|discriminate]. cbn. apply frag_only. Qed.
  Lemma from_flat ref q l : flat (fun t => match t with Some t => if mem t ref then [SDirect t] else [] | None => [] end) (ord (tables_q q)) = l -> forall s, In s l <-> exists t, s = SDirect t /\ In t ref /\ In (Some t) (tables_q q).
  Proof.
    intros <- s. rewrite flat_In. split.
    - intros (t & Ht & Hs). apply (proj1 (proj2 (Hord _) t)) in Ht. destruct t as [t|]; [|contradiction]. destruct (mem t ref) eqn:E; [|contradiction]. destruct Hs as [<-|[]]. exists t. apply mem_In in E. auto.
    - intros (t & -> & Hr & Ht). exists (Some t). split; [now apply (proj2 (Hord _))|]. replace (mem t ref) with true by (symmetry; now apply mem_In). now left.
  Qed.
  Lemma extract_sel ref p ctes targets di from wh gr hv od q' : extract ref p (QSel ctes targets di from wh gr hv od) = Ok (Some q') ->
    exists ta di' from' wh' hv', q' = QSel (frag_ctes ref ctes) ta di' from' wh' (frag_list ref gr) hv' (frag_list ref od) /\
      (forall t, In t ref -> In (Some t) (tables_q (QSel ctes targets di from wh gr hv od))) /\ frag_select kcount ref p targets di = Ok (ta, di') /\
      frag_from ord ref (QSel ctes targets di from wh gr hv od) from = Ok from' /\ frag_opt kor knot ref wh = Ok wh' /\ frag_opt kor knot ref hv = Ok hv'.
  Proof.
    cbn [Frag_model.extract]. set (q := QSel ctes targets di from wh gr hv od) in *. intros H. assert (H' : (if covers ref (tables_q q)
            then rbind (frag_select kcount ref p targets di) (fun sel =>
                 rbind (frag_from ord ref q from) (fun from' =>
                 rbind (frag_opt kor knot ref wh) (fun wh' =>
                 rbind (frag_opt kor knot ref hv) (fun hv' =>
                 Ok (Some (QSel (frag_ctes ref ctes) (fst sel) (snd sel) from' wh' (frag_list ref gr) hv' (frag_list ref od)))))))
            else Ok None) = Ok (Some q')) by (destruct from as [[[] l]|]; [exact H|discriminate|exact H]). clear H.
    destruct (covers ref (tables_q q)) eqn:Ec; [|discriminate]. destruct (frag_select kcount ref p targets di) as [[ta di']|]; [|discriminate]. cbn [rbind fst snd] in H'.
    destruct (frag_from ord ref q from) as [from'|]; [|discriminate]. cbn [rbind] in H'. destruct (frag_opt kor knot ref wh) as [wh'|]; [|discriminate]. cbn [rbind] in H'. destruct (frag_opt kor knot ref hv) as [hv'|]; [|discriminate]. cbn [rbind] in H'.
    injection H' as <-. exists ta, di', from', wh', hv'. repeat (split; [reflexivity|]). split; [now apply covers_all|]. auto.
  Qed.

  (** ** C220: the tables of a fragment *)
  (** There is no fragment iff a wanted table is not in the query. *)
  Theorem C220_none ref p q : implicit q -> (extract ref p q = Ok None <-> exists t, In t ref /\ ~ In (Some t) (tables_q q)).
  Proof.
    intros Hi. assert (Hc : (exists t, In t ref /\ ~ In (Some t) (tables_q q)) <-> covers ref (tables_q q) = false).
    { split; [|apply covers_not]. intros (t & Ht & Hn). destruct (covers ref (tables_q q)) eqn:E; [|reflexivity]. exfalso. apply Hn. now apply (proj1 (covers_all _ _) E). }
    rewrite Hc. destruct q as [ctes targets di from wh gr hv od|op l r ctes od].
    - set (q := QSel ctes targets di from wh gr hv od) in *. transitivity ((if covers ref (tables_q q)
            then rbind (frag_select kcount ref p targets di) (fun sel =>
                 rbind (frag_from ord ref q from) (fun from' =>
                 rbind (frag_opt kor knot ref wh) (fun wh' =>
                 rbind (frag_opt kor knot ref hv) (fun hv' =>
                 Ok (Some (QSel (frag_ctes ref ctes) (fst sel) (snd sel) from' wh' (frag_list ref gr) hv' (frag_list ref od)))))))
            else Ok None) = Ok None); [cbn [Frag_model.extract]; destruct from as [[[] l]|]; [reflexivity|contradiction|reflexivity]|].
      destruct (covers ref (tables_q q)); [|tauto]. split; [|discriminate]. intros H. repeat (match type of H with rbind ?x _ = _ => destruct x; [|discriminate]; cbn [rbind] in H end). discriminate.
    - cbn [Frag_model.extract]. destruct (covers ref (tables_q (QSet op l r ctes od))); [|tauto]. split; [|discriminate]. intros H. destruct (extract ref PKeep l) as [[?|]|]; [| |discriminate]; cbn [rbind] in H; destruct (extract ref PKeep r) as [[?|]|]; discriminate.
  Qed.
  (** The tables of a fragment are the wanted ones and those of the CTEs that belong to wanted tables. *)
  Lemma tables_from ref p ctes targets di k0 l0 wh gr hv od q' : let q := QSel ctes targets di (Some (k0, l0)) wh gr hv od in
    extract ref p q = Ok (Some q') -> (p = PKeep -> plain_targets q) ->
    forall t, In t (tables_q q') <-> (exists x, t = Some x /\ In x ref) \/ exists w, In w ctes /\ In (TVirt (target_of w)) ref /\ In t (tables_w w).
  Proof.
    cbn zeta. intros H Hp t. destruct (extract_sel _ _ _ _ _ _ _ _ _ _ _ H) as (ta & di' & from' & wh' & hv' & -> & Hc & Es & Ef & Ew & Eh).
    assert (Hta : only ref (flat_fst tables_e ta)).
    { intros u Hu. apply flat_fst_In in Hu as (e & n & He & Hu). destruct p; cbn in Es; try discriminate.
      - assert (Hx : In (e, n) (filter (keeps_target ref) targets) \/ In (e, n) star) by (destruct (filter (keeps_target ref) targets); injection Es as <- _; auto).
        destruct Hx as [Hx|[[= <- <-]|[]]]; [|contradiction]. apply filter_In in Hx as [Hx Hk]. unfold keeps_target in Hk. apply orb_true_iff in Hk as [Hk|Hk]; cbn [fst] in Hk.
        + apply andb_true_iff in Hk as [Hk _]. now apply (proj1 (inside_only _ _) Hk).
        + destruct (columns_e e) eqn:E; [|discriminate]. rewrite (Hp eq_refl e n Hx E) in Hu. contradiction.
      - injection Es as <- _. destruct He as [[= <- <-]|[]]. contradiction.
      - injection Es as <- _. destruct He as [[= <- <-]|[]]. contradiction. }
    assert (Hlist : forall l, only ref (flat tables_e (frag_list ref l))).
    { intros l u Hu. apply flat_In in Hu as (e & He & Hu). apply filter_In in He as [_ He]. now apply (proj1 (inside_only _ _) He). }
    assert (Hopt : forall o o', frag_opt kor knot ref o = Ok o' -> only ref (flat_opt tables_e o')).
    { intros o [e|] E u Hu; [|contradiction]. now apply (frag_opt_only ref o e E). }
    unfold frag_from in Ef. set (l := flat _ _) in Ef. assert (Hl := from_flat ref _ l eq_refl). assert (Ef' : from' = Some (FImplicit, l)) by (destruct l; [discriminate|]; now injection Ef as <-). subst from'.
    assert (Hfrom : forall u, In u (flat tables_s l) <-> exists x, u = Some x /\ In x ref).
    { intros u. rewrite flat_In. split.
      - intros (s & Hs & Hu). apply Hl in Hs as (x & -> & Hx & _). destruct Hu as [<-|[]]. eauto.
      - intros (x & -> & Hx). exists (SDirect x). split; [|now left]. apply Hl. exists x. split; [reflexivity|]. split; [assumption|]. now apply Hc. }
    cbn [tables_q flat_from]. rewrite !in_app_iff. split.
    - intros [Hw|[Ht|[Hf|[Hw|[Hg|[Hh|Ho]]]]]].
      + right. apply flat_In in Hw as (w & Hw & Ht). apply filter_In in Hw as [Hw Hr]. apply mem_In in Hr. eauto.
      + left. now apply Hta.
      + left. now apply Hfrom.
      + left. now apply (Hopt _ _ Ew).
      + left. now apply (Hlist gr).
      + left. now apply (Hopt _ _ Eh).
      + left. now apply (Hlist od).
    - intros [Hx|(w & Hw & Hr & Ht)].
      + right. right. left. now apply Hfrom.
      + left. apply flat_In. exists w. split; [|assumption]. apply filter_In. split; [assumption|]. now apply mem_In.
  Qed.
  Theorem C220_tables_partial ref p ctes targets di k0 l0 wh gr hv od q' : let q := QSel ctes targets di (Some (k0, l0)) wh gr hv od in
    extract ref p q = Ok (Some q') -> plain_targets q ->
    forall t, In t (tables_q q') <-> (exists x, t = Some x /\ In x ref) \/ exists w, In w ctes /\ In (TVirt (target_of w)) ref /\ In t (tables_w w).
  Proof. cbn zeta. intros H Hp. eapply tables_from; [exact H|auto]. Qed.
  Theorem C220_projected ref p ctes targets di k0 l0 wh gr hv od q' : p <> PKeep -> extract ref p (QSel ctes targets di (Some (k0, l0)) wh gr hv od) = Ok (Some q') ->
    forall t, In t (tables_q q') <-> (exists x, t = Some x /\ In x ref) \/ exists w, In w ctes /\ In (TVirt (target_of w)) ref /\ In t (tables_w w).
  Proof. intros Hp H. eapply tables_from; [exact H|contradiction]. Qed.

  (** ** C221: the clauses.  GROUP BY and ORDER BY keep exactly the expressions with wanted tables, in order; CTEs are kept iff their table is wanted. *)
  Theorem C221_lists ref p ctes targets di from wh gr hv od q' : extract ref p (QSel ctes targets di from wh gr hv od) = Ok (Some q') ->
    exists ctes' ta di' from' wh' gr' hv' od', q' = QSel ctes' ta di' from' wh' gr' hv' od' /\
      (exists f, gr' = filter f gr /\ forall e, In e gr -> (f e = true <-> only ref (tables_e e))) /\
      (exists f, od' = filter f od /\ forall e, In e od -> (f e = true <-> only ref (tables_e e))) /\
      (forall w, In w ctes' <-> In w ctes /\ In (TVirt (target_of w)) ref) /\
      (wh = None -> wh' = None) /\ (hv = None -> hv' = None) /\ (from = None <-> from' = None).
  Proof.
    intros H. destruct (extract_sel _ _ _ _ _ _ _ _ _ _ _ H) as (ta & di' & from' & wh' & hv' & -> & Hc & Es & Ef & Ew & Eh). do 8 eexists. split; [reflexivity|].
    split; [eexists; split; [reflexivity|]; intros e _; apply inside_only|]. split; [eexists; split; [reflexivity|]; intros e _; apply inside_only|].
    split; [intros w; unfold frag_ctes; rewrite filter_In; now rewrite mem_In|]. split; [intros ->; injection Ew as <-; reflexivity|]. split; [intros ->; injection Eh as <-; reflexivity|].
    destruct from; cbn in Ef; [|injection Ef as <-; tauto]. destruct (flat _ _); [discriminate|]. injection Ef as <-. split; discriminate.
  Qed.
  (** WHERE and HAVING keep each conjunct with wanted tables. *)
  Lemma conjunct_kept ref e e' c : frag_e ref e = Ok e' -> conjunct e c -> (forall a ps, c <> ENode kor a ps) -> only ref (tables_e c) -> exists x, e' = Some x /\ conjunct x c.
  Proof.
    intros E H Hc Ho. revert e' E. induction H as [e Hn|ps p e Hp H IH]; intros e' E.
    - assert (Hb : forall x, x = e -> Ok (if inside ref (tables_e x) then Some x else None) = Ok e' -> exists x, e' = Some x /\ conjunct x e).
      { intros x -> Hx. replace (inside ref (tables_e e)) with true in Hx by (symmetry; now apply inside_only). injection Hx as <-. exists e. split; [reflexivity|]. now constructor. }
      destruct e as [| |c|ps|k a args|q]; try (now apply (Hb _ eq_refl)).
      + exfalso. now apply (Hn ps).
      + rewrite frag_node in E. destruct (Nat.eqb k knot); [discriminate|]. destruct (Nat.eqb k kor) eqn:Ek; [|now apply (Hb _ eq_refl)]. apply Nat.eqb_eq in Ek. subst k. exfalso. now apply (Hc a args).
    - rewrite frag_and in E. destruct (kids_of ref ps) as [cs|] eqn:Ek; [|discriminate]. cbn in E. injection E as <-.
      assert (Hk : exists x, In x cs /\ conjunct x e).
      { clear H. revert cs Ek. induction ps as [|p' ps IHp]; intros cs Ek; [contradiction|]. cbn [kids_of] in Ek. destruct (frag_e ref p') as [x|] eqn:Ep; [|discriminate]. cbn [rbind] in Ek. destruct (kids_of ref ps) as [ys|] eqn:Ey; [|discriminate]. cbn [rbind] in Ek. injection Ek as <-.
        destruct Hp as [->|Hp].
        - destruct (IH Hc Ho x Ep) as (y & -> & Hy). exists y. split; [now left|assumption].
        - destruct (IHp Hp ys eq_refl) as (y & Hy & Hcj). exists y. split; [destruct x; [now right|assumption]|assumption]. }
      destruct Hk as (x & Hx & Hcj). destruct cs as [|c0 [|c1 cs]]; [contradiction| |].
      + destruct Hx as [<-|[]]. exists c0. split; [reflexivity|assumption].
      + exists (EAnd (c0 :: c1 :: cs)). split; [reflexivity|]. econstructor; [exact Hx|exact Hcj].
  Qed.
  Theorem C221_conjuncts ref p ctes targets di from w gr hv od q' c : extract ref p (QSel ctes targets di from (Some w) gr hv od) = Ok (Some q') ->
    conjunct w c -> (forall a ps, c <> ENode kor a ps) -> only ref (tables_e c) ->
    exists ctes' ta di' from' w' gr' hv' od', q' = QSel ctes' ta di' from' (Some w') gr' hv' od' /\ conjunct w' c.
  Proof.
    intros H Hc Hn Ho. destruct (extract_sel _ _ _ _ _ _ _ _ _ _ _ H) as (ta & di' & from' & wh' & hv' & -> & _ & _ & _ & Ew & _). cbn in Ew. destruct (conjunct_kept ref w wh' c Ew Hc Hn Ho) as (x & -> & Hx). do 8 eexists. split; [reflexivity|exact Hx].
  Qed.
  (** A single wanted table: SELECT keeps exactly the targets of the table, if there are any. *)
  Theorem C221_select_partial t ctes targets di from wh gr hv od q' : extract [t] PKeep (QSel ctes targets di from wh gr hv od) = Ok (Some q') ->
    (forall e n, In (e, n) targets -> (columns_e e = [] <-> tables_e e = [])) -> (exists e n, In (e, n) targets /\ only [t] (tables_e e)) ->
    exists ctes' ta di' from' wh' gr' hv' od', q' = QSel ctes' ta di' from' wh' gr' hv' od' /\
      exists f, ta = filter f targets /\ forall e n, In (e, n) targets -> (f (e, n) = true <-> only [t] (tables_e e)).
  Proof.
    intros H Hp (e0 & n0 & H0 & Ho). destruct (extract_sel _ _ _ _ _ _ _ _ _ _ _ H) as (ta & di' & from' & wh' & hv' & -> & _ & Es & _). do 8 eexists. split; [reflexivity|].
    assert (Hk : forall e n, In (e, n) targets -> (keeps_target [t] (e, n) = true <-> only [t] (tables_e e))).
    { intros e n He. unfold keeps_target. cbn [fst]. rewrite orb_true_iff, andb_true_iff. split.
      - intros [[Hi _]|Hc]; [now apply inside_only|]. destruct (columns_e e) eqn:E; [|discriminate]. rewrite (proj1 (Hp e n He) E). intros u [].
      - intros Hon. destruct (tables_e e) as [|u l] eqn:E; [right; rewrite (proj2 (Hp e n He) E); reflexivity|]. left. split; [now apply inside_only|]. apply covers_all. intros x [<-|[]].
        destruct (Hon u (or_introl eq_refl)) as (y & -> & [<-|[]]). now left. }
    exists (keeps_target [t]). split; [|exact Hk]. cbn in Es. assert (Hne : In (e0, n0) (filter (keeps_target [t]) targets)) by (apply filter_In; split; [assumption|]; now apply Hk).
    destruct (filter (keeps_target [t]) targets); [contradiction|]. now injection Es as <- _.
  Qed.

  (** ** C222: FROM *)
  Theorem C222_from_partial ref p ctes targets di k0 l0 wh gr hv od q' : let q := QSel ctes targets di (Some (k0, l0)) wh gr hv od in
    extract ref p q = Ok (Some q') -> (forall t, In (Some t) (tables_q q) -> In (SDirect t) l0) ->
    NoDup (from_items q') /\ (forall s, In s (from_items q') <-> exists t, s = SDirect t /\ In t ref) /\ incl (from_items q') (from_items q).
  Proof.
    cbn zeta. intros H Hf. destruct (extract_sel _ _ _ _ _ _ _ _ _ _ _ H) as (ta & di' & from' & wh' & hv' & -> & Hc & _ & Ef & _).
    unfold frag_from in Ef. set (l := flat _ _) in Ef. assert (Hl := from_flat ref _ l eq_refl). assert (Ef' : from' = Some (FImplicit, l)) by (destruct l; [discriminate|]; now injection Ef as <-). subst from'. cbn [from_items]. split; [|split].
    - unfold l. destruct (Hord (tables_q (QSel ctes targets di (Some (k0, l0)) wh gr hv od))) as [N _]. revert N. generalize (ord (tables_q (QSel ctes targets di (Some (k0, l0)) wh gr hv od))). clear. induction l as [|t l IH]; [constructor|]. intros N. apply NoDup_cons_iff in N as [N1 N2]. cbn. specialize (IH N2).
      destruct t as [t|]; [|exact IH]. destruct (mem t ref); [|exact IH]. cbn. constructor; [|exact IH]. rewrite flat_In. intros ([u|] & Hu & Hs); [|contradiction]. destruct (mem u ref); [|contradiction]. destruct Hs as [[= ->]|[]]. contradiction.
    - intros s. rewrite (Hl s). split; [intros (t & -> & Ht & _); eauto|intros (t & -> & Ht); eauto].
    - intros s Hs. apply Hl in Hs as (t & -> & _ & Ht). auto.
  Qed.

  (** ** C223: set queries *)
  Theorem C223_sets_partial ref op l r ctes od p : (forall t, In t ref -> In (Some t) (tables_q l)) -> (forall t, In t ref -> In (Some t) (tables_q r)) ->
    forall l' r', extract ref PKeep l = Ok l' -> extract ref PKeep r = Ok r' -> implicit l -> implicit r ->
    exists x y ctes' od', l' = Some x /\ r' = Some y /\ extract ref p (QSet op l r ctes od) = Ok (Some (QSet op x y ctes' od')) /\
      (forall w, In w ctes' <-> In w ctes /\ In (TVirt (target_of w)) ref) /\ (forall e, In e od' <-> In e od /\ only ref (tables_e e)).
  Proof.
    intros Hl Hr l' r' El Er Il Ir. cbn [Frag_model.extract]. replace (covers ref (tables_q (QSet op l r ctes od))) with true by (symmetry; apply covers_all; intros t Ht; cbn; apply in_app_iff; auto).
    assert (Hsome : forall q q', extract ref PKeep q = Ok q' -> implicit q -> (forall t, In t ref -> In (Some t) (tables_q q)) -> exists x, q' = Some x).
    { intros q [x|] E I Hc; [eauto|]. apply C220_none in E; [|assumption]. destruct E as (t & Ht & Hn). exfalso. auto. }
    destruct (Hsome l l' El Il Hl) as (x & ->). destruct (Hsome r r' Er Ir Hr) as (y & ->). exists x, y. do 2 eexists. split; [reflexivity|]. split; [reflexivity|]. rewrite El, Er. cbn [rbind]. split; [reflexivity|]. split.
    - intros w. unfold frag_ctes. rewrite filter_In. now rewrite mem_In.
    - intros e. unfold frag_list. rewrite filter_In. now rewrite inside_only.
  Qed.

  (** ** C224: CTEs.  A fragment of a self-contained query is self-contained, if its CTEs read no other CTE. *)
  Theorem C224_ctes_partial ref p ctes targets di k0 l0 wh gr hv od q' : let q := QSel ctes targets di (Some (k0, l0)) wh gr hv od in
    extract ref p q = Ok (Some q') -> plain_targets q -> (forall w a, In w ctes -> ~ In (Some (TVirt a)) (tables_w w)) -> self_contained q -> self_contained q'.
  Proof.
    cbn zeta. intros H Hp Hw Hs a Ha. apply (C220_tables_partial _ _ _ _ _ _ _ _ _ _ _ _ H Hp) in Ha. destruct Ha as [(x & [= <-] & Hx)|(w & Hi & _ & Ht)]; [|exfalso; now apply (Hw w a)].
    destruct (extract_sel _ _ _ _ _ _ _ _ _ _ _ H) as (ta & di' & from' & wh' & hv' & -> & Hc & _). destruct (Hs a (Hc _ Hx)) as (w & Hi & <-). exists w. split; [|reflexivity]. cbn. apply filter_In. split; [assumption|]. now apply mem_In.
  Qed.

  (** ** C225: success *)
  Lemma frag_ok ref e : no_not kor knot e -> exists e', frag_e ref e = Ok e'.
  Proof.
    intros H. assert (Hk : forall ps, (forall p, In p ps -> exists e', frag_e ref p = Ok e') -> exists cs, kids_of ref ps = Ok cs).
    { induction ps as [|p ps IH]; intros Hp; [exists []; reflexivity|]. cbn [kids_of]. destruct (Hp p (or_introl eq_refl)) as (x & ->). destruct IH as (cs & ->); [intros q Hq; apply Hp; now right|]. cbn. eauto. }
    induction H as [ps _ IH|a ps Hn _ IH|k a ps H1 H2|e He].
    - rewrite frag_and. destruct (Hk ps IH) as (cs & ->). cbn. eauto.
    - rewrite frag_node. apply Nat.eqb_neq in Hn. rewrite Hn, Nat.eqb_refl. destruct (Hk ps IH) as (cs & ->). cbn. eauto.
    - rewrite frag_node. apply Nat.eqb_neq in H1. apply Nat.eqb_neq in H2. rewrite H1, H2. eauto.
    - destruct e; try contradiction; cbn; eauto.
  Qed.
  Theorem C225_success_partial ref p ctes targets di from wh gr hv od : ref <> [] -> p <> POther -> implicit (QSel ctes targets di from wh gr hv od) ->
    (forall e, wh = Some e -> no_not kor knot e) -> (forall e, hv = Some e -> no_not kor knot e) -> exists o, extract ref p (QSel ctes targets di from wh gr hv od) = Ok o.
  Proof.
    intros Hr Hp Hi Hw Hh. set (q := QSel ctes targets di from wh gr hv od) in *. assert (H' : extract ref p q = (if covers ref (tables_q q)
            then rbind (frag_select kcount ref p targets di) (fun sel =>
                 rbind (frag_from ord ref q from) (fun from' =>
                 rbind (frag_opt kor knot ref wh) (fun wh' =>
                 rbind (frag_opt kor knot ref hv) (fun hv' =>
                 Ok (Some (QSel (frag_ctes ref ctes) (fst sel) (snd sel) from' wh' (frag_list ref gr) hv' (frag_list ref od)))))))
            else Ok None)) by (unfold q; cbn [Frag_model.extract]; destruct from as [[[] l]|]; [reflexivity|contradiction|reflexivity]). rewrite H'. clear H'.
    destruct (covers ref (tables_q q)) eqn:Ec; [|eauto]. assert (Es : exists sel, frag_select kcount ref p targets di = Ok sel) by (destruct p; cbn; eauto; contradiction). destruct Es as (sel & ->). cbn [rbind].
    assert (Ef : exists f, frag_from ord ref q from = Ok f).
    { unfold frag_from. destruct from as [[k l]|]; [|eauto]. destruct ref as [|t ref]; [contradiction|]. assert (Hl := from_flat (t :: ref) q _ eq_refl (SDirect t)). destruct (flat _ _) as [|s l'].
      - exfalso. destruct (proj2 Hl). exists t. split; [reflexivity|]. split; [now left|]. now apply (proj1 (covers_all _ _) Ec), or_introl.
      - eauto. }
    destruct Ef as (f & ->). cbn [rbind].
    assert (Ew : exists w, frag_opt kor knot ref wh = Ok w) by (destruct wh; cbn; [apply frag_ok; auto|eauto]). destruct Ew as (w & ->). cbn [rbind].
    assert (Eh : exists w, frag_opt kor knot ref hv = Ok w) by (destruct hv; cbn; [apply frag_ok; auto|eauto]). destruct Eh as (w' & ->). cbn. eauto.
  Qed.
End Props.

(** ** Examples and counterexamples *)
Section Examples.
  Definition ord0 : list (option tref) -> list (option tref) := fun l => dedup l.
  Lemma ord0_ok l : NoDup (ord0 l) /\ forall t, In t (ord0 l) <-> In t l.
  Proof. split; [apply dedup_NoDup|]. intros t. apply dedup_In. Qed.
  Notation ex := (extract 1 2 3 ord0).
  Let R := TTab 0 None. Let S := TTab 1 None. Let T := TTab 2 None. Let A := TVirt 7. Let B := TVirt 8.
  Let c t n := ECol (Col (Some t) (NUser n)).
  Let cmp a b := ENode 9 false [a; b].
  Let from l := Some (FImplicit, map SDirect l).
  (** The example of the documentation: SELECT * FROM R, S, T WHERE R.a = S.b AND S.c = T.d AND R.a = 42 ORDER BY S.b *)
  Definition doc : query := QSel [] [(EStar, None)] None (from [R; S; T]) (Some (EAnd [cmp (c R 0) (c S 1); cmp (c S 2) (c T 3); cmp (c R 0) EVal])) [] None [c S 1].
  Example doc_fragment : ex [R; S] PKeep doc = Ok (Some (QSel [] [(EStar, None)] None (from [R; S]) (Some (EAnd [cmp (c R 0) (c S 1); cmp (c R 0) EVal])) [] None [c S 1])) /\
    ex [S] PKeep doc = Ok (Some (QSel [] [(EStar, None)] None (from [S]) None [] None [c S 1])) /\ ex [TTab 5 None] PKeep doc = Ok None.
  Proof. repeat split; vm_compute; reflexivity. Qed.
  Example doc_plain : plain_targets doc /\ (forall t, In (Some t) (tables_q doc) -> In (SDirect t) (from_items doc)) /\ self_contained doc /\ implicit doc.
  Proof.
    repeat split.
    - intros e n [[= <- <-]|[]]. reflexivity.
    - intros t H. cbn in H. cbn. repeat (destruct H as [[= <-]|H]; [tauto|]). contradiction.
    - intros a H. cbn in H. repeat (destruct H as [[=]|H]). contradiction.
  Qed.
  Example select_one : exists q', ex [R] PKeep (QSel [] [(c R 0, None); (c S 1, None); (c R 2, None)] None (from [R; S]) None [] None []) = Ok (Some q') /\ q' = QSel [] [(c R 0, None); (c R 2, None)] None (from [R]) None [] None [].
  Proof. eexists. split; vm_compute; reflexivity. Qed.

  (** C220: a subquery without columns is kept, with all its tables: SELECT R.a, (SELECT COUNT( * ) FROM T) FROM R, S *)
  Theorem C220_refuted : exists q q', implicit q /\ (forall t, In t [R] -> In (Some t) (tables_q q)) /\ ctes_of q = [] /\ ex [R] PKeep q = Ok (Some q') /\ In (Some T) (tables_q q') /\ ~ In T [R].
  Proof.
    exists (QSel [] [(c R 0, None); (ESub (QSel [] [(ENode 3 true [EStar], None)] None (from [T]) None [] None []), None)] None (from [R; S]) None [] None []). eexists.
    split; [exact I|]. split; [intros t [<-|[]]; cbn; tauto|]. split; [reflexivity|]. split; [vm_compute; reflexivity|]. split; [cbn; tauto|]. intros [H|[]]. discriminate.
  Qed.
  (** C221: with two wanted tables, SELECT loses the targets that read only one of them: SELECT R.a, S.b, R.a = S.b FROM R, S, T *)
  Theorem C221_refuted : exists q q', implicit q /\ plain_targets q /\ ex [R; S] PKeep q = Ok (Some q') /\
    exists ctes ta di fr wh gr hv od, q = QSel ctes ta di fr wh gr hv od /\ exists ctes' ta' di' fr' wh' gr' hv' od', q' = QSel ctes' ta' di' fr' wh' gr' hv' od' /\
    In (c R 0, None) ta /\ only [R; S] (tables_e (c R 0)) /\ ~ In (c R 0, None) ta'.
  Proof.
    exists (QSel [] [(c R 0, None); (c S 1, None); (cmp (c R 0) (c S 1), None)] None (from [R; S; T]) None [] None []). eexists.
    split; [exact I|]. split; [intros e n [[= <- <-]|[[= <- <-]|[[= <- <-]|[]]]]; discriminate|]. split; [vm_compute; reflexivity|]. do 8 eexists. split; [reflexivity|]. do 8 eexists. split; [reflexivity|].
    split; [now left|]. split; [intros t [<-|[]]; exists R; cbn; tauto|]. intros [[=]|[]].
  Qed.
  (** If none of the targets reads both tables, the fragment selects everything: SELECT R.a, S.b FROM R, S, T *)
  Theorem C221_star_refuted : exists q q', implicit q /\ plain_targets q /\ ex [R; S] PKeep q = Ok (Some q') /\
    exists fr, q = QSel [] [(c R 0, None); (c S 1, None)] None fr None [] None [] /\ exists fr', q' = QSel [] [(EStar, None)] None fr' None [] None [].
  Proof.
    exists (QSel [] [(c R 0, None); (c S 1, None)] None (from [R; S; T]) None [] None []). eexists. split; [exact I|]. split; [intros e n [[= <- <-]|[[= <- <-]|[]]]; discriminate|]. split; [vm_compute; reflexivity|]. eexists. split; [reflexivity|]. eexists. reflexivity.
  Qed.
  (** DISTINCT ON becomes DISTINCT. *)
  Theorem C221_distinct_refuted : exists q q', implicit q /\ plain_targets q /\ ex [R] PKeep q = Ok (Some q') /\
    q = QSel [] [(c R 0, None)] (Some [c R 1]) (from [R]) None [] None [] /\ q' = QSel [] [(c R 0, None)] (Some []) (from [R]) None [] None [].
  Proof. eexists. eexists. split; [|split; [|split; [|split; [reflexivity|reflexivity]]]]; [exact I|intros e n [[= <- <-]|[]]; discriminate|vm_compute; reflexivity]. Qed.
  (** C222: the tables of subqueries become tables of FROM: SELECT * FROM R WHERE R.a IN (SELECT S.b FROM S) *)
  Theorem C222_refuted : exists q q', implicit q /\ ex [R; S] PKeep q = Ok (Some q') /\ from_items q = [SDirect R] /\ from_items q' = [SDirect R; SDirect S].
  Proof.
    exists (QSel [] [(EStar, None)] None (from [R]) (Some (cmp (c R 0) (ESub (QSel [] [(c S 1, None)] None (from [S]) None [] None [])))) [] None []). eexists. split; [exact I|]. split; [vm_compute; reflexivity|]. split; vm_compute; reflexivity.
  Qed.
  (** C223: one side of a set query does not have the table, or the projection is not the default one. *)
  Let sel l := QSel [] [(c R 0, None)] None (from l) None [] None [].
  Theorem C223_refuted : exists q, (forall t, In t [S] -> In (Some t) (tables_q q)) /\ ex [S] PKeep q = Raise AttributeError.
  Proof. exists (QSet Union (sel [R; S]) (sel [R]) [] []). split; [intros t [<-|[]]; cbn; tauto|]. vm_compute. reflexivity. Qed.
  Theorem C223_projection_refuted : exists q l r, ex [R] PStar q = Ok (Some (QSet Union l r [] [])) /\ l = sel [R] /\ ex [R] POther q = ex [R] PKeep q /\ ex [R] POther l = Raise ValueError.
  Proof. exists (QSet Union (sel [R; S]) (sel [R]) [] []). do 2 eexists. split; [vm_compute; reflexivity|]. split; [reflexivity|]. split; vm_compute; reflexivity. Qed.
  Example set_case : ex [R] PKeep (QSet Union (sel [R; S]) (sel [R]) [] [c R 0; c S 0]) = Ok (Some (QSet Union (sel [R]) (sel [R]) [] [c R 0])).
  Proof. vm_compute. reflexivity. Qed.
  (** C224: WITH a AS (SELECT R.x FROM R), b AS (SELECT a.x FROM a) SELECT * FROM b, S; the fragment of b has no a. *)
  Theorem C224_refuted : exists q q', implicit q /\ plain_targets q /\ (forall t, In t [B] -> In (Some t) (tables_q q)) /\ self_contained q /\ ex [B] PKeep q = Ok (Some q') /\ ~ self_contained q'.
  Proof.
    exists (QSel [WQuery (sel [R]) 7; WQuery (QSel [] [(c A 0, None)] None (from [A]) None [] None []) 8] [(EStar, None)] None (from [B; S]) None [] None []). eexists.
    split; [exact I|]. split; [intros e n [[= <- <-]|[]]; reflexivity|]. split; [intros t [<-|[]]; cbn; tauto|]. split.
    - intros a H. cbn in H. cbn. repeat (destruct H as [H|H]; [try discriminate; injection H as <-; first [eexists; split; [left; reflexivity|reflexivity]|eexists; split; [right; left; reflexivity|reflexivity]]|]). contradiction.
    - split; [vm_compute; reflexivity|]. intros H. destruct (H 7) as (w & [<-|[]] & E); [cbn; tauto|discriminate].
  Qed.
  Example cte_case : exists q', ex [A; R] PKeep (QSel [WQuery (sel [S]) 7; WQuery (sel [T]) 8] [(EStar, None)] None (from [A; B; R]) None [] None []) = Ok (Some q') /\ ctes_of q' = [WQuery (sel [S]) 7].
  Proof. eexists. split; vm_compute; reflexivity. Qed.
  (** C225: NOT is an error, even if it only concerns wanted tables. *)
  Theorem C225_refuted : exists q, implicit q /\ (forall t, In t [R] -> In (Some t) (tables_q q)) /\ ex [R] PKeep q = Raise TypeError.
  Proof. exists (QSel [] [(EStar, None)] None (from [R]) (Some (ENode 2 false [cmp (c R 0) EVal])) [] None []). split; [exact I|]. split; [intros t [<-|[]]; cbn; tauto|]. vm_compute. reflexivity. Qed.
  Example success_case : no_not 1 2 (EAnd [cmp (c R 0) (c S 1); ENode 1 false [cmp (c R 0) EVal; c S 1]]).
  Proof. apply nn_and. intros p [<-|[<-|[]]]; [apply nn_node; discriminate|]. apply nn_or; [discriminate|]. intros p [<-|[<-|[]]]; [apply nn_node; discriminate|now apply nn_other]. Qed.
End Examples.
Print Assumptions C220_none.
Print Assumptions C220_tables_partial.
Print Assumptions C220_projected.
Print Assumptions C221_lists.
Print Assumptions C221_conjuncts.
Print Assumptions C221_select_partial.
Print Assumptions C222_from_partial.
Print Assumptions C223_sets_partial.
Print Assumptions C224_ctes_partial.
Print Assumptions C225_success_partial.
Print Assumptions C220_refuted.
Print Assumptions C221_refuted.
Print Assumptions C221_star_refuted.
Print Assumptions C221_distinct_refuted.
Print Assumptions C222_refuted.
Print Assumptions C223_refuted.
Print Assumptions C223_projection_refuted.
Print Assumptions C224_refuted.
Print Assumptions C225_refuted.
