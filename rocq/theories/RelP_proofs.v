(** Lemmas about the translation of queries to relational algebra. *)
From Coq Require Import List Bool Arith Permutation Lia.
From Verif Require Import PyBase Collections_proofs Pred_model Pred_spec Pred_proofs QPred3_proofs DP_proofs Rel_model Rel_spec Rel_proofs.
Import ListNotations.

(** *** Phases *)
Lemma rmax_ok : forall l x, rmax l = Ok x -> (forall r, In r l -> exists y, r = Ok y /\ y <= x) /\ In (Ok x) l.
Proof.
  induction l as [|a l IH]; intros x H; [discriminate|]. destruct l as [|b l].
  - cbn in H. subst a. split; [|now left]. intros r [<-|[]]. eauto.
  - change (rmax (a :: b :: l)) with (rbind a (fun u => rbind (rmax (b :: l)) (fun v => Ok (Nat.max u v)))) in H. destruct a as [a|]; [|discriminate]. cbn [rbind] in H. destruct (rmax (b :: l)) as [y|] eqn:E; [|discriminate].
    injection H as <-. destruct (IH y eq_refl) as [H1 H2]. split.
    + intros r [<-|Hr]; [exists a; split; [reflexivity|lia]|]. destruct (H1 r Hr) as (z & -> & Hz). exists z. split; [reflexivity|lia].
    + destruct (Nat.max_spec a y) as [[_ ->]|[_ ->]]; [now right|now left].
Qed.
Lemma rmax_total l : l <> [] -> (forall r, In r l -> exists y, r = Ok y) -> exists x, rmax l = Ok x.
Proof.
  induction l as [|a l IH]; [congruence|]. intros _ H. destruct (H a (or_introl eq_refl)) as [y ->]. destruct l as [|b l]; [cbn; eauto|].
  destruct IH as [z Hz]; [discriminate|intros; apply H; now right|]. change (rmax (Ok y :: b :: l)) with (rbind (rmax (b :: l)) (fun v => Ok (Nat.max y v))). rewrite Hz. cbn. eauto.
Qed.
Lemma expr_phase_facts e : forall x, expr_phase e = Ok x -> 1 <= x <= 4 /\ (has_agg e = false -> x <= 2) /\ (has_agg e = true -> x = 4).
Proof.
  induction e as [v| |c|k l IH] using rx_ind2; intros x H; try (injection H as <-; cbn; unfold BaseTable; split; [lia|split; [intros _; lia|discriminate]]).
  assert (G : rbind (rmax (map expr_phase l)) (fun child => Ok (Nat.max (if many (xtabs (RApp k l)) then Join else BaseTable) child)) = Ok x ->
              1 <= x <= 4 /\ (existsb has_agg l = false -> x <= 2) /\ (existsb has_agg l = true -> x = 4)).
  { intros H'. destruct (rmax (map expr_phase l)) as [y|] eqn:E; [|discriminate]. cbn [rbind] in H'. injection H' as <-.
    apply rmax_ok in E as [E1 E2]. rewrite Forall_forall in IH.
    assert (Hb : 1 <= (if many (xtabs (RApp k l)) then Join else BaseTable) <= 2) by (destruct (many _); unfold Join, BaseTable; lia).
    apply in_map_iff in E2 as (e & He & Hin). destruct (IH e Hin y He) as (B1 & B2 & B3). split; [lia|]. split.
    - intros F. assert (Hf : has_agg e = false). { destruct (has_agg e) eqn:Ee; [|reflexivity]. rewrite <- F. symmetry. apply existsb_exists. eauto. }
      specialize (B2 Hf). lia.
    - intros F. apply existsb_exists in F as (e' & Hin' & He'). destruct (E1 (expr_phase e')) as (z & Hz & Hle); [now apply in_map|].
      destruct (IH e' Hin' z Hz) as (_ & _ & C). specialize (C He'). lia. }
  destruct k as [f|f|op|ty| |al| |m]; try (exact (G H)).
  - injection H as <-. cbn. unfold PostAggregation. split; [lia|split; [discriminate|reflexivity]].
  - discriminate.
Qed.
Lemma phas_agg_pexprs p : phas_agg p = existsb has_agg (pexprs p).
Proof.
  induction p as [op a b|a lo hi|a vs|op a|p IH|ps IH|ps IH] using pred_ind'; cbn; rewrite ?orb_false_r, ?orb_assoc; try reflexivity; [exact IH| |];
    (induction IH as [|q ps Hq _ IHps]; cbn; [reflexivity|]; now rewrite existsb_app, Hq, IHps).
Qed.
Lemma needs_agg e : has_agg e = true -> needs_mapping e = true.
Proof. destruct e as [v| |c|k l]; [discriminate|discriminate|discriminate|reflexivity]. Qed.

Lemma pred_phase_facts p x : pred_phase p = Ok x ->
  (length (rptabs p) = 1 -> x = BaseTable) /\
  (length (rptabs p) <> 1 -> (phas_agg p = false -> x = if is_bin p then Join else PostJoin) /\ (phas_agg p = true -> x = PostAggregation)).
Proof.
  unfold pred_phase. destruct (pdetect p); [|discriminate]. cbn [rbind]. intros H. destruct (length (rptabs p) =? 1) eqn:E.
  - apply Nat.eqb_eq in E. injection H as <-. split; [reflexivity|congruence].
  - apply Nat.eqb_neq in E. split; [congruence|]. intros _.
    destruct (rmax (map expr_phase (filter needs_mapping (pexprs p)))) as [y|] eqn:Em; [|discriminate]. cbn [rbind] in H. rewrite phas_agg_pexprs.
    apply rmax_ok in Em as [E1 E2]. apply in_map_iff in E2 as (e & He & Hin). apply filter_In in Hin as [Hin Hn].
    destruct (expr_phase_facts e y He) as (B1 & B2 & B3). split; intros F.
    + assert (Hf : has_agg e = false). { destruct (has_agg e) eqn:Ee; [|reflexivity]. rewrite <- F. symmetry. apply existsb_exists. eauto. }
      specialize (B2 Hf). unfold Join in H. destruct (2 <? y) eqn:Ey; [apply Nat.ltb_lt in Ey; lia|]. now injection H as <-.
    + apply existsb_exists in F as (e' & Hin' & He'). destruct (E1 (expr_phase e')) as (z & Hz & Hle); [apply in_map, filter_In; split; [exact Hin'|now apply needs_agg]|].
      destruct (expr_phase_facts e' z Hz) as (_ & _ & C). specialize (C He'). assert (y = 4) as -> by lia. cbn in H. now injection H as <-.
Qed.
Lemma keep_phase_spec ps ph : forall l, keep_phase ps ph = Ok l ->
  (forall q, In q l <-> In q ps /\ pred_phase q = Ok ph) /\ (forall q, In q ps -> exists x, pred_phase q = Ok x).
Proof.
  induction ps as [|p ps IH]; intros l H; cbn [keep_phase] in H.
  - injection H as <-. split; [intros q; cbn; tauto|intros q []].
  - destruct (pred_phase p) as [x|] eqn:Ep; [|discriminate]. cbn [rbind] in H. destruct (keep_phase ps ph) as [l'|] eqn:El; [|discriminate]. cbn [rbind] in H. injection H as <-.
    destruct (IH l' eq_refl) as [I1 I2]. split.
    + intros q. destruct (x =? ph) eqn:E; [apply Nat.eqb_eq in E; subst x|apply Nat.eqb_neq in E]; cbn; rewrite I1.
      * split; [intros [<-|H]; [auto|tauto]|]. intros [[<-|H] H']; auto.
      * split; [tauto|]. intros [[<-|H] H']; [congruence|auto].
    + intros q [<-|Hq]; [eauto|auto].
Qed.
Lemma keep_phase_total ps ph : (forall q, In q ps -> exists x, pred_phase q = Ok x) -> exists l, keep_phase ps ph = Ok l.
Proof.
  induction ps as [|p ps IH]; intros H; cbn; [eauto|]. destruct (H p (or_introl eq_refl)) as [x ->]. cbn. destruct IH as [l ->]; [intros; apply H; now right|]. cbn. eauto.
Qed.

Lemma In_rptabs p t : In t (rptabs p) <-> exists c, In c (pcols xcols p) /\ c_tab c = Some t.
Proof. unfold ptabs. apply In_ctabs. Qed.
Lemma rptabs_NoDup p : NoDup (rptabs p). Proof. unfold ptabs, ctabs. apply dedup_NoDup. Qed.
(** One table. *)
Lemma one_tab p t : (forall c, In c (pcols xcols p) -> c_tab c = Some t) -> uses_columns p -> rptabs p = [t].
Proof.
  intros H [c Hc]. assert (Ht : In t (rptabs p)) by (apply In_rptabs; eauto).
  assert (Hu : forall u, In u (rptabs p) -> u = t) by (intros u Hu; apply In_rptabs in Hu as (d & Hd & E); rewrite (H d Hd) in E; now injection E as <-).
  pose proof (rptabs_NoDup p) as N. destruct (rptabs p) as [|a [|b l]]; [destruct Ht|now rewrite (Hu a (or_introl eq_refl))|].
  rewrite (Hu a (or_introl eq_refl)), (Hu b (or_intror (or_introl eq_refl))) in N. inversion N as [|? ? Hn]; subst. destruct Hn. now left.
Qed.
Lemma top_cols p q : In q (top p) -> incl (pcols xcols q) (pcols xcols p).
Proof. destruct p; cbn [top]; try (intros [<-|[]]; apply incl_refl). intros H c Hc. cbn. apply in_flat_map. eauto. Qed.

Definition all_bound (cs : list col) : Prop := forall c, In c cs -> c_tab c <> None.
Lemma one_tab_inv p t : all_bound (pcols xcols p) -> rptabs p = [t] -> forall c, In c (pcols xcols p) -> c_tab c = Some t.
Proof.
  intros B E c Hc. destruct (c_tab c) as [u|] eqn:Eu; [|now destruct (B c Hc)]. assert (In u (rptabs p)) as H by (apply In_rptabs; eauto). rewrite E in H. destruct H as [->|[]]; reflexivity.
Qed.

(** The part of a condition that belongs to one of the phases up to the joins. *)
Lemma filter_phase_parts p ph o : ph <= PostJoin -> 1 <= ph -> all_bound (pcols xcols p) -> (forall q, In q (top p) -> uses_columns q /\ phas_agg q = false) ->
  filter_phase p ph = Ok o ->
  exists l, keep_phase (top p) ph = Ok l /\ match o with None => l = [] | Some q => l <> [] /\ create_and l = Ok q end.
Proof.
  intros Hph Hph1 B HU H. unfold filter_phase in H. destruct (pred_phase p) as [x|] eqn:Ep; [|discriminate]. cbn [rbind] in H.
  assert (Hother : forall o', (forall ps, p <> PAnd ps) -> top p = [p] -> (if x <? ph then Ok None else Ok (if x =? ph then Some p else None)) = Ok o' ->
     exists l, keep_phase (top p) ph = Ok l /\ match o' with None => l = [] | Some q => l <> [] /\ create_and l = Ok q end).
  { intros o' _ Et H'. rewrite Et. cbn [keep_phase]. rewrite Ep. cbn [rbind]. exists (if x =? ph then [p] else []). split; [reflexivity|].
    destruct (x <? ph) eqn:E1; injection H' as <-.
    - apply Nat.ltb_lt in E1. destruct (x =? ph) eqn:E2; [apply Nat.eqb_eq in E2; lia|reflexivity].
    - destruct (x =? ph); [split; [discriminate|reflexivity]|reflexivity]. }
  destruct p as [op a b|a lo hi|a vs|op a|p|ps|ps]; try (apply Hother; [discriminate|reflexivity|exact H]). clear Hother. cbn [top] in *.
  destruct (x <? ph) eqn:E1.
  - injection H as <-. apply Nat.ltb_lt in E1. destruct (pred_phase_facts _ x Ep) as [F1 F2].
    assert (Hagg : phas_agg (PAnd ps) = false). { cbn. destruct (existsb phas_agg ps) eqn:E; [|reflexivity]. apply existsb_exists in E as (q & Hq & Eq). rewrite (proj2 (HU q Hq)) in Eq. discriminate. }
    destruct (Nat.eq_dec (length (rptabs (PAnd ps))) 1) as [E|E].
    2:{ apply F2 in E as [E _]. rewrite (E Hagg) in E1. unfold PostJoin in *. cbn in E1. lia. }
    destruct (rptabs (PAnd ps)) as [|t [|u r]] eqn:Et; [discriminate| |discriminate].
    assert (Hone : forall q, In q ps -> rptabs q = [t]).
    { intros q Hq. apply one_tab; [|apply HU, Hq]. intros c Hc. apply (one_tab_inv (PAnd ps) t B Et). now apply (top_cols (PAnd ps) q). }
    rewrite (F1 E) in E1. 
    (* every child is a base table filter *)
    assert (Hx : forall q y, In q ps -> pred_phase q = Ok y -> y = BaseTable). { intros q y Hq Hy. apply (proj1 (pred_phase_facts q y Hy)). now rewrite (Hone q Hq). }
    assert (Hok : exists l, keep_phase ps ph = Ok l).
    { apply keep_phase_total. intros q Hq. unfold pred_phase in *. destruct (pdetect (PAnd ps)) as [u|] eqn:Ed; [|discriminate].
      assert (pdetect q = Ok tt) as ->.
      { unfold pdetect in *. destruct (rmapM detect (pexprs (PAnd ps))) as [us|] eqn:Em; [|discriminate].
        destruct (DP_proofs.rmapM_In detect _ us Em) as [_ Hd]. destruct (DP_proofs.rmapM_ok detect (pexprs q)) as [vs ->]; [|reflexivity].
        intros e He. apply Hd. cbn. apply in_flat_map. eauto. }
      cbn [rbind]. rewrite (Hone q Hq). cbn. eauto. }
    destruct Hok as [l Hl]. exists l. split; [exact Hl|]. destruct (keep_phase_spec ps ph l Hl) as [K _]. destruct l as [|q l]; [reflexivity|].
    destruct (proj1 (K q) (or_introl eq_refl)) as [Hq Hy]. specialize (Hx q ph Hq Hy). lia.
  - destruct (keep_phase ps ph) as [l|] eqn:El; [|discriminate]. cbn [rbind] in H. exists l. split; [reflexivity|].
    destruct l as [|q l]; [now injection H as <-|]. unfold rmap in H. destruct (create_and (q :: l)) as [z|] eqn:Ec; [|discriminate]. cbn in H. injection H as <-. split; [discriminate|reflexivity].
Qed.

(** *** Nodes *)
Lemma with_map_tabs n req : ntabs (with_map n req) = ntabs n.
Proof. unfold with_map. destruct (missing _ _); reflexivity. Qed.
Lemma with_map_applied n req : applied (with_map n req) = applied n.
Proof. unfold with_map. destruct (missing _ _); reflexivity. Qed.
Lemma with_map_wfn n req : wfn (with_map n req) <-> wfn n.
Proof. unfold with_map. destruct (missing _ _); reflexivity. Qed.
Lemma map_if_tabs n es : ntabs (map_if n es) = ntabs n. Proof. destruct es; reflexivity. Qed.
Lemma map_if_applied n es : applied (map_if n es) = applied n. Proof. destruct es; reflexivity. Qed.
Lemma map_if_wfn n es : wfn (map_if n es) <-> wfn n. Proof. destruct es; reflexivity. Qed.
Lemma add_expression_same e n m : add_expression e n = Ok m -> ntabs m = ntabs n /\ applied m = applied n /\ (wfn n -> wfn m).
Proof.
  unfold add_expression. destruct (mem e (provided n)); [intros H; injection H as <-; auto|].
  destruct e as [v| |c|k l]; [intros H; injection H as <-; auto|discriminate|intros H; injection H as <-; auto|].
  destruct k; try discriminate; intros H; injection H as <-; rewrite with_map_tabs, with_map_applied, with_map_wfn; auto.
Qed.
Lemma ntabs_nonempty n : wfn n -> exists t, In t (ntabs n).
Proof.
  induction n as [t cs|n IH q|l IHl r IHr|l IHl r IHr q|n IH es|n IH gc ag|n IH ks|n IH ts|l IHl r IHr|l IHl r IHr|l IHl r IHr|n IH]; cbn; intros W; try contradiction; try tauto.
  - exists t. now left.
  - destruct (IHl (proj1 W)) as [t Ht]. exists t. apply in_app_iff. now left.
  - destruct (IHl (proj1 W)) as [t Ht]. exists t. apply in_app_iff. now left.
Qed.
Lemma node_eqb_refl n : node_eqb n n = true.
Proof.
  induction n; cbn; rewrite ?Nat.eqb_refl, ?deqb_refl, ?IHn, ?IHn1, ?IHn2; try reflexivity; cbn; try apply seteqb_seteq; try (intros x; reflexivity).
Qed.
Lemma node_eqb_tabs : forall a b, node_eqb a b = true -> ntabs a = ntabs b.
Proof.
  induction a as [t cs|n IH q|l IHl r IHr|l IHl r IHr q|n IH es|n IH gc ag|n IH ks|n IH ts|l IHl r IHr|l IHl r IHr|l IHl r IHr|n IH]; intros [];
    cbn; intros H; try discriminate; repeat (apply andb_true_iff in H as [H ?]); try (rewrite (IHl _ H)); try (rewrite (IHr r0) by assumption); auto.
  apply Nat.eqb_eq in H. congruence.
Qed.
Lemma ndedup_from_spec l : forall seen,
  (forall n, In n (ndedup_from seen l) -> In n l /\ ~ In n seen) /\ NoDup (ndedup_from seen l) /\
  (forall n, In n l -> exists m, (In m (ndedup_from seen l) \/ In m seen) /\ ntabs m = ntabs n).
Proof.
  induction l as [|x l IH]; intros seen; cbn [ndedup_from].
  - repeat split; [destruct H|destruct H|constructor|intros n []].
  - destruct (existsb (node_eqb x) seen) eqn:E.
    + destruct (IH seen) as (H1 & H2 & H3). split; [|split; [exact H2|]].
      * intros n Hn. destruct (H1 n Hn). split; [now right|assumption].
      * intros n [<-|Hn]; [|now apply H3]. apply existsb_exists in E as (m & Hm & Em). exists m. split; [now right|]. symmetry. now apply node_eqb_tabs.
    + assert (Hx : ~ In x seen). { intros Hx. rewrite <- not_true_iff_false in E. apply E, existsb_exists. exists x. split; [exact Hx|apply node_eqb_refl]. }
      destruct (IH (x :: seen)) as (H1 & H2 & H3). split; [|split].
      * intros n [<-|Hn]; [split; [now left|exact Hx]|]. destruct (H1 n Hn) as [Ha Hb]. split; [now right|]. intros Hs. apply Hb. now right.
      * constructor; [|exact H2]. intros Hn. apply (H1 x Hn). now left.
      * intros n [<-|Hn]; [exists x; split; [left; now left|reflexivity]|]. destruct (H3 n Hn) as (m & [Hm|[->|Hm]] & Em); exists m; (split; [|exact Em]); [left; now right|left; now left|now right].
Qed.
Lemma ndedup_spec l : (forall n, In n (ndedup l) -> In n l) /\ NoDup (ndedup l) /\ (forall n, In n l -> exists m, In m (ndedup l) /\ ntabs m = ntabs n).
Proof.
  destruct (ndedup_from_spec l []) as (H1 & H2 & H3). split; [intros n Hn; now apply H1|]. split; [exact H2|].
  intros n Hn. destruct (H3 n Hn) as (m & [Hm|[]] & E). eauto.
Qed.

Section Parser.
  Context (ordp : list rpred -> list rpred) (ordn : list rnode -> list rnode).
  Context (Hordp : forall l, Permutation (ordp l) l) (Hordn : forall l, Permutation (ordn l) l).
  Context {V : Type} (M : rsem V).
  Notation holds := (holds M).

  Lemma ordp_In l x : In x (ordp l) <-> In x l.
  Proof. split; apply Permutation_in; [|symmetry]; apply Hordp. Qed.
  Lemma create_and_holds l p g : create_and l = Ok p -> (holds p g = true <-> forall q, In q l -> holds q g = true).
  Proof.
    destruct l as [|a [|b l]]; cbn [create_and]; intros H; [discriminate| |].
    - injection H as <-. split; [intros H q [<-|[]]; exact H|intros H; apply H; now left].
    - injection H as <-. set (L := a :: b :: l). unfold Rel_spec.holds. cbn [psem].
      assert (E : all3 (map (psem M (gval M g)) L) = T3 <-> forall q, In q L -> psem M (gval M g) q = T3).
      { rewrite all3_T. split; [intros H q Hq; apply H, in_map, Hq|intros H x Hx; apply in_map_iff in Hx as (q & <- & Hq); auto]. }
      destruct (all3 (map (psem M (gval M g)) L)).
      + split; [|reflexivity]. intros _ q Hq. now rewrite (proj1 E eq_refl q Hq).
      + split; [discriminate|]. intros H. assert (F3 = T3); [|discriminate]. apply E. intros q Hq. specialize (H q Hq). destruct (psem M (gval M g) q); congruence.
      + split; [discriminate|]. intros H. assert (U3 = T3); [|discriminate]. apply E. intros q Hq. specialize (H q Hq). destruct (psem M (gval M g) q); congruence.
  Qed.
  Lemma create_and_cols l p : create_and l = Ok p -> forall c, In c (pcols xcols p) <-> exists q, In q l /\ In c (pcols xcols q).
  Proof.
    destruct l as [|a [|b l]]; cbn [create_and]; intros H c; [discriminate| |].
    - injection H as <-. split; [intros H; exists a; split; [now left|exact H]|intros (q & [<-|[]] & H); exact H].
    - injection H as <-. cbn [pcols]. apply in_flat_map.
  Qed.

  (** *** Base table filters *)
  Definition in_raw (raw : dict tbl (list rpred)) (t : tbl) (p : rpred) : Prop := exists l, dget raw t = Some l /\ In p l.
  Lemma raw_add_spec acc e t p : in_raw (raw_add acc e) t p <-> in_raw acc t p \/ (t, p) = e.
  Proof.
    destruct e as [u q]. unfold raw_add, in_raw. cbn [fst snd]. rewrite dset_spec. destruct (eqd t u) as [->|Hn].
    - split.
      + intros (l & H & Hp). injection H as <-. destruct (dget acc u) as [l|]; apply in_app_iff in Hp as [Hp|[->|[]]]; eauto. destruct Hp.
      + intros [(l & H & Hp)|E].
        * rewrite H. eexists. split; [reflexivity|]. apply in_app_iff. now left.
        * injection E as ->. eexists. split; [reflexivity|]. apply in_app_iff. right. now left.
    - split; [eauto|]. intros [H|E]; [exact H|]. injection E as -> ->. congruence.
  Qed.
  Lemma raw_add_wf acc e : dwf acc -> dwf (raw_add acc e). Proof. apply dwf_dset. Qed.
  Lemma fold_raw_spec d : forall acc t p, in_raw (fold_left raw_add d acc) t p <-> in_raw acc t p \/ In (t, p) d.
  Proof.
    induction d as [|e d IH]; intros acc t p; cbn [fold_left]; [cbn; tauto|]. rewrite IH, raw_add_spec. cbn. intuition congruence.
  Qed.
  Lemma fold_raw_wf d : forall acc, dwf acc -> dwf (fold_left raw_add d acc).
  Proof. induction d as [|e d IH]; intros acc H; cbn; [exact H|]. apply IH, raw_add_wf, H. Qed.
  Lemma build_ands_spec raw : forall d, build_ands ordp raw = Ok d ->
    (forall t q, In (t, q) d -> exists ps, In (t, ps) raw /\ create_and (ordp (dedup ps)) = Ok q) /\
    (forall t ps, In (t, ps) raw -> exists q, In (t, q) d /\ create_and (ordp (dedup ps)) = Ok q).
  Proof.
    induction raw as [|[t ps] raw IH]; intros d H; cbn [build_ands] in H.
    - injection H as <-. split; [intros t q []|intros t ps []].
    - destruct (create_and (ordp (dedup ps))) as [p|] eqn:Ec; [|discriminate]. cbn [rbind] in H. destruct (build_ands ordp raw) as [d'|]; [|discriminate]. cbn [rbind] in H. injection H as <-.
      destruct (IH d' eq_refl) as [H1 H2]. split.
      + intros u q [E|Hin]; [injection E as <- <-; exists ps; split; [now left|exact Ec]|]. destruct (H1 u q Hin) as (ps' & Hp & E). exists ps'. split; [now right|exact E].
      + intros u ps' [E|Hin]; [injection E as <- <-; exists p; split; [now left|exact Ec]|]. destruct (H2 u ps' Hin) as (q & Hq & E). exists q. split; [now right|exact E].
  Qed.
  Lemma split_filter_spec p : all_bound (pcols xcols p) -> forall d, split_filter ordp p = Ok d ->
    (forall t q, In (t, q) d -> forall c, In c (pcols xcols q) -> c_tab c = Some t /\ In c (pcols xcols p)) /\
    (forall g, holds p g = true <-> forall t q, In (t, q) d -> holds q g = true).
  Proof.
    assert (Hbase : forall p d, all_bound (pcols xcols p) -> rbind (base_lookup p) (fun t => Ok [(t, p)]) = Ok d ->
      (forall t q, In (t, q) d -> forall c, In c (pcols xcols q) -> c_tab c = Some t /\ In c (pcols xcols p)) /\
      (forall g, holds p g = true <-> forall t q, In (t, q) d -> holds q g = true)).
    { intros q d B H. unfold base_lookup in H. destruct (is_join xcols q); [discriminate|]. destruct (rptabs q) as [|t [|u r]] eqn:E; try discriminate. cbn in H. injection H as <-. split.
      - intros u q' [E'|[]] c Hc. injection E' as <- <-. split; [|exact Hc]. now apply (one_tab_inv q t B E).
      - intros g. split; [intros H u q' [E'|[]]; injection E' as <- <-; exact H|intros H; apply (H t); now left]. }
    induction p as [op a b|a lo hi|a vs|op a|p IH|ps IH|ps IH] using pred_ind'; intros B d H; cbn [split_filter] in H;
      (destruct (is_filter xcols _) eqn:Ef; [|discriminate]); try (exact (Hbase _ d B H)).
    clear Hbase Ef.
    match type of H with rbind (?G ps []) _ = _ => set (go := G) in * end.
    assert (Hgo : forall l acc raw, incl l ps -> go l acc = Ok raw -> dwf acc ->
      (forall t q, in_raw acc t q -> forall c, In c (pcols xcols q) -> c_tab c = Some t /\ In c (pcols xcols (PAnd ps))) ->
      dwf raw /\ (forall t q, in_raw raw t q -> forall c, In c (pcols xcols q) -> c_tab c = Some t /\ In c (pcols xcols (PAnd ps))) /\
      (forall g, (forall t q, in_raw raw t q -> holds q g = true) <-> (forall t q, in_raw acc t q -> holds q g = true) /\ (forall q, In q l -> holds q g = true))).
    { induction l as [|x l IHl]; intros acc raw Hi Hg Hw Hc; cbn in Hg.
      - injection Hg as <-. split; [exact Hw|]. split; [exact Hc|]. intros g. split; [intros H'; split; [exact H'|intros q []]|tauto].
      - assert (Hx : In x ps) by (apply Hi; now left).
        destruct (split_filter ordp x) as [dx|] eqn:Ex; [|discriminate]. cbn [rbind] in Hg. rewrite Forall_forall in IH.
        destruct (IH x Hx) with (d := dx) as [X1 X2]; [|exact Ex|].
        { intros c Hc'. apply B. cbn. apply in_flat_map. eauto. }
        destruct (IHl _ raw (fun y Hy => Hi y (or_intror Hy)) Hg (fold_raw_wf dx acc Hw)) as (R1 & R2 & R3).
        { intros t q Hin c Hcc. apply fold_raw_spec in Hin as [Hin|Hin]; [now apply (Hc t q)|]. destruct (X1 t q Hin c Hcc) as [Y1 Y2]. split; [exact Y1|]. cbn. apply in_flat_map. eauto. }
        split; [exact R1|]. split; [exact R2|]. intros g. rewrite R3. split.
        + intros [H1 H2]. split; [intros t q Hq; apply (H1 t), fold_raw_spec; now left|]. intros q [<-|Hq]; [|now apply H2]. apply X2. intros t r Hr. apply (H1 t), fold_raw_spec. now right.
        + intros [H1 H2]. split; [|intros q Hq; apply H2; now right]. intros t q Hq. apply fold_raw_spec in Hq as [Hq|Hq]; [now apply (H1 t)|]. exact (proj1 (X2 g) (H2 x (or_introl eq_refl)) t q Hq). }
    destruct (go ps []) as [raw|] eqn:Eg; [|discriminate]. cbn [rbind] in H.
    destruct (Hgo ps [] raw (incl_refl _) Eg) as (R1 & R2 & R3); [constructor|intros t q (l & E & _); discriminate|].
    destruct (build_ands_spec raw d H) as [D1 D2]. split.
    - intros t q Hq c Hc. destruct (D1 t q Hq) as (ps' & Hp & Ec). apply (create_and_cols _ _ Ec c) in Hc. destruct Hc as (q' & Hq' & Hc'). rewrite ordp_In, dedup_In in Hq'.
      apply (R2 t q'); [|exact Hc']. exists ps'. split; [now apply In_dget|exact Hq'].
    - intros g. assert (E : holds (PAnd ps) g = true <-> forall q, In q ps -> holds q g = true).
      { unfold Rel_spec.holds. cbn [psem]. assert (E : all3 (map (psem M (gval M g)) ps) = T3 <-> forall q, In q ps -> psem M (gval M g) q = T3).
        { rewrite all3_T. split; [intros H' q Hq; apply H', in_map, Hq|intros H' x Hx; apply in_map_iff in Hx as (q & <- & Hq); auto]. }
        split; [intros H' q Hq; destruct (all3 _); try discriminate; now rewrite (proj1 E eq_refl q Hq)|].
        intros H'. replace (all3 (map (psem M (gval M g)) ps)) with T3; [reflexivity|]. symmetry. apply E. intros q Hq. specialize (H' q Hq). destruct (psem M (gval M g) q); congruence. }
      rewrite E. split.
      + intros Ha t q Hq. destruct (D1 t q Hq) as (ps' & Hp & Ec). apply (create_and_holds _ _ g Ec). intros r Hr. rewrite ordp_In, dedup_In in Hr.
        apply (proj2 (R3 g)) with (t := t); [split; [intros u q' (l & E' & _); discriminate|exact Ha]|]. exists ps'. split; [now apply In_dget|exact Hr].
      + intros Ha. apply (R3 g). intros t q (l & El & Hq). destruct (D2 t l) as (q' & Hq' & Ec); [now apply dget_In|]. apply (create_and_holds _ _ g Ec); [now apply (Ha t)|]. rewrite ordp_In, dedup_In. exact Hq.
  Qed.
End Parser.
