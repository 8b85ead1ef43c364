(** Which queries can be translated. *)
From Coq Require Import List Bool Arith Permutation Lia.
From Verif Require Import PyBase Collections_proofs Pred_model Pred_spec Pred_proofs QPred3_proofs DP_proofs Hint_proofs Rel_model Rel_spec Rel_proofs RelP_proofs RelF_proofs RelM_proofs.
Import ListNotations.

Lemma xok_args k l : xok (RApp k l) -> l <> [] /\ (forall x, In x l -> xok x) /\ (forall n, k <> KOther n).
Proof.
  assert (A : forall l, fold_right (fun x P => xok x /\ P) True l -> forall x, In x l -> xok x).
  { clear. induction l as [|y l IH]; intros H x []; cbn in H; [subst; tauto|]. now apply IH. }
  destruct l as [|a l]; [destruct k; intros []|]. intros H. split; [discriminate|]. split; [|destruct k; try discriminate; destruct H].
  apply A. destruct k; try exact H. destruct H.
Qed.
Lemma detect_total e : xok e -> detect e = Ok tt.
Proof.
  induction e as [v| |c|k l IH] using rx_ind2; try reflexivity. intros H. apply xok_args in H as (Hn & Ha & _). destruct l as [|a l]; [congruence|]. clear Hn.
  inversion IH as [|? ? Hx IHl]; subst. cbn [detect]. rewrite Hx by (apply Ha; now left). cbn [rbind]. clear IH Hx.
  induction IHl as [|x l Hx _ IH]; [reflexivity|]. rewrite Hx by (apply Ha; right; now left). cbn [rbind]. apply IH. intros y [->|Hy]; apply Ha; [now left|now do 2 right].
Qed.
Lemma expr_phase_total e : xok e -> exists x, expr_phase e = Ok x.
Proof.
  induction e as [v| |c|k l IH] using rx_ind2; try (cbn; eauto). intros H. apply xok_args in H as (Hn & Ha & Hk).
  destruct (rmax_total (map expr_phase l)) as [y Hy].
  { now destruct l. }
  { intros r Hr. apply in_map_iff in Hr as (e & <- & He). rewrite Forall_forall in IH. auto. }
  destruct k; cbn [expr_phase]; rewrite ?Hy; cbn [rbind]; eauto. destruct (Hk n). reflexivity.
Qed.
Lemma pdetect_total p : (forall e, In e (pexprs p) -> xok e) -> pdetect p = Ok tt.
Proof.
  intros H. unfold pdetect. destruct (rmapM_ok detect (pexprs p)) as [us ->]; [|reflexivity]. intros e He. exists tt. apply detect_total. auto.
Qed.
Lemma uses_mapping p : uses_columns p \/ phas_agg p = true -> exists e, In e (pexprs p) /\ needs_mapping e = true.
Proof.
  intros [[c Hc]|H].
  - rewrite pcols_pexprs in Hc. apply in_flat_map in Hc as (e & He & Hc). exists e. split; [exact He|]. destruct e; cbn in Hc; try destruct Hc; reflexivity.
  - rewrite phas_agg_pexprs in H. apply existsb_exists in H as (e & He & Ha). exists e. split; [exact He|]. now apply needs_agg.
Qed.
Lemma pred_phase_total p : uses_columns p \/ phas_agg p = true -> (forall e, In e (pexprs p) -> xok e) -> exists x, pred_phase p = Ok x.
Proof.
  intros Hu Hx. unfold pred_phase. rewrite (pdetect_total p Hx). cbn [rbind]. destruct (_ =? 1); [eauto|].
  destruct (rmax_total (map expr_phase (filter needs_mapping (pexprs p)))) as [y ->].
  - destruct (uses_mapping p Hu) as (e & He & Hn). intros E. assert (In e (filter needs_mapping (pexprs p))) as Hin by now apply filter_In. apply map_eq_nil in E. rewrite E in Hin. destruct Hin.
  - intros r Hr. apply in_map_iff in Hr as (e & <- & He). apply filter_In in He as [He _]. apply expr_phase_total. auto.
  - cbn [rbind]. destruct (_ <? _); eauto.
Qed.
Lemma filter_phase_total p ph : late_condition p -> (forall r, In r (top p) -> late_condition r) -> exists o, filter_phase p ph = Ok o.
Proof.
  intros [Hp Hx] Ht. unfold filter_phase. destruct (pred_phase_total p Hp Hx) as [x ->]. cbn [rbind]. destruct (x <? ph); [eauto|].
  destruct p as [op a b|a lo hi|a vs|op a|p|ps|ps]; eauto. cbn [top] in Ht. destruct (keep_phase_total ps ph) as [l ->].
  - intros r Hr. destruct (Ht r Hr). now apply pred_phase_total.
  - cbn [rbind]. destruct l as [|a [|b l]]; cbn; eauto.
Qed.
Lemma top_late p : top p <> [] -> (forall r, In r (top p) -> simple_condition r) -> late_condition p /\ forall r, In r (top p) -> late_condition r.
Proof.
  intros Hn H. assert (L : forall r, In r (top p) -> late_condition r) by (intros r Hr; destruct (H r Hr) as (H1 & _ & H2 & _); split; auto).
  split; [|exact L]. destruct p as [op a b|a lo hi|a vs|op a|p|ps|ps]; try (apply L; now left). cbn [top] in *. split.
  - left. destruct ps as [|q ps]; [congruence|]. destruct (H q (or_introl eq_refl)) as ([c Hc] & _). exists c. cbn. apply in_app_iff. now left.
  - intros e He. cbn in He. apply in_flat_map in He as (q & Hq & He). now apply (L q Hq).
Qed.

Lemma collect_all_cols e : forall x, In x (collect_all e) -> incl (xcols x) (xcols e).
Proof.
  induction e as [v| |c|k l IH] using rx_ind2; intros x Hx.
  - destruct Hx.
  - destruct Hx.
  - cbn in Hx. destruct Hx as [<-|[]]. apply incl_refl.
  - assert (G : In x (filter needs_mapping (RApp k l :: flat_map collect_all l)) -> incl (xcols x) (xcols (RApp k l))).
    { intros H. apply filter_In in H as [[<-|H] _]; [apply incl_refl|]. apply in_flat_map in H as (e & He & H). rewrite Forall_forall in IH. intros c Hc. cbn. apply in_flat_map. exists e. split; [exact He|]. now apply (IH e He x). }
    cbn [collect_all] in Hx. destruct (is_agg (RApp k l)); [destruct Hx as [<-|[]]; apply incl_refl|]. now apply G.
Qed.
Lemma xtabs_In e t : In t (xtabs e) <-> exists c, In c (xcols e) /\ c_tab c = Some t.
Proof. unfold etabs. apply In_ctabs. Qed.
Lemma side_tabs e t : side e t -> xtabs e = [t].
Proof.
  intros (Hn & Hc & _). pose proof (ctabs_NoDup (xcols e)) as N. fold (xtabs e) in N. change (ctabs (xcols e)) with (xtabs e) in N.
  assert (Ht : In t (xtabs e)). { destruct (xcols e) as [|c l] eqn:E; [congruence|]. apply xtabs_In. exists c. rewrite E. split; [now left|apply Hc; now left]. }
  assert (Hu : forall u, In u (xtabs e) -> u = t) by (intros u Hu; apply xtabs_In in Hu as (c & Hin & E); rewrite (Hc c Hin) in E; congruence).
  destruct (xtabs e) as [|a [|b l]]; [destruct Ht|now rewrite (Hu a (or_introl eq_refl))|].
  rewrite (Hu a (or_introl eq_refl)), (Hu b (or_intror (or_introl eq_refl))) in N. inversion N as [|? ? Hx]; subst. destruct Hx. now left.
Qed.
Lemma one_table_tabs r : one_table r -> exists t, rptabs r = [t].
Proof. intros (t & Hu & Hc). exists t. now apply one_tab. Qed.
Lemma add_expression_total e n : head_ok e -> exists m, add_expression e n = Ok m.
Proof.
  intros H. unfold add_expression. destruct (mem e (provided n)); [eauto|]. destruct e as [v| |c|k l]; cbn in H; [eauto|destruct H|eauto|]. destruct k; eauto; destruct H.
Qed.

Section Total.
  Context (ordp : list rpred -> list rpred) (ordn : list rnode -> list rnode).
  Context (Hordp : forall l, Permutation (ordp l) l) (Hordn : forall l, Permutation (ordn l) l).

  Lemma is_filter_one r t : rptabs r = [t] -> is_join xcols r = false.
  Proof.
    intros E. destruct (is_join xcols r) eqn:Ej; [|reflexivity]. apply is_join_two in Ej as (a & b & Hn & Ha & Hb). rewrite E in Ha, Hb. destruct Ha as [->|[]], Hb as [->|[]]. congruence.
  Qed.
  Definition leafy (r : rpred) : Prop := (forall ps, r <> PAnd ps) /\ exists t, rptabs r = [t].
  Lemma split_leaf r : leafy r -> exists t, rptabs r = [t] /\ split_filter ordp r = Ok [(t, r)].
  Proof.
    intros [Hn [t Ht]]. exists t. split; [exact Ht|]. pose proof (is_filter_one r t Ht) as Ej.
    assert (G : rbind (base_lookup r) (fun t => Ok [(t, r)]) = Ok [(t, r)]) by (unfold base_lookup; rewrite Ej, Ht; reflexivity).
    destruct r; try (cbn [split_filter]; unfold is_filter; rewrite Ej; exact G). now destruct (Hn ps).
  Qed.
  Definition full (raw : dict tbl (list rpred)) (from : list tbl) : Prop := dwf raw /\ forall t l, In (t, l) raw -> l <> [] /\ In t from.
  Lemma raw_add_full raw e from : full raw from -> In (fst e) from -> full (raw_add raw e) from.
  Proof.
    intros [Hw H] He. split; [now apply raw_add_wf|]. intros t l Hin. unfold raw_add in Hin. apply dset_In in Hin as [[-> ->]|Hin]; [|now apply H|exact Hw]. split; [|exact He]. destruct (match dget raw (fst e) with Some l => l | None => [] end); discriminate.
  Qed.
  Lemma build_ands_total raw from : full raw from -> exists d, build_ands ordp raw = Ok d /\ forall t q, In (t, q) d -> In t from.
  Proof.
    induction raw as [|[t ps] raw IH]; intros H; cbn [build_ands]; [exists []; split; [reflexivity|intros t q []]|].
    destruct H as [Hw H]. destruct (H t ps (or_introl eq_refl)) as [Hn Ht].
    assert (Hne : ordp (dedup ps) <> []).
    { intros E. pose proof (Hordp (dedup ps)) as P. rewrite E in P. apply Permutation_nil in P. exact (Hn (proj1 (dedup_nil ps) P)). }
    assert (Hc : exists p, create_and (ordp (dedup ps)) = Ok p) by (destruct (ordp (dedup ps)) as [|a [|b l]]; [congruence|cbn; eauto|cbn; eauto]).
    destruct Hc as [p ->]. cbn [rbind]. destruct IH as (d & -> & Hd); [split; [now inversion Hw|intros u l Hin; apply H; now right]|]. cbn [rbind]. exists ((t, p) :: d). split; [reflexivity|].
    intros u q [E|Hin]; [now injection E as <- <-|eauto].
  Qed.
  Lemma split_and_total l from : (forall r, In r l -> leafy r) -> (forall r t, In r l -> In t (rptabs r) -> In t from) ->
    exists d, split_filter ordp (PAnd l) = Ok d /\ forall t q, In (t, q) d -> In t from.
  Proof.
    intros Hl Hf. cbn [split_filter]. assert (Ej : is_filter xcols (PAnd l) = true).
    { unfold is_filter. cbn [is_join]. destruct (existsb (is_join xcols) l) eqn:E; [|reflexivity]. apply existsb_exists in E as (r & Hr & E). destruct (Hl r Hr) as [_ [t Ht]]. now rewrite (is_filter_one r t Ht) in E. }
    rewrite Ej. match goal with |- context [rbind (?G l []) _] => set (go := G) end.
    assert (Hgo : forall l' acc, incl l' l -> full acc from -> exists raw, go l' acc = Ok raw /\ full raw from).
    { induction l' as [|r l' IH]; intros acc Hi Ha; cbn; [eauto|]. assert (Hr : In r l) by (apply Hi; now left).
      destruct (split_leaf r (Hl r Hr)) as (t & Et & ->). cbn [rbind fold_left]. apply IH; [intros x Hx; apply Hi; now right|]. apply raw_add_full; [exact Ha|]. cbn. apply (Hf r); [exact Hr|]. rewrite Et. now left. }
    destruct (Hgo l [] (incl_refl _)) as (raw & -> & Hr); [split; [constructor|intros t x []]|]. cbn [rbind]. now apply build_ands_total.
  Qed.
  Lemma split_total l q from : l <> [] -> create_and l = Ok q -> (forall r, In r l -> leafy r) -> (forall r t, In r l -> In t (rptabs r) -> In t from) ->
    exists d, split_filter ordp q = Ok d /\ forall t q, In (t, q) d -> In t from.
  Proof.
    intros Hn Hc Hl Hf. destruct l as [|a [|b l]]; [congruence| |].
    - cbn in Hc. injection Hc as <-. destruct (split_leaf a (Hl a (or_introl eq_refl))) as (t & Et & ->). exists [(t, a)]. split; [reflexivity|]. intros u q [E|[]]. injection E as <- <-. apply (Hf a); [now left|]. rewrite Et. now left.
    - cbn [create_and] in Hc. injection Hc as <-. now apply split_and_total.
  Qed.
  Lemma apply_base_total d : forall f, (forall t q, In (t, q) d -> exists n, dget f t = Some n) -> exists f', apply_base d f = Ok f'.
  Proof.
    induction d as [|[t p] d IH]; intros f H; cbn [apply_base]; [eauto|]. unfold resolve. destruct (H t p (or_introl eq_refl)) as [n ->]. cbn [rbind]. apply IH.
    intros u q Hin. rewrite dset_spec. destruct (eqd u t); [eauto|]. apply (H u q). now right.
  Qed.

  Lemma distribute_total es l r : (forall e, In e es -> incl (xtabs e) (ntabs l) \/ incl (xtabs e) (ntabs r)) -> exists ab, distribute es l r = Ok ab.
  Proof.
    induction es as [|e es IH]; intros H; cbn [distribute]; [eauto|]. destruct IH as [[a b] E]; [intros; apply H; now right|]. rewrite E. cbn [rbind].
    destruct (subsetb (xtabs e) (ntabs l)) eqn:E1; [eauto|]. destruct (subsetb (xtabs e) (ntabs r)) eqn:E2; [eauto|].
    destruct (H e (or_introl eq_refl)) as [Hi|Hi]; apply subsetb_incl in Hi; congruence.
  Qed.
  Lemma join_nodes_total op a b l r : head_ok a -> head_ok b -> incl (xtabs a) (ntabs l) -> incl (xtabs b) (ntabs r) -> exists n, join_nodes (PBin op a b) a b l r = Ok n.
  Proof.
    intros Ha Hb Hl Hr. unfold join_nodes. destruct (add_expression_total a l Ha) as [l1 E1]. rewrite E1. cbn [rbind]. destruct (add_expression_total b r Hb) as [r1 E2]. rewrite E2. cbn [rbind].
    destruct (add_expression_same _ _ _ E1) as (T1 & _). destruct (add_expression_same _ _ _ E2) as (T2 & _).
    match goal with |- context [distribute ?es l1 r1] => destruct (distribute_total es l1 r1) as [[el er] ->] end; [|cbn; eauto].
    intros e He. unfold missing in He. rewrite dedup_In in He. apply filter_In in He as [He _]. unfold pneeds in He. apply in_flat_map in He as (e' & He' & He). apply collect_all_cols in He. rewrite T1, T2.
    assert (Hsub : incl (xtabs e) (xtabs e')) by (intros t Ht; apply xtabs_In in Ht as (c & Hc & Et); apply xtabs_In; eauto).
    destruct He' as [<-|[<-|[]]]; [left|right]; eapply incl_tran; eassumption.
  Qed.
  Definition join_ok (from : list tbl) (p : rpred) : Prop := exists op a b t u, p = PBin op a b /\ t <> u /\ side a t /\ side b u /\ In t from /\ In u from.
  Lemma join_tabs op a b t u : t <> u -> side a t -> side b u -> length (rptabs (PBin op a b)) = 2 /\ forall x, In x (rptabs (PBin op a b)) <-> x = t \/ x = u.
  Proof.
    intros Hn Ha Hb. assert (E : forall x, In x (rptabs (PBin op a b)) <-> x = t \/ x = u).
    { intros x. rewrite In_rptabs. cbn [pcols]. split.
      - intros (c & Hc & Ex). apply in_app_iff in Hc as [Hc|Hc]; [left|right]; [rewrite (proj1 (proj2 Ha) c Hc) in Ex|rewrite (proj1 (proj2 Hb) c Hc) in Ex]; congruence.
      - intros [->| ->]; [assert (In t (xtabs a)) as H by (rewrite (side_tabs a t Ha); now left)|assert (In u (xtabs b)) as H by (rewrite (side_tabs b u Hb); now left)];
          apply xtabs_In in H as (c & Hc & Ex); exists c; rewrite in_app_iff; auto. }
    split; [|exact E]. assert (P : Permutation (rptabs (PBin op a b)) [t; u]).
    { apply NoDup_Permutation; [apply rptabs_NoDup| |]. - repeat constructor; cbn; intuition congruence. - intros x. rewrite E. cbn. intuition congruence. }
    now rewrite (Permutation_length P).
  Qed.
  Lemma rmapM_length {A B} (f : A -> res B) l : forall ys, rmapM f l = Ok ys -> length ys = length l.
  Proof.
    induction l as [|x l IH]; intros ys H; cbn [rmapM] in H; [now injection H as <-|]. destruct (f x); [|discriminate]. cbn [rbind] in H. destruct (rmapM f l) eqn:E; [|discriminate]. cbn [rbind] in H. injection H as <-. cbn. f_equal. auto.
  Qed.
  Lemma ndedup_length l : length (ndedup l) <= length l.
  Proof.
    unfold ndedup. generalize (@nil rnode). induction l as [|x l IH]; intros seen; cbn [ndedup_from length]; [lia|]. destruct (existsb _ _); [specialize (IH seen); lia|]. cbn. specialize (IH (x :: seen)). lia.
  Qed.
  Lemma convert_join_total from f D p : Inv from f D -> join_ok from p -> exists n, convert_join ordn f p = Ok n.
  Proof.
    intros I (op & a & b & t & u & -> & Hn & Ha & Hb & Ht & Hu). destruct (join_tabs op a b t u Hn Ha Hb) as [Hlen Htabs]. set (p := PBin op a b) in *. unfold convert_join.
    destruct (rmapM_ok (resolve f) (rptabs p)) as [ns Ens].
    { intros x Hx. apply Htabs in Hx. unfold resolve. assert (In x from) as Hf by (destruct Hx as [->| ->]; assumption). apply (i_dom from f D I) in Hf as [n ->]. eauto. }
    rewrite Ens. cbn [rbind]. destruct (resolve_all ordn Hordn from f D p ns I Ens) as (R1 & R2 & R3).
    assert (Hle : length (ordn (ndedup ns)) <= 2). { rewrite (Permutation_length (Hordn _)). pose proof (ndedup_length ns). rewrite (rmapM_length _ _ _ Ens), Hlen in H. exact H. }
    destruct (R3 t (proj2 (Htabs t) (or_introl eq_refl))) as (nt & Hnt & Htt). destruct (R3 u (proj2 (Htabs u) (or_intror eq_refl))) as (nu & Hnu & Huu).
    destruct (ordn (ndedup ns)) as [|x [|y [|z l]]] eqn:El; [destruct Hnt|eauto| |cbn in Hle; lia].
    assert (Sa : forall z, In t (ntabs z) -> incl (xtabs a) (ntabs z)) by (intros z Hz v Hv; rewrite (side_tabs a t Ha) in Hv; destruct Hv as [<-|[]]; exact Hz).
    assert (Sb : forall z, In u (ntabs z) -> incl (xtabs b) (ntabs z)) by (intros z Hz v Hv; rewrite (side_tabs b u Hb) in Hv; destruct Hv as [<-|[]]; exact Hz).
    assert (Hxy : x <> y). { intros ->. inversion R2 as [|? ? Hno]; subst. apply Hno. now left. }
    assert (Et : dget f t = Some nt) by (destruct (R1 nt Hnt) as [s Hs]; apply (i_node from f D I s nt Hs), Htt).
    assert (Eu : dget f u = Some nu) by (destruct (R1 nu Hnu) as [s Hs]; apply (i_node from f D I s nu Hs), Huu).
    assert (Hin : forall z, In z [x; y] -> z = nt \/ z = nu).
    { intros z Hz. destruct (rmapM_In (resolve f) _ ns Ens) as [M1 _]. destruct (ndedup_spec ns) as (N1 & _ & _). rewrite <- El in Hz. apply (Permutation_in _ (Hordn _)), N1, M1 in Hz as (s & Hs & Ez).
      unfold resolve in Ez. apply Htabs in Hs as [->| ->]; [rewrite Et in Ez; left|rewrite Eu in Ez; right]; congruence. }
    assert (Hcase : (x = nt /\ y = nu) \/ (x = nu /\ y = nt)).
    { destruct (Hin x (or_introl eq_refl)) as [->| ->], (Hin y (or_intror (or_introl eq_refl))) as [->| ->]; auto; congruence. }
    unfold p. destruct (subsetb (xtabs a) (ntabs x) && subsetb (xtabs b) (ntabs y)) eqn:E1.
    { apply andb_true_iff in E1 as [S1 S2]. apply join_nodes_total; [apply Ha|apply Hb|now apply subsetb_incl|now apply subsetb_incl]. }
    destruct (subsetb (xtabs a) (ntabs y) && subsetb (xtabs b) (ntabs x)) eqn:E2.
    { apply andb_true_iff in E2 as [S1 S2]. apply join_nodes_total; [apply Ha|apply Hb|now apply subsetb_incl|now apply subsetb_incl]. }
    exfalso. destruct Hcase as [[-> ->]|[-> ->]]; apply Sa, subsetb_incl in Htt; apply Sb, subsetb_incl in Huu; rewrite Htt, Huu in *; discriminate.
  Qed.
  Lemma apply_joins_total from ps : forall f D, Inv from f D -> (forall p, In p ps -> join_ok from p) -> exists f', apply_joins ordn ps f = Ok f'.
  Proof.
    induction ps as [|p ps IH]; intros f D I H; cbn [apply_joins]; [eauto|]. destruct (convert_join_total from f D p I (H p (or_introl eq_refl))) as [n E]. rewrite E. cbn [rbind].
    apply (IH _ (p :: D)); [|intros; apply H; now right]. apply (convert_join_inv ordn Hordn from f D p n I); [|exact E].
    destruct (H p (or_introl eq_refl)) as (op & a & b & t & u & -> & Hn & Ha & Hb & Ht & Hu). intros c Hc. cbn in Hc. apply in_app_iff in Hc as [Hc|Hc]; [exists t; split; [now apply Ha|exact Ht]|exists u; split; [now apply Hb|exact Hu]].
  Qed.
  Lemma join_ok_is_join from p : join_ok from p -> is_join xcols p = true.
  Proof.
    intros (op & a & b & t & u & -> & Hn & Ha & Hb & _). cbn [is_join]. rewrite (side_tabs a t Ha), (side_tabs b u Hb). cbn [many length Nat.ltb Nat.leb nonempty andb]. destruct (seteqb [t] [u]) eqn:E; [|reflexivity]. apply seteqb_seteq in E. destruct (proj1 (E t) (or_introl eq_refl)) as [->|[]]. congruence.
  Qed.

  Lemma simple_phase from p r x : bound_in from (pcols xcols p) -> In r (top p) -> simple_condition r -> pred_phase r = Ok x ->
    (x = BaseTable /\ leafy r) \/ (x = Join /\ join_ok from r) \/ x = PostJoin.
  Proof.
    intros B Hr (Hu & Ha & Hx & Hs) Hp. destruct (pred_phase_facts r x Hp) as [F1 F2].
    assert (Hna : forall ps, r <> PAnd ps) by (intros ps ->; exact Hs).
    destruct (Nat.eq_dec (length (rptabs r)) 1) as [E|E].
    - left. split; [auto|]. split; [exact Hna|]. destruct (rptabs r) as [|t [|u l]]; try discriminate. eauto.
    - right. destruct (F2 E) as [F3 _]. specialize (F3 Ha). destruct r as [op a b|a lo hi|a vs|op a|r|ps|ps]; cbn in F3; try (right; exact F3). left. split; [exact F3|].
      destruct Hs as [Hs|(t & u & Hn & Sa & Sb)]; [apply one_table_tabs in Hs as [t Ht]; rewrite Ht in E; now destruct E|]. exists op, a, b, t, u.
      assert (Hb : forall e v, side e v -> incl (xcols e) (pcols xcols p) -> In v from).
      { intros e v (Hne & Hc & _) Hi. destruct (xcols e) as [|c l] eqn:Ee; [congruence|]. destruct (B c (Hi c (or_introl eq_refl))) as (w & Ew & Hw). rewrite (Hc c (or_introl eq_refl)) in Ew. injection Ew as ->. exact Hw. }
      pose proof (top_cols p _ Hr) as Ht. cbn in Ht. repeat split; try assumption; try apply Sa; try apply Sb; [apply (Hb a t Sa)|apply (Hb b u Sb)]; intros c Hc; apply Ht, in_app_iff; auto.
  Qed.

  Lemma add_keys_total ks : forall n, (forall k, In k ks -> head_ok (fst k)) -> exists m, add_keys ks n = Ok m.
  Proof.
    induction ks as [|k ks IH]; intros n H; cbn [add_keys]; [eauto|]. destruct (add_expression_total (fst k) n) as [m ->]; [apply H; now left|]. cbn [rbind]. apply IH. intros; apply H; now right.
  Qed.
  Lemma add_ordering_total ks n : (forall k, In k ks -> head_ok (fst k)) -> exists m, add_ordering ks n = Ok m.
  Proof.
    intros H. destruct ks as [|k ks]; cbn [add_ordering]; [eauto|]. destruct (add_keys_total (k :: ks) n H) as [m ->]. cbn. eauto.
  Qed.
  Lemma late_total w ph n : (forall p, w = Some p -> late_condition p /\ forall r, In r (top p) -> late_condition r) -> exists m, late_phase w ph n = Ok m.
  Proof.
    intros H. destruct w as [p|]; cbn [late_phase]; [|eauto]. destruct (H p eq_refl) as [H1 H2]. destruct (filter_phase_total p ph H1 H2) as [o ->]. cbn. eauto.
  Qed.
  Lemma cross_heads_total from f D : Inv from f D -> from <> [] -> exists n, cross_heads ordn f = Ok n.
  Proof.
    intros I Hn. unfold cross_heads. destruct (ordn (ndedup (dvalues f))) as [|n r] eqn:E; [|eauto]. exfalso. destruct from as [|t from]; [congruence|].
    destruct (proj1 (i_dom _ f D I t) (or_introl eq_refl)) as [n Ht]. destruct (ndedup_spec (dvalues f)) as (_ & _ & N3). destruct (N3 n) as (m & Hm & _); [unfold dvalues; change n with (snd (t, n)); apply in_map, dget_In, Ht|].
    apply (Permutation_in _ (Permutation_sym (Hordn _))) in Hm. rewrite E in Hm. destruct Hm.
  Qed.

  Lemma gen_total q st : translatable q -> inside (q_from q) (st_frags st) -> exists r, gen_select ordp ordn q st = Ok r.
  Proof.
    intros [[Tf1 Tf2] Tw Th To] Hin. unfold gen_select. set (cs := st_cols st). set (f0 := st_frags st) in *. destruct (add_tables_inv (q_from q) cs f0 Hin) as [I0 B0].
    assert (Hl : forall p, q_where q = Some p -> late_condition p /\ forall r, In r (top p) -> late_condition r) by (intros p Ep; destruct (Tw p Ep) as (W1 & _ & W3); now apply top_late).
    assert (HW : forall p, q_where q = Some p -> here (q_from q) p) by (intros p Ep c Hc; now apply (Tw p Ep)).
    assert (Hg : good_where (q_where q)). { destruct (q_where q) as [p|]; [|exact Logic.I]. cbn. intros r Hr. destruct (proj2 (proj2 (Tw p eq_refl)) r Hr) as (A1 & A2 & _). auto. }
    assert (H1 : exists f1, base_phase ordp (q_where q) (add_tables cs (q_from q) f0) = Ok f1).
    { destruct (q_where q) as [p|]; cbn [base_phase]; [|eauto]. destruct (Tw p eq_refl) as (W1 & W2 & W3). destruct (Hl p eq_refl) as [L1 L2]. destruct (filter_phase_total p BaseTable L1 L2) as [o Ef]. rewrite Ef. cbn [rbind].
      destruct o as [q1|]; [|eauto]. destruct (filter_phase_parts p BaseTable (Some q1)) as (l & Hkl & Hne & Hc); [unfold BaseTable, PostJoin; lia|unfold BaseTable; lia|apply (here_bound (q_from q)), HW; reflexivity|exact Hg|exact Ef|].
      destruct (keep_phase_spec _ _ _ Hkl) as [K _].
      destruct (split_total l q1 (q_from q) Hne Hc) as (d & Ed & Hd).
      - intros r Hr. apply K in Hr as [Hr Hp]. destruct (simple_phase (q_from q) p r _ W2 Hr (W3 r Hr) Hp) as [[_ H]|[[H _]|H]]; [exact H|discriminate|discriminate].
      - intros r t Hr Ht. apply K in Hr as [Hr _]. apply In_rptabs in Ht as (c & Hc' & Et). destruct (W2 c (top_cols p r Hr c Hc')) as (u & Eu & Hu). congruence.
      - rewrite Ed. cbn [rbind]. apply apply_base_total. intros t r Hr. apply (i_dom _ _ _ I0). eauto. }
    destruct H1 as [f1 E1]. rewrite E1. cbn [rbind]. set (M := Build_rsem bool (fun _ _ => true) (fun _ _ _ => T3) (fun _ _ => T3)).
    destruct (base_phase_inv ordp Hordp M _ _ _ _ _ Hin HW Hg E1) as (D1 & I1 & _).
    assert (H2 : exists f2, join_phase ordp ordn (q_where q) f1 = Ok f2).
    { destruct (q_where q) as [p|]; cbn [join_phase]; [|eauto]. destruct (Tw p eq_refl) as (W1 & W2 & W3). destruct (Hl p eq_refl) as [L1 L2]. destruct (filter_phase_total p Join L1 L2) as [o Ef]. rewrite Ef. cbn [rbind].
      destruct o as [q1|]; [|eauto]. destruct (filter_phase_parts p Join (Some q1)) as (l & Hkl & Hne & Hc); [unfold Join, PostJoin; lia|unfold Join; lia|apply (here_bound (q_from q)), HW; reflexivity|exact Hg|exact Ef|].
      destruct (keep_phase_spec _ _ _ Hkl) as [K _].
      assert (HJ : forall r, In r l -> join_ok (q_from q) r).
      { intros r Hr. apply K in Hr as [Hr Hp]. destruct (simple_phase (q_from q) p r _ W2 Hr (W3 r Hr) Hp) as [[H _]|[[_ H]|H]]; [discriminate|exact H|discriminate]. }
      assert (HS : exists ps, split_join ordp q1 = Ok ps /\ forall r, In r ps -> In r l).
      { unfold split_join. destruct l as [|a [|b l]]; [congruence| |].
        - cbn in Hc. injection Hc as <-. destruct (HJ a (or_introl eq_refl)) as (op & x & y & t & u & -> & H). rewrite (join_ok_is_join (q_from q)) by (apply HJ; now left). eexists. split; [reflexivity|]. auto.
        - cbn [create_and] in Hc. injection Hc as <-. assert (Ej : is_join xcols (PAnd (a :: b :: l)) = true) by (cbn [is_join existsb]; rewrite (join_ok_is_join (q_from q) a) by (apply HJ; now left); reflexivity).
          rewrite Ej. eexists. split; [reflexivity|]. intros r Hr. apply (Permutation_in _ (Hordp _)) in Hr. now rewrite dedup_In in Hr. }
      destruct HS as (ps & -> & Hps). cbn [rbind]. apply (apply_joins_total (q_from q) ps f1 D1 I1). auto. }
    destruct H2 as [f2 E2]. rewrite E2. cbn [rbind]. destruct (join_phase_inv ordp ordn Hordp Hordn M _ _ _ _ _ HW Hg I1 E2) as (D2 & I2 & _).
    destruct (cross_heads_total _ _ _ I2 Tf1) as [n1 ->]. cbn [rbind]. destruct (late_total (q_where q) PostJoin n1 Hl) as [n2 ->]. cbn [rbind].
    destruct (late_total (q_having q) PostAggregation (add_aggregation q n2) Th) as [n3 ->]. cbn [rbind]. destruct (add_ordering_total (q_order q) n3 To) as [n4 ->]. cbn [rbind]. eauto.
  Qed.
End Total.
