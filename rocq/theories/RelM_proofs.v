(** The translation of a query block means what the query means. *)
From Coq Require Import List Bool Arith Permutation Lia.
From Verif Require Import PyBase Collections_proofs Pred_model Pred_spec Pred_proofs QPred3_proofs DP_proofs Rel_model Rel_spec Rel_proofs RelP_proofs RelF_proofs.
Import ListNotations.

Lemma perm_concat {A} (l m : list (list A)) : Permutation l m -> Permutation (concat l) (concat m).
Proof.
  induction 1 as [|x l m H IH|x y l|l m k H1 IH1 H2 IH2]; cbn; [reflexivity|now apply Permutation_app_head| |etransitivity; eassumption].
  rewrite !app_assoc. apply Permutation_app_tail, Permutation_app_comm.
Qed.
Lemma flat_concat {A B} (f : A -> list B) l : flat_map f l = concat (map f l).
Proof. induction l as [|a l IH]; cbn; [reflexivity|now rewrite IH]. Qed.
Lemma aggs_of_nil e : aggs_of e = [] <-> has_agg e = false.
Proof.
  induction e as [v| |c|k l IH] using rx_ind2; try (cbn; tauto).
  assert (G : flat_map aggs_of l = [] <-> existsb has_agg l = false).
  { clear k. induction IH as [|x l Hx _ IHl]; cbn; [tauto|]. rewrite orb_false_iff, <- Hx, <- IHl. split; [apply app_eq_nil|]. intros [-> ->]. reflexivity. }
  destruct k; cbn; try exact G. split; discriminate.
Qed.
Lemma dedup_nil {A} `{EqD A} (l : list A) : dedup l = [] <-> l = [].
Proof.
  split; [|intros ->; reflexivity]. destruct l as [|x l]; [reflexivity|]. intros E. assert (Hx : In x (dedup (x :: l))) by (rewrite dedup_In; now left). rewrite E in Hx. destruct Hx.
Qed.

Section Meaning.
  Context (ordp : list rpred -> list rpred) (ordn : list rnode -> list rnode).
  Context (Hordp : forall l, Permutation (ordp l) l) (Hordn : forall l, Permutation (ordn l) l).
  Context {V : Type} {EV : EqD V} (null : V) (M : rsem V) (db : tbl -> list (tuple (V := V))).
  Context (HM : local_sem M).
  Notation holds := (holds M).
  Notation eval := (eval null M db).
  Notation singles := (map (fun r : row (V := V) => [r])).

  Lemma holds_and ps g : holds (PAnd ps) g = true <-> forall q, In q ps -> holds q g = true.
  Proof.
    unfold Rel_spec.holds. cbn [psem]. assert (E : all3 (map (psem M (gval M g)) ps) = T3 <-> forall q, In q ps -> psem M (gval M g) q = T3).
    { rewrite all3_T. split; [intros H' q Hq; apply H', in_map, Hq|intros H' x Hx; apply in_map_iff in Hx as (q & <- & Hq); auto]. }
    split; [intros H' q Hq; destruct (all3 _); try discriminate; now rewrite (proj1 E eq_refl q Hq)|].
    intros H'. replace (all3 (map (psem M (gval M g)) ps)) with T3; [reflexivity|]. symmetry. apply E. intros q Hq. specialize (H' q Hq). destruct (psem M (gval M g) q); congruence.
  Qed.
  Lemma holds_top p g : holds p g = true <-> forall q, In q (top p) -> holds q g = true.
  Proof. destruct p; cbn [top]; try (split; [intros H q [<-|[]]; exact H|intros H; apply H; now left]). apply holds_and. Qed.
  Lemma all_hold_iff A g : all_hold M A g = true <-> forall p, In p A -> holds p g = true.
  Proof. apply forallb_forall. Qed.

  Definition good_where (w : option rpred) : Prop :=
    match w with None => True | Some p => forall q, In q (top p) -> uses_columns q /\ phas_agg q = false end.

  Lemma base_phase_inv from cs w f0 f1 : inside from f0 -> (forall p, w = Some p -> here from p) -> good_where w -> base_phase ordp w (add_tables cs from f0) = Ok f1 ->
    exists D, Inv from f1 D /\
      forall g, (forall p, In p D -> holds p g = true) <-> match w with None => True | Some p => forall q, In q (top p) -> pred_phase q = Ok BaseTable -> holds q g = true end.
  Proof.
    intros Hf0 Hh Hg H. destruct (add_tables_inv from cs f0 Hf0) as [I B]. destruct w as [p|]; cbn [base_phase] in H.
    2:{ injection H as <-. exists []. split; [exact I|]. intros g. split; [trivial|intros _ q []]. }
    specialize (Hh p eq_refl). cbn [good_where] in Hg. destruct (filter_phase p BaseTable) as [o|] eqn:Ef; [|discriminate]. cbn [rbind] in H.
    destruct (filter_phase_parts p BaseTable o) as (l & Hl & Ho); [unfold BaseTable, PostJoin; lia|unfold BaseTable; lia|now apply (here_bound from)|exact Hg|exact Ef|].
    destruct (keep_phase_spec _ _ _ Hl) as [K _].
    destruct o as [q|].
    - destruct Ho as [_ Ho]. destruct (split_filter ordp q) as [d|] eqn:Es; [|discriminate]. cbn [rbind] in H.
      assert (Bq : all_bound (pcols xcols q)). { intros c Hc. apply (create_and_cols _ _ Ho) in Hc as (r & Hr & Hc). apply K in Hr as [Hr _]. apply (here_bound from p Hh). now apply (top_cols p r). }
      destruct (split_filter_spec ordp Hordp M q Bq d Es) as [S1 S2].
      destruct (apply_base_inv from d _ [] f1 I B (fun t r Hin c Hc => proj1 (S1 t r Hin c Hc)) H) as (D & I' & _ & Hd). exists D. split; [exact I'|].
      intros g. assert (E : (forall p0, In p0 D -> holds p0 g = true) <-> (forall t r, In (t, r) d -> holds r g = true)).
      { split; [intros H' t r Hr; apply H', Hd; right; eauto|intros H' r Hr; apply Hd in Hr as [[]|(t & Hr)]; eauto]. }
      rewrite E, <- S2, (create_and_holds M l q g Ho). split; [intros H' r Hr Hp; apply H', K; auto|intros H' r Hr; apply K in Hr as [Hr Hp]; auto].
    - injection H as <-. exists []. split; [exact I|]. subst l. intros g. split; [|intros _ q []]. intros _ q Hq Hp. exfalso. apply (proj2 (K q)). auto.
  Qed.
  Lemma join_phase_inv from w f1 D f2 : (forall p, w = Some p -> here from p) -> good_where w -> Inv from f1 D -> join_phase ordp ordn w f1 = Ok f2 ->
    exists D', Inv from f2 D' /\
      forall g, (forall p, In p D' -> holds p g = true) <->
        (forall p, In p D -> holds p g = true) /\ match w with None => True | Some p => forall q, In q (top p) -> pred_phase q = Ok Join -> holds q g = true end.
  Proof.
    intros Hh Hg I H. destruct w as [p|]; cbn [join_phase] in H.
    2:{ injection H as <-. exists D. split; [exact I|]. intros g. tauto. }
    specialize (Hh p eq_refl). cbn [good_where] in Hg. destruct (filter_phase p Join) as [o|] eqn:Ef; [|discriminate]. cbn [rbind] in H.
    destruct (filter_phase_parts p Join o) as (l & Hl & Ho); [unfold Join, PostJoin; lia|unfold Join; lia|now apply (here_bound from)|exact Hg|exact Ef|].
    destruct (keep_phase_spec _ _ _ Hl) as [K _].
    destruct o as [q|].
    - destruct Ho as [_ Ho]. destruct (split_join ordp q) as [ps|] eqn:Es; [|discriminate]. cbn [rbind] in H. unfold split_join in Es. destruct (is_join xcols q); [|discriminate].
      assert (Hps : forall r, In r ps <-> In r (top q)).
      { injection Es as <-. destruct q; cbn [top]; try (intros r; reflexivity). intros r. rewrite (ordp_In ordp Hordp). apply dedup_In. }
      assert (Hq : here from q). { intros c Hc. apply (create_and_cols _ _ Ho) in Hc as (r & Hr & Hc). apply K in Hr as [Hr _]. apply Hh. now apply (top_cols p r). }
      destruct (apply_joins_inv ordn Hordn from ps f1 D f2 I) as (D' & I' & Hd); [|exact H|].
      { intros r Hr. apply Hps in Hr. intros c Hc. apply Hq. now apply (top_cols q r). }
      exists D'. split; [exact I'|]. intros g.
      assert (E : (forall p0, In p0 D' -> holds p0 g = true) <-> (forall p0, In p0 D -> holds p0 g = true) /\ holds q g = true).
      { rewrite (holds_top q). split; [intros H'; split; intros r Hr; apply H', Hd; [now left|right; now apply Hps]|intros [H1 H2] r Hr; apply Hd in Hr as [Hr|Hr]; [auto|apply H2; now apply Hps]]. }
      rewrite E, (create_and_holds M l q g Ho). split; intros [H1 H2]; (split; [exact H1|]); [intros r Hr Hp; apply H2, K; auto|intros r Hr; apply K in Hr as [Hr Hp]; auto].
    - injection H as <-. exists D. split; [exact I|]. subst l. intros g. split; [|tauto]. intros H'. split; [exact H'|]. intros q Hq Hp. exfalso. apply (proj2 (K q)). auto.
  Qed.

  Lemma where_same q cs f0 f1 f2 n1 n2 : inside (q_from q) f0 -> NoDup (q_from q) -> (forall p, q_where q = Some p -> here (q_from q) p) -> good_where (q_where q) ->
    base_phase ordp (q_where q) (add_tables cs (q_from q) f0) = Ok f1 -> join_phase ordp ordn (q_where q) f1 = Ok f2 -> cross_heads ordn f2 = Ok n1 ->
    late_phase (q_where q) PostJoin n1 = Ok n2 ->
    same_bag (eval n2) (singles (sql_rows null M db q)).
  Proof.
    intros Hf0 Nf Hh Hg H1 H2 H3 H4. destruct (base_phase_inv _ _ _ _ _ Hf0 Hh Hg H1) as (D1 & I1 & E1). destruct (join_phase_inv _ _ _ _ _ Hh Hg I1 H2) as (D2 & I2 & E2).
    destruct (cross_heads_spec ordn Hordn _ _ _ _ Nf I2 H3) as (W & P & A).
    assert (S1 : same_bag (eval n1) (filter (all_hold M (applied n1)) (singles (combos null db (q_from q))))).
    { eapply same_trans; [apply wfn_eval; [exact HM|exact W]|]. eapply (same_filter null); [exact (all_hold_looks null M HM _)|]. apply combos_perm; [exact P|]. eapply Permutation_NoDup; [symmetry; exact P|exact Nf]. }
    assert (E12 : forall g, all_hold M (applied n1) g = true <->
       match q_where q with None => True | Some p => forall r, In r (top p) -> (pred_phase r = Ok BaseTable \/ pred_phase r = Ok Join) -> holds r g = true end).
    { intros g. rewrite all_hold_iff. assert (E : (forall p, In p (applied n1) -> holds p g = true) <-> (forall p, In p D2 -> holds p g = true)) by (split; intros H' r Hr; apply H', A, Hr).
      rewrite E, E2, E1. destruct (q_where q); [|tauto]. split; [intros [Ha Hb] r Hr [Hp|Hp]; auto|intros Ha; split; intros r Hr Hp; auto]. }
    unfold sql_rows. rewrite <- (filter_map_comm (fun r : row => [r]) (fun g => oholds M (q_where q) g)) by reflexivity. unfold late_phase in H4. destruct (q_where q) as [p|] eqn:Ew.
    2:{ injection H4 as <-. eapply same_trans; [exact S1|]. rewrite !filter_all_true; [apply same_refl|reflexivity|]. intros g. now apply E12. }
    destruct (filter_phase p PostJoin) as [o|] eqn:Ef; [|discriminate]. cbn [rbind] in H4. injection H4 as <-.
    specialize (Hh p eq_refl). cbn [good_where] in Hg.
    destruct (filter_phase_parts p PostJoin o) as (l & Hl & Ho); [lia|unfold PostJoin; lia|now apply (here_bound (q_from q))|exact Hg|exact Ef|].
    destruct (keep_phase_spec _ _ _ Hl) as [K KT].
    assert (Hall : forall g, holds p g = true <-> all_hold M (applied n1) g = true /\ forall r, In r l -> holds r g = true).
    { intros g. rewrite holds_top, E12. split; [intros H'; split; [intros r Hr _; auto|intros r Hr; apply K in Hr as [Hr _]; auto]|].
      intros [Ha Hb] r Hr. destruct (KT r Hr) as [x Hx]. destruct (pred_phase_facts r x Hx) as [F1 F2]. destruct (Nat.eq_dec (length (rptabs r)) 1) as [El|El].
      - apply Ha; [exact Hr|]. left. rewrite Hx. now rewrite (F1 El).
      - destruct (F2 El) as [F3 _]. specialize (F3 (proj2 (Hg r Hr))). destruct (is_bin r); subst x; [apply Ha; auto|]. apply Hb, K. auto. }
    assert (Hfin : forall F, (forall g, F g = holds p g) -> same_bag (filter F (singles (combos null db (q_from q)))) (filter (fun g => oholds M (Some p) g) (singles (combos null db (q_from q))))).
    { intros F HF. replace (filter F (singles (combos null db (q_from q)))) with (filter (fun g => oholds M (Some p) g) (singles (combos null db (q_from q)))); [apply same_refl|]. apply filter_ext. intros g. cbn. now rewrite HF. }
    destruct o as [r|].
    - unfold convert_predicate. cbn [Rel_spec.eval]. assert (Em : eval (with_map n1 (pneeds r)) = eval n1) by (unfold with_map; destruct (missing _ _); reflexivity). rewrite Em.
      eapply same_trans; [eapply (same_filter null); [exact (holds_looks null M HM _)|exact S1]|]. rewrite filter_filter. apply Hfin. intros g. apply eq_true_iff_eq. rewrite andb_true_iff, Hall, (create_and_holds M l r g (proj2 Ho)). tauto.
    - subst l. eapply same_trans; [exact S1|]. apply Hfin. intros g. apply eq_true_iff_eq. rewrite Hall. split; [intros H'; split; [exact H'|intros r []]|tauto].
  Qed.

  (** *** Groups *)
  Definition blind {X} (f : group (V := V) -> X) (cs : list col) : Prop := forall g h, Permutation (read cs g) (read cs h) -> f g = f h.
  Definition rows_same (X Y : list (row (V := V))) : Prop := forall cs, Permutation (read cs X) (read cs Y).
  Lemma read_concat cs (L : list (group (V := V))) : read cs (concat L) = concat (map (read cs) L).
  Proof. unfold read. rewrite concat_map. reflexivity. Qed.
  Lemma same_rows L L' : same_bag L L' -> rows_same (concat L) (concat L').
  Proof. intros H cs. rewrite !read_concat. apply perm_concat, H. Qed.
  Lemma concat_singles (l : list (row (V := V))) : concat (singles l) = l.
  Proof. induction l as [|x l IH]; cbn; [reflexivity|now rewrite IH]. Qed.
  Lemma read_sub cs ds (g h : group (V := V)) : incl cs ds -> Permutation (read ds g) (read ds h) -> Permutation (read cs g) (read cs h).
  Proof.
    intros Hi H. assert (E : forall g : group, read cs g = map (fun l => map (row_of null ds l) cs) (read ds g)).
    { intros k. unfold read. rewrite map_map. apply map_ext. intros r. apply map_ext_in. intros c Hc. symmetry. apply row_of_read. now apply Hi. }
    rewrite !E. now apply Permutation_map.
  Qed.
  Lemma read_filter cs ds (F : row (V := V) -> bool) (X : list row) : incl cs ds -> (forall r s, map r cs = map s cs -> F r = F s) ->
    read ds (filter F X) = filter (fun l => F (row_of null ds l)) (read ds X).
  Proof.
    intros Hi HF. unfold read. induction X as [|r X IH]; cbn; [reflexivity|].
    assert (E : F (row_of null ds (map r ds)) = F r) by (apply HF; now apply read_row_of). rewrite E. destruct (F r); cbn; now rewrite IH.
  Qed.
  Lemma key_local gc (r s : row) : map r (flat_map xcols gc) = map s (flat_map xcols gc) -> key M gc r = key M gc s.
  Proof.
    intros H. unfold key. apply map_ext_in. intros e He. apply HM. unfold read. cbn.
    assert (E : map r (xcols e) = map s (xcols e)); [|rewrite E; reflexivity].
    apply map_ext_in. intros c Hc. apply (ext_in_map H). apply in_flat_map. eauto.
  Qed.
  Lemma group_same {X} (f : group -> X) cs gc (R S : list row) : blind f cs -> rows_same R S -> Permutation (map f (group_by M gc R)) (map f (group_by M gc S)).
  Proof.
    intros Hf H. destruct gc as [|e gc]; [cbn; rewrite (Hf R S (H cs)); reflexivity|]. set (G := e :: gc).
    assert (EG : forall T, group_by M G T = map (fun k => filter (fun r => deqb (key M G r) k) T) (dedup (map (key M G) T))) by reflexivity. rewrite !EG, !map_map. clear EG.
    set (kc := flat_map xcols G).
    assert (Hk : Permutation (map (key M G) R) (map (key M G) S)).
    { assert (E : forall T : list row, map (key M G) T = map (fun l => key M G (row_of null kc l)) (read kc T)).
      { intros T. unfold read. rewrite map_map. apply map_ext. intros r. apply key_local. fold kc. symmetry. apply read_row_of, incl_refl. }
      rewrite !E. apply Permutation_map, H. }
    assert (Hd : Permutation (dedup (map (key M G) R)) (dedup (map (key M G) S))).
    { apply NoDup_Permutation; [apply dedup_NoDup..|]. intros k. rewrite !dedup_In. split; apply Permutation_in; [exact Hk|now symmetry]. }
    etransitivity; [apply Permutation_map, Hd|]. apply Permutation_refl'. apply map_ext. intros k. apply Hf.
    assert (HF : forall r s : row, map r kc = map s kc -> deqb (key M G r) k = deqb (key M G s) k) by (intros r s E; f_equal; now apply key_local).
    apply (read_sub cs (kc ++ cs)); [apply incl_appr, incl_refl|].
    rewrite !(read_filter kc (kc ++ cs)) by (try exact HF; apply incl_appl, incl_refl). apply perm_filter, H.
  Qed.
  Lemma filter_as_map {X} (f : group (V := V) -> X) (P : group -> bool) G : map f (filter P G) = concat (map (fun g => if P g then [f g] else []) G).
  Proof. induction G as [|g G IH]; cbn; [reflexivity|]. destruct (P g); cbn; now rewrite IH. Qed.
  Lemma gval_blind e : blind (fun g => gval M g e) (xcols e).
  Proof. intros g h H. now apply HM. Qed.
  Lemma list_blind es : blind (fun g => map (gval M g) es) (flat_map xcols es).
  Proof.
    intros g h H. apply map_ext_in. intros e He. apply HM. apply (read_sub _ (flat_map xcols es)); [|exact H]. intros c Hc. apply in_flat_map. eauto.
  Qed.
  Lemma holds_blind p : blind (holds p) (pcols xcols p).
  Proof.
    intros g h H. unfold Rel_spec.holds. rewrite (psem_ext M (gval M g) (gval M h) p); [reflexivity|]. intros e He. apply HM. apply (read_sub _ (pcols xcols p)); [|exact H].
    rewrite pcols_pexprs. intros c Hc. apply in_flat_map. eauto.
  Qed.
  Lemma oholds_blind o : blind (oholds M o) (opt_pcols o).
  Proof. destruct o; [apply holds_blind|]. intros g h _. reflexivity. Qed.

  Lemma with_map_eval n es : eval (with_map n es) = eval n.
  Proof. unfold with_map. destruct (missing _ _); reflexivity. Qed.
  Lemma add_expression_eval e n m : add_expression e n = Ok m -> eval m = eval n.
  Proof.
    unfold add_expression. destruct (mem e (provided n)); [intros H; injection H as <-; auto|].
    destruct e as [v| |c|k l]; [intros H; injection H as <-; auto|discriminate|intros H; injection H as <-; auto|].
    destruct k; try discriminate; intros H; injection H as <-; apply with_map_eval.
  Qed.
  Lemma add_keys_eval ks : forall n m, add_keys ks n = Ok m -> eval m = eval n.
  Proof.
    induction ks as [|k ks IH]; intros n m H; cbn [add_keys] in H; [now injection H as <-|]. destruct (add_expression (fst k) n) as [n'|] eqn:E; [|discriminate]. cbn [rbind] in H.
    rewrite (IH _ _ H). now apply add_expression_eval in E.
  Qed.
  Lemma add_ordering_eval ks n m : add_ordering ks n = Ok m -> eval m = eval n.
  Proof.
    destruct ks as [|k ks]; cbn [add_ordering]; [intros H; now injection H as <-|]. unfold rmap. destruct (add_keys (k :: ks) n) as [m'|] eqn:E; [|discriminate]. cbn [rbind]. intros H. injection H as <-.
    cbn. now apply add_keys_eval in E.
  Qed.

  Definition good_having (h : option rpred) : Prop :=
    match h with
    | None => True
    | Some p => length (rptabs p) <> 1 /\ phas_agg p = true /\ forall q, In q (top p) -> length (rptabs q) <> 1 /\ phas_agg q = true
    end.
  Lemma having_eval h n m : good_having h -> late_phase h PostAggregation n = Ok m -> eval m = filter (oholds M h) (eval n).
  Proof.
    destruct h as [p|]; cbn [late_phase good_having].
    2:{ intros _ H. injection H as <-. symmetry. now apply filter_all_true. }
    intros (Hl & Ha & Ht) H. unfold filter_phase in H. destruct (pred_phase p) as [x|] eqn:Ep; [|discriminate]. cbn [rbind] in H.
    rewrite (proj2 (proj2 (pred_phase_facts p x Ep) Hl) Ha) in *. change (PostAggregation <? PostAggregation) with false in H. cbn [Nat.eqb] in H.
    assert (D : forall q, (forall g, holds q g = holds p g) -> eval (convert_predicate q n) = filter (oholds M (Some p)) (eval n)).
    { intros q Hq. unfold convert_predicate. cbn. rewrite with_map_eval. apply filter_ext. intros g. apply Hq. }
    destruct p as [op a b|a lo hi|a vs|op a|p|ps|ps]; try (cbn [rbind] in H; injection H as <-; now apply D).
    cbn [top] in Ht. destruct (keep_phase ps PostAggregation) as [l|] eqn:El; [|discriminate]. cbn [rbind] in H.
    destruct (keep_phase_spec _ _ _ El) as [K KT].
    assert (Hall : forall q, In q l <-> In q ps).
    { intros q. rewrite K. split; [tauto|]. intros Hq. split; [exact Hq|]. destruct (KT q Hq) as [y Hy]. destruct (Ht q Hq) as [T1 T2]. now rewrite (proj2 (proj2 (pred_phase_facts q y Hy) T1) T2) in Hy. }
    destruct l as [|q0 l'].
    - exfalso. cbn in Ha. apply existsb_exists in Ha as (q & Hq & _). now apply Hall in Hq.
    - destruct (create_and (q0 :: l')) as [r|] eqn:Ec; [|discriminate]. unfold rmap in H. cbn [rbind] in H. injection H as <-. apply D. intros g. apply eq_true_iff_eq.
      rewrite (create_and_holds M _ _ g Ec), holds_and. split; intros H' q Hq; apply H', Hall, Hq.
  Qed.

  Lemma agg_existsb es : flat_map aggs_of es = [] <-> existsb has_agg es = false.
  Proof.
    induction es as [|e es IH]; cbn; [tauto|]. rewrite orb_false_iff, <- aggs_of_nil, <- IH. split; [apply app_eq_nil|]. intros [-> ->]. reflexivity.
  Qed.
  Lemma query_aggs_nil q : query_aggs q = [] <->
    match q_select q with Some ts => existsb has_agg ts | None => false end || match q_having q with Some h => phas_agg h | None => false end = false.
  Proof.
    unfold query_aggs. rewrite dedup_nil, orb_false_iff.
    assert (A : forall a b : list rx, a ++ b = [] <-> a = [] /\ b = []) by (intros a b; split; [apply app_eq_nil|intros [-> ->]; reflexivity]). rewrite A.
    destruct (q_select q), (q_having q); rewrite ?agg_existsb, ?phas_agg_pexprs, ?agg_existsb; tauto.
  Qed.
  Lemma aggregation_eval q n : eval (add_aggregation q n) = if grouped q then group_by M (q_group q) (concat (eval n)) else eval n.
  Proof.
    unfold add_aggregation, grouped. destruct (q_group q) as [|e gc].
    - cbn [orb]. destruct (query_aggs q) as [|a ag] eqn:E; [apply query_aggs_nil in E; now rewrite E|].
      destruct (_ || _) eqn:Eo; [|apply query_aggs_nil in Eo; congruence]. cbn. now rewrite with_map_eval.
    - cbn [orb]. cbn. now rewrite with_map_eval.
  Qed.

  (** The groups of the translated query before the final projection. *)
  Lemma groups_same q m0 m1 m2 {X} (f : group -> X) ds : blind f ds -> same_bag (eval m0) (singles (sql_rows null M db q)) -> good_having (q_having q) ->
    late_phase (q_having q) PostAggregation (add_aggregation q m0) = Ok m1 -> add_ordering (q_order q) m1 = Ok m2 ->
    Permutation (map f (eval m2)) (map f (sql_groups null M db q)).
  Proof.
    intros Hf HS Hh H1 H2. rewrite (add_ordering_eval _ _ _ H2), (having_eval _ _ _ Hh H1), aggregation_eval. unfold sql_groups.
    rewrite !filter_as_map. apply perm_concat. set (F := fun g => if oholds M (q_having q) g then [f g] else []).
    assert (HF : blind F (opt_pcols (q_having q) ++ ds)).
    { intros g h Hgh. unfold F. rewrite (oholds_blind (q_having q) g h), (Hf g h); [reflexivity| |]; (eapply read_sub; [|exact Hgh]); [apply incl_appr, incl_refl|apply incl_appl, incl_refl]. }
    destruct (grouped q).
    - apply (group_same F _ (q_group q) _ _ HF). rewrite <- (concat_singles (sql_rows null M db q)). now apply same_rows.
    - apply (same_map null F (opt_pcols (q_having q) ++ ds)); [|exact HS]. intros g h E. apply HF. rewrite E. reflexivity.
  Qed.
  Lemma groups_star q m0 m1 m2 : grouped q = false -> same_bag (eval m0) (singles (sql_rows null M db q)) -> good_having (q_having q) ->
    late_phase (q_having q) PostAggregation (add_aggregation q m0) = Ok m1 -> add_ordering (q_order q) m1 = Ok m2 ->
    same_bag (eval m2) (sql_groups null M db q).
  Proof.
    intros Hg HS Hh H1 H2. rewrite (add_ordering_eval _ _ _ H2), (having_eval _ _ _ Hh H1), aggregation_eval, Hg. unfold sql_groups. rewrite Hg.
    apply (same_filter null _ (opt_pcols (q_having q))); [|exact HS]. intros g h E. apply oholds_blind. rewrite E. reflexivity.
  Qed.
  Lemma gen_same q st0 n st : inside (q_from q) (st_frags st0) -> NoDup (q_from q) -> bound_in (q_from q) (opt_pcols (q_where q)) -> good_where (q_where q) -> good_having (q_having q) ->
    gen_select ordp ordn q st0 = Ok (n, st) ->
    inside (q_from q) (st_frags st) /\ exists m, n = final_projection q m /\
      (forall X (f : group -> X) ds, blind f ds -> Permutation (map f (eval m)) (map f (sql_groups null M db q))) /\
      (grouped q = false -> same_bag (eval m) (sql_groups null M db q)).
  Proof.
    intros Hf0 Nf B Hw Hh H. unfold gen_select in H. set (cs := st_cols st0) in *. set (f0 := st_frags st0) in *.
    destruct (base_phase ordp (q_where q) (add_tables cs (q_from q) f0)) as [f1|] eqn:E1; [|discriminate]. cbn [rbind] in H.
    destruct (join_phase ordp ordn (q_where q) f1) as [f2|] eqn:E2; [|discriminate]. cbn [rbind] in H.
    destruct (cross_heads ordn f2) as [n1|] eqn:E3; [|discriminate]. cbn [rbind] in H.
    destruct (late_phase (q_where q) PostJoin n1) as [n2|] eqn:E4; [|discriminate]. cbn [rbind] in H.
    destruct (late_phase (q_having q) PostAggregation (add_aggregation q n2)) as [n3|] eqn:E5; [|discriminate]. cbn [rbind] in H.
    destruct (add_ordering (q_order q) n3) as [n4|] eqn:E6; [|discriminate]. cbn [rbind] in H. injection H as <- <-.
    assert (HW : forall p, q_where q = Some p -> here (q_from q) p) by (intros p Ep c Hc; apply B; rewrite Ep; exact Hc).
    split.
    { destruct (base_phase_inv _ _ _ _ _ Hf0 HW Hw E1) as (D1 & I1 & _). destruct (join_phase_inv _ _ _ _ _ HW Hw I1 E2) as (D2 & I2 & _). cbn [st_frags]. split; [apply (i_wf _ _ _ I2)|].
      intros t m Hm. apply (i_dom _ _ _ I2). eauto. }
    assert (S : same_bag (eval n2) (singles (sql_rows null M db q))) by now apply (where_same q cs f0 f1 f2 n1 n2).
    exists n4. split; [reflexivity|]. split; [intros X f ds Hf; now apply (groups_same q n2 n3 n4 f ds Hf)|]. intros Hg. now apply (groups_star q n2 n3 n4).
  Qed.
End Meaning.
