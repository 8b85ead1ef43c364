(** Lemmas about the PostgreSQL-style enumerator. *)
From Coq Require Import List Bool Arith QArith Lia Lqa Sorting.Sorted.
From Verif Require Import PyBase FSet DP_model Path_model Path_spec Path_proofs Path_props DP_spec DP_proofs QPred_spec PgDP_model PgDP_spec.
Import ListNotations.
Local Open Scope nat_scope.

Lemma rmapM_ok {A B} (f : A -> res B) l l' : rmapM f l = Ok l' -> (forall x, In x l -> exists y, f x = Ok y /\ In y l') /\ (forall y, In y l' -> exists x, In x l /\ f x = Ok y) /\ length l' = length l.
Proof.
  revert l'. induction l as [|a r IH]; intros l'; cbn; [intros [= <-]; split; [intros x []|split; [intros y []|reflexivity]]|].
  destruct (f a) as [b|] eqn:E; cbn; [|discriminate]. destruct (rmapM f r) as [bs|]; cbn; [|discriminate]. intros [= <-].
  destruct (IH bs eq_refl) as (H1 & H2 & H3). split; [|split; [|cbn; now rewrite H3]].
  - intros x [<-|Hx]; [exists b; split; [assumption|now left]|]. destruct (H1 x Hx) as (y & Hy & Iy). exists y. split; [assumption|now right].
  - intros y [<-|Hy]; [exists a; split; [now left|assumption]|]. destruct (H2 y Hy) as (x & Hx & Ex). exists x. split; [now right|assumption].
Qed.
Lemma rmapM_total {A B} (f : A -> res B) l : (forall x, In x l -> exists y, f x = Ok y) -> exists l', rmapM f l = Ok l'.
Proof.
  induction l as [|a r IH]; intros H; cbn; [eauto|]. destruct (H a) as (b & ->); [now left|]. destruct IH as (bs & ->); [intros x Hx; apply H; now right|]. cbn. eauto.
Qed.
Lemma rfold_app {A B} (f : A -> B -> res A) l m a : rfold f (l ++ m) a = rbind (rfold f l a) (rfold f m).
Proof. revert a. induction l as [|b r IH]; intros a; cbn; [reflexivity|]. destruct (f a b); cbn; [apply IH|reflexivity]. Qed.

Section Pruning.
  Context {N P I : Type}.
  Notation pp := (pp N P I).
  Definition tp (p : pp) : path := mkPath 0 (fin p) (srt p).
  Lemma gadd_loop_map (new : pp) (cur : list pp) : add_loop (tp new) (map tp cur) = (map tp (fst (gadd_loop new cur)), snd (gadd_loop new cur)).
  Proof.
    induction cur as [|old r IH]; [reflexivity|]. cbn [map add_loop gadd_loop]. cbn [tp p_sort].
    destruct (sorting_subsumes (srt new) (srt old)); cbn [negb].
    - change (new_dominates (tp new) (tp old)) with (dominates new old). destruct (dominates new old); [exact IH|reflexivity].
    - rewrite IH. destruct (gadd_loop new r) as [x k]. reflexivity.
  Qed.
  Lemma gadd_map (l : list pp) (p : pp) : map tp (gadd l p) = add_list (map tp l) (tp p).
  Proof.
    destruct l as [|a r]; [reflexivity|]. unfold gadd, add_list. cbn [map]. change (tp a :: map tp r) with (map tp (a :: r)).
    rewrite gadd_loop_map. destruct (gadd_loop p (a :: r)) as [x k]. cbn [fst snd]. destruct k; [now rewrite map_app|reflexivity].
  Qed.
  Lemma gadd_loop_In (new : pp) (cur : list pp) (q : pp) : In q (fst (gadd_loop new cur)) -> In q cur.
  Proof.
    induction cur as [|old r IH]; cbn; [tauto|]. destruct (negb _).
    - destruct (gadd_loop new r) as [x k]. cbn in *. tauto.
    - destruct (dominates new old); [tauto|cbn; tauto].
  Qed.
  Lemma gadd_In (l : list pp) (p q : pp) : In q (gadd l p) -> In q l \/ q = p.
  Proof.
    destruct l as [|a r]; [cbn; intuition|]. unfold gadd. assert (H := gadd_loop_In p (a :: r) q). destruct (gadd_loop p (a :: r)) as [x k]. cbn [fst] in H.
    destruct k; [rewrite in_app_iff; cbn; intuition|tauto].
  Qed.
  Definition offers (l : list pp) (ps : list pp) : list pp := fold_left offer ps l.
  Definition isInf (p : pp) : bool := match i_cost (dat p) with Inf => true | _ => false end.
  Lemma offers_filter (ps l : list pp) : offers l ps = fold_left gadd (filter (fun p => negb (isInf p)) ps) l.
  Proof.
    revert l. induction ps as [|p r IH]; intros l; [reflexivity|]. unfold offers in *. cbn [fold_left filter]. rewrite IH. unfold offer, isInf.
    destruct (i_cost (dat p)); reflexivity.
  Qed.
  Lemma offers_In (ps l : list pp) (q : pp) : In q (offers l ps) -> In q l \/ (In q ps /\ isInf q = false).
  Proof.
    rewrite offers_filter. revert l. induction ps as [|p r IH]; intros l; cbn [filter fold_left]; [tauto|].
    destruct (isInf p) eqn:E; cbn [negb]; intros H.
    - apply IH in H. cbn. tauto.
    - cbn [fold_left] in H. apply IH in H. destruct H as [H|H]; [|cbn; tauto]. apply gadd_In in H. destruct H as [H| ->]; [tauto|]. right. cbn. auto.
  Qed.
  Lemma run_map (ps : list pp) : run empty_rel (map (fun p => EAdd (tp p) false) ps) = Ok (mkRel (map tp (fold_left gadd ps [])) [] None None).
  Proof.
    assert (G : forall l, run (mkRel (map tp l) [] None None) (map (fun p => EAdd (tp p) false) ps) = Ok (mkRel (map tp (fold_left gadd ps l)) [] None None)).
    { induction ps as [|p r IH]; intros l; [reflexivity|]. cbn [map run step rbind fold_left]. unfold Path_model.add_path. cbn [r_paths r_partial r_cheapest r_cheapest_partial].
      rewrite <- gadd_map. apply IH. }
    apply (G []).
  Qed.
  (** Of everything that has been offered, something that is almost as cheap is kept. *)
  Lemma cover (f : Q) (ps : list pp) p : (1 <= f)%Q ->
    (forall q, In q ps -> (0 <= fin q)%Q /\ (srt q = [] \/ exists k, srt q = [k] /\ k_members k <> [])) ->
    ((forall q, In q ps -> srt q = []) \/ (fuzz <= f)%Q) ->
    In p ps -> isInf p = false -> exists q, In q (offers [] ps) /\ (fin q <= f * fin p)%Q.
  Proof.
    intros F1 Hp Hf Ip Fp. rewrite offers_filter. set (ps' := filter (fun x => negb (isInf x)) ps) in *.
    assert (Ips : forall q, In q ps' -> In q ps) by (intros q H; apply filter_In in H; tauto).
    assert (O : offered false (map (fun x => EAdd (tp x) false) ps') = map tp ps').
    { clear. unfold offered. induction ps' as [|a r IH]; [reflexivity|]. cbn. f_equal. exact IH. }
    assert (E := run_map ps').
    destruct (C35_cost_single_key_partial _ _ false E) with (p := tp p) as (q0 & Hq & Hc).
    - rewrite O. apply Forall_forall. intros x Hx. apply in_map_iff in Hx. destruct Hx as (q & <- & Iq). destruct (Hp q (Ips q Iq)) as [H0 Hs].
      split; [split; [|exact H0]|]; cbn [tp p_sort]; destruct Hs as [->|(k & -> & Hk)]; [constructor|repeat constructor; exact Hk|cbn; lia|cbn; lia].
    - rewrite O. apply in_map. apply filter_In. split; [assumption|]. now rewrite Fp.
    - cbn [kept r_paths] in Hq. apply in_map_iff in Hq. destruct Hq as (q & <- & Iq). exists q. split; [exact Iq|]. cbn [tp p_cost p_sort] in Hc.
      assert (P0 : (0 <= fin p)%Q) by (apply Hp; assumption).
      destruct (srt q) as [|k s] eqn:Es; [nra|]. destruct Hf as [Hf|Hf].
      + exfalso. assert (Iq' : In q ps). { assert (X : In q (offers [] ps)) by (rewrite offers_filter; exact Iq). apply offers_In in X. destruct X as [[]|X]; tauto. }
        rewrite (Hf q Iq') in Es. discriminate.
      + nra.
  Qed.
  Lemma ginsert_In (p : pp) (l : list pp) (q : pp) : In q (ginsert p l) <-> q = p \/ In q l.
  Proof. induction l as [|a r IH]; cbn; [intuition|]. destruct (Qle_bool _ _); cbn; [intuition|]. rewrite IH. intuition. Qed.
  Lemma gsort_In (l : list pp) (q : pp) : In q (gsort l) <-> In q l.
  Proof. induction l as [|a r IH]; cbn; [tauto|]. fold (gsort r). rewrite ginsert_In, IH. intuition. Qed.
  Lemma gsort_min (l : list pp) (p : pp) (ps : list pp) : gsort l = p :: ps -> In p l /\ forall q, In q l -> (fin p <= fin q)%Q.
  Proof.
    revert p ps. induction l as [|x r IH]; intros p ps E; [discriminate|]. split; [apply gsort_In; rewrite E; now left|]. cbn in E. fold (gsort r) in E.
    destruct (gsort r) as [|a s] eqn:G.
    - cbn in E. injection E as <- <-. intros q [<-|Hq]; [lra|]. apply gsort_In in Hq. rewrite G in Hq. destruct Hq.
    - destruct (IH a s eq_refl) as [_ H]. cbn in E. destruct (Qle_bool (fin x) (fin a)) eqn:C.
      + injection E as <- _. apply Qle_bool_iff in C. intros q [<-|Hq]; [lra|]. specialize (H q Hq). lra.
      + injection E as <- _. apply Qle_bool_false in C. intros q [<-|Hq]; [lra|]. auto.
  Qed.
  Lemma gsort_nil (l : list pp) : gsort l = [] -> l = [].
  Proof. destruct l as [|a r]; [reflexivity|]. intros E. assert (H : In a (gsort (a :: r))) by (apply gsort_In; now left). rewrite E in H. destruct H. Qed.
End Pruning.

Lemma within_fin k x b : within k x (Fin b) -> exists a, x = Fin a /\ (a <= k * b)%Q.
Proof. exact (fun H => H). Qed.

Section Search.
  Context {N P I : Type}.
  Notation pp := (pp N P I).
  Notation ri := (ri N P I).
  Context (card : list nat -> N) (cost : pp -> option Q).
  Context (filters_for : nat -> option P) (columns_of : nat -> list nat) (indexes_on : nat -> list I).
  Context (joins_between : list nat -> list nat -> option P) (conjuncts : P -> list P) (partners : P -> list (nat * nat)) (ktab : nat -> nat).
  Context (scan_ops : list dscan) (join_ops : list djoin) (enable_memo enable_mat : bool) (max_workers : nat).
  Context (pages : nat + I -> nat) (rlog3 : nat -> nat).
  Notation workers := (fun x w => estimate_workers max_workers pages rlog3 x = Ok w).
  Notation scan_way := (@scan_way N P I card cost filters_for columns_of indexes_on scan_ops workers).
  Notation inner_way := (@inner_way N P I cost joins_between partners ktab enable_memo enable_mat).
  Notation joined := (@joined N P I card cost joins_between).
  Notation gathered := (@gathered N P I cost).
  Notation priced := (@priced N P I cost).
  Notation full := (@full N P I card cost filters_for columns_of indexes_on joins_between partners ktab scan_ops join_ops enable_memo enable_mat workers).
  Notation part := (@part N P I card cost filters_for columns_of indexes_on joins_between partners ktab scan_ops join_ops enable_memo enable_mat workers).
  Notation monotone_at := (@monotone_at N P I card cost joins_between).
  Notation finish := (@finish N P I cost).
  Notation new_rel := (@new_rel N P I card).
  Notation base_rel := (@base_rel N P I card cost filters_for columns_of indexes_on scan_ops max_workers pages rlog3).
  Notation join_offers := (@join_offers N P I cost joins_between conjuncts partners ktab join_ops enable_memo enable_mat).
  Notation join_pair := (@join_pair N P I card cost joins_between conjuncts partners ktab join_ops enable_memo enable_mat).
  Notation search_level := (@search_level N P I card cost joins_between conjuncts partners ktab join_ops enable_memo enable_mat).
  Notation join_search := (@join_search N P I card cost filters_for columns_of indexes_on joins_between conjuncts partners ktab scan_ops join_ops enable_memo enable_mat max_workers pages rlog3).
  Notation generate := (@generate N P I card cost filters_for columns_of indexes_on joins_between conjuncts partners ktab scan_ops join_ops enable_memo enable_mat max_workers pages rlog3).

  Context (R : nat -> nat -> Prop) (Rsym : forall x y, R x y -> R y x).
  Context (Hjb : forall A B, (forall x, In x A -> ~ In x B) -> (joins_between A B <> None <-> exists a b, In a A /\ In b B /\ R a b)).

  (** ** Plans *)
  Lemma leaves_set (p : pp) d : leaves (set_dat p d) = leaves p.
  Proof. destruct p; reflexivity. Qed.
  Lemma dat_set (p : pp) d : dat (set_dat p d) = d.
  Proof. destruct p; reflexivity. Qed.
  Lemma leaves_priced p : leaves (priced p) = leaves p.
  Proof. apply leaves_set. Qed.
  Lemma tabs_priced p : tabs_of (priced p) = tabs_of p.
  Proof. unfold tabs_of. now rewrite leaves_priced. Qed.
  Lemma leaves_par (p : pp) w : leaves (parallelize p w) = leaves p.
  Proof. apply leaves_set. Qed.
  Lemma cost_priced p : i_cost (dat (priced p)) = match cost p with Some q => Fin q | None => Inf end.
  Proof. unfold priced, PgDP_spec.priced, with_cost. now rewrite dat_set. Qed.
  Lemma sort_priced p : srt (priced p) = srt p.
  Proof. unfold srt, priced, PgDP_spec.priced, with_cost. now rewrite dat_set. Qed.
  Lemma sort_par (p : pp) w : srt (parallelize p w) = srt p.
  Proof. unfold srt, parallelize. now rewrite dat_set. Qed.
  Lemma finite_priced p : isInf (priced p) = false -> finite (priced p).
  Proof. unfold isInf, finite. rewrite cost_priced. destruct (cost p); [eauto|discriminate]. Qed.
  Lemma finite_inf (p : pp) : finite p -> isInf p = false.
  Proof. intros [q E]. unfold isInf. now rewrite E. Qed.
  Lemma finite_fin (p : pp) : finite p -> i_cost (dat p) = Fin (fin p).
  Proof. intros [q E]. unfold fin. now rewrite E. Qed.

  Lemma inner_leaves op m outer i i' : inner_way op m outer i i' -> leaves i' = leaves i.
  Proof. intros [ | |]; [reflexivity|rewrite leaves_priced; reflexivity|rewrite leaves_priced; reflexivity]. Qed.
  Lemma leaves_joined op o i : leaves (joined op o i) = leaves o ++ leaves i.
  Proof. unfold PgDP_spec.joined. now rewrite leaves_priced. Qed.
  Lemma scan_leaves t w p : scan_way t w p -> leaves p = [t].
  Proof. intros []; rewrite leaves_priced; reflexivity. Qed.

  Lemma plan_shape : (forall p, full R p -> hangs_together R (leaves p) /\ NoDup (leaves p) /\ leaves p <> [])
                  /\ (forall p, part R p -> hangs_together R (leaves p) /\ NoDup (leaves p) /\ leaves p <> []).
  Proof.
    assert (J : forall o i, hangs_together R (leaves o) /\ NoDup (leaves o) /\ leaves o <> [] -> hangs_together R (leaves i) /\ NoDup (leaves i) /\ leaves i <> [] ->
      apart (o : pp) (i : pp) -> linked R o i -> hangs_together R (leaves o ++ leaves i) /\ NoDup (leaves o ++ leaves i) /\ leaves o ++ leaves i <> []).
    { intros o i (H1 & H2 & H3) (H4 & H5 & H6) A (a & b & Ha & Hb & Hr). split; [apply (hang_join R Rsym (leaves o) (leaves i) a b); assumption|]. split.
      - clear - H2 H5 A. unfold apart in A. revert A. induction (leaves o) as [|x l IH]; intros A; [assumption|]. cbn. inversion H2; subst. constructor.
        + rewrite in_app_iff. intros [X|X]; [tauto|]. exact (A x (or_introl eq_refl) X).
        + apply IH; [assumption|]. intros y Hy. apply A. now right.
      - destruct (leaves o); [congruence|discriminate]. }
    apply full_part_ind.
    - intros t w p H _. rewrite (scan_leaves t w p H). split; [apply hang_single|]. split; [constructor; [intros []|constructor]|discriminate].
    - intros p w _ IH _ _. unfold PgDP_spec.gathered. rewrite leaves_priced, leaves_par. exact IH.
    - intros op o i i' _ IHo _ IHi W _ _ A L _. rewrite leaves_joined, (inner_leaves _ _ _ _ _ W). now apply J.
    - intros t w p H _ _. rewrite (scan_leaves t w p H). split; [apply hang_single|]. split; [constructor; [intros []|constructor]|discriminate].
    - intros op o i i' _ IHo _ IHi W _ _ A L _. rewrite leaves_joined, (inner_leaves _ _ _ _ _ W). now apply J.
  Qed.
  Lemma full_finite p : full R p -> finite p.
  Proof. intros [ | |]; assumption. Qed.
  Lemma part_finite p : part R p -> finite p.
  Proof. intros [ |]; assumption. Qed.

  (** ** Histories *)
  Definition fulls (h : list (pp * bool)) : list pp := map fst (filter (fun e => negb (snd e)) h).
  Definition parts (h : list (pp * bool)) : list pp := map fst (filter snd h).
  Lemma fulls_In h p : In p (fulls h) <-> In (p, false) h.
  Proof.
    unfold fulls. rewrite in_map_iff. split.
    - intros ([q b] & <- & H). apply filter_In in H. destruct H as [H E]. destruct b; [discriminate|exact H].
    - intros H. exists (p, false). split; [reflexivity|]. apply filter_In. auto.
  Qed.
  Lemma parts_In h p : In p (parts h) <-> In (p, true) h.
  Proof.
    unfold parts. rewrite in_map_iff. split.
    - intros ([q b] & <- & H). apply filter_In in H. destruct H as [H E]. destruct b; [exact H|discriminate].
    - intros H. exists (p, true). split; [reflexivity|]. apply filter_In. auto.
  Qed.
  Lemma add_paths_eq h (r : ri) : add_paths r h = mkri (ri_set r) (ri_card r) (offers (ri_paths r) (fulls h)) (offers (ri_partial r) (parts h)) (ri_best r) (ri_best_partial r).
  Proof.
    revert r. induction h as [|[p b] h IH]; intros r; [destruct r; reflexivity|]. unfold add_paths in *. cbn [fold_left]. rewrite IH. unfold add_path. cbn [fst snd].
    destruct b; reflexivity.
  Qed.
  Lemma add_paths_app h h' (r : ri) : add_paths (add_paths r h) h' = add_paths r (h ++ h').
  Proof. unfold add_paths. now rewrite fold_left_app. Qed.
  Lemma offers_app (l ps qs : list pp) : offers (offers l ps) qs = offers l (ps ++ qs).
  Proof. unfold offers. now rewrite fold_left_app. Qed.

  Definition best_of (l : list pp) (b : pp) : Prop := In b l /\ forall q, In q l -> (fin b <= fin q)%Q.
  Lemma finish_inv S h r' : finish (add_paths (new_rel S) h) = Ok r' ->
    exists gs, rmapM (gather cost) (offers [] (parts h)) = Ok gs /\ ri_set r' = S /\ ri_card r' = card S
      /\ (forall q, In q (ri_paths r') <-> In q (offers [] (fulls h ++ gs)))
      /\ (exists b, ri_best r' = Some b /\ best_of (offers [] (fulls h ++ gs)) b)
      /\ match ri_best_partial r' with None => offers [] (parts h) = [] | Some bp => best_of (offers [] (parts h)) bp end.
  Proof.
    unfold PgDP_model.finish. rewrite add_paths_eq. cbn [ri_partial ri_paths ri_set ri_card ri_best ri_best_partial PgDP_model.new_rel].
    destruct (rmapM (gather cost) (offers [] (parts h))) as [gs|]; cbn [rbind]; [|discriminate]. rewrite add_paths_eq. cbn [ri_partial ri_paths ri_set ri_card ri_best ri_best_partial].
    assert (F : fulls (map (fun g => (g, false)) gs) = gs) by (unfold fulls; clear; induction gs as [|g r IH]; cbn; [reflexivity|now f_equal]).
    assert (G : parts (map (fun g => (g, false)) gs) = []) by (unfold parts; clear; induction gs as [|g r IH]; cbn; [reflexivity|assumption]).
    rewrite F, G, offers_app. change (offers (offers [] (parts h)) []) with (offers [] (parts h)). unfold set_cheapest.
    cbn [ri_partial ri_paths ri_set ri_card ri_best ri_best_partial].
    destruct (gsort (offers [] (fulls h ++ gs))) as [|p ps] eqn:E1; [discriminate|]. intros H. exists gs. split; [reflexivity|].
    assert (B1 : best_of (offers [] (fulls h ++ gs)) p) by (apply (gsort_min _ p ps E1)).
    assert (Q1 : forall q, In q (p :: ps) <-> In q (offers [] (fulls h ++ gs))) by (intros q; rewrite <- E1; apply gsort_In).
    destruct (gsort (offers [] (parts h))) as [|q qs] eqn:E2; injection H as <-; cbn [ri_partial ri_paths ri_set ri_card ri_best ri_best_partial];
      (split; [reflexivity|split; [reflexivity|split; [exact Q1|split; [exists p; auto|]]]]).
    - now apply gsort_nil.
    - apply (gsort_min _ q qs E2).
  Qed.

  Definition is_priced (p : pp) : Prop := exists p0, p = priced p0.
  Definition sound (S : list nat) (h : list (pp * bool)) : Prop :=
    forall p b, In (p, b) h -> is_priced p /\ (isInf p = false -> tabs_of p = S /\ if b then part R p else full R p).
  Definition done (r : ri) : Prop :=
    ri_card r = card (ri_set r) /\ (exists b, ri_best r = Some b /\ full R b /\ tabs_of b = ri_set r)
    /\ (forall bp, ri_best_partial r = Some bp -> part R bp /\ tabs_of bp = ri_set r)
    /\ (forall p, In p (ri_paths r) -> full R p /\ tabs_of p = ri_set r).
  Lemma parts_sound S h p : sound S h -> In p (offers [] (parts h)) -> part R p /\ tabs_of p = S.
  Proof.
    intros Hs H. apply offers_In in H. destruct H as [[]|[H F]]. apply parts_In in H. destruct (Hs p true H) as [_ X]. specialize (X F). tauto.
  Qed.
  Lemma gathers_sound S h gs g : sound S h -> rmapM (gather cost) (offers [] (parts h)) = Ok gs -> In g gs -> exists p w, In p (offers [] (parts h)) /\ i_ew (dat p) = Some w /\ g = gathered p w.
  Proof.
    intros Hs E Hg. destruct (proj1 (proj2 (rmapM_ok _ _ _ E)) g Hg) as (p & Hp & Ep). exists p. unfold gather in Ep.
    destruct (i_ew (dat p)) as [w|] eqn:W; [|discriminate]. injection Ep as <-. exists w. auto.
  Qed.
  Lemma all_sound S h gs p : sound S h -> rmapM (gather cost) (offers [] (parts h)) = Ok gs -> In p (offers [] (fulls h ++ gs)) -> full R p /\ tabs_of p = S.
  Proof.
    intros Hs E H. apply offers_In in H. destruct H as [[]|[H F]]. apply in_app_or in H. destruct H as [H|H].
    - apply fulls_In in H. destruct (Hs p false H) as [_ X]. specialize (X F). tauto.
    - destruct (gathers_sound S h gs p Hs E H) as (q & w & Hq & W & ->). destruct (parts_sound S h q Hs Hq) as [Pq Tq]. split.
      + apply f_gather; [assumption|assumption|]. now apply finite_priced.
      + unfold PgDP_spec.gathered. rewrite tabs_priced. unfold tabs_of. now rewrite leaves_par.
  Qed.
  Lemma finish_done S h r' : sound S h -> finish (add_paths (new_rel S) h) = Ok r' -> ri_set r' = S /\ done r'.
  Proof.
    intros Hs H. destruct (finish_inv S h r' H) as (gs & E & Es & Ec & Ep & (b & Eb & Bb) & Bp). split; [assumption|]. unfold done. rewrite Es, Ec.
    split; [reflexivity|]. split; [exists b; split; [assumption|]; apply (all_sound S h gs b Hs E); apply Bb|]. split.
    - intros bp E2. rewrite E2 in Bp. apply (parts_sound S h bp Hs). apply Bp.
    - intros p Hp. apply Ep in Hp. now apply (all_sound S h gs).
  Qed.

  (** ** Base relations *)
  Lemma has_scan_In op : has_scan scan_ops op = true <-> In op scan_ops.
  Proof.
    unfold has_scan. rewrite existsb_exists. split.
    - intros (x & Hx & E). destruct op, x; try discriminate; assumption.
    - intros H. exists op. split; [assumption|]. destruct op; reflexivity.
  Qed.
  Lemma has_join_In op : has_join join_ops op = true <-> In op join_ops.
  Proof.
    unfold has_join. rewrite existsb_exists. split.
    - intros (x & Hx & E). destruct op, x; try discriminate; assumption.
    - intros H. exists op. split; [assumption|]. destruct op; reflexivity.
  Qed.
  Lemma as_offers_In w (p q : pp) b : In (q, b) (as_offers w p) <-> q = p /\ (b = true -> w <> 0).
  Proof.
    unfold as_offers. destruct (w =? 0) eqn:E; cbn.
    - apply Nat.eqb_eq in E. subst. split; [intros [H|[]]; injection H as <- <-; split; [reflexivity|discriminate]|]. intros [-> H]. destruct b; [exfalso; now apply H|now left].
    - apply Nat.eqb_neq in E. split; [intros [H|[H|[]]]; injection H as <- <-; auto|]. intros [-> H]. destruct b; auto.
  Qed.
  Definition base_offers (t : nat) (l : list (pp * bool)) : Prop :=
    forall p b, In (p, b) l <-> exists w, scan_way t w p /\ (b = true -> w <> 0).
  Lemma base_rel_lists t : (exists e, base_rel t = Raise e /\ ((forall x, exists w, workers x w) -> False)) \/ exists l, base_offers t l /\ base_rel t = finish (add_paths (new_rel [t]) l).
  Proof.
    unfold PgDP_model.base_rel. change (mkfs [t]) with [t]. cbn [ri_card PgDP_model.new_rel].
    destruct (seq_offers _ _ _ _ _ _ _ _) as [a|e] eqn:Ea; cbn [rbind].
    2:{ left. exists e. split; [reflexivity|]. intros H. unfold seq_offers in Ea. destruct (H (inl t)) as (w & Ew). rewrite Ew in Ea. destruct (negb _); discriminate. }
    destruct (idx_offers _ _ _ _ _ _ _ _ _) as [b|e] eqn:Eb; cbn [rbind].
    2:{ left. exists e. split; [reflexivity|]. intros H. unfold idx_offers in Eb. destruct (_ && _); [discriminate|]. match type of Eb with rmap _ (rmapM ?g ?l) = _ => destruct (rmapM_total g l) as (ls & El) end.
        - intros [k ix] _. cbn [fst snd]. destruct (H (inr ix)) as (w & Ew). rewrite Ew. eexists. reflexivity.
        - rewrite El in Eb. discriminate. }
    destruct (bmp_offers _ _ _ _ _ _ _ _) as [c|e] eqn:Ec; cbn [rbind].
    2:{ left. exists e. split; [reflexivity|]. intros H. unfold bmp_offers in Ec. destruct (negb _); [discriminate|]. destruct (columns_of t); [discriminate|].
        destruct (H (inl t)) as (w & Ew). rewrite Ew in Ec. discriminate. }
    right. exists (a ++ b ++ c). split; [|reflexivity].
    assert (Ha : forall p f, In (p, f) a <-> exists w, In SeqScan scan_ops /\ workers (inl t) w /\ (f = true -> w <> 0) /\
      p = priced (PScan SeqScan t None [] (filters_for t) (mkinfo (Some (card (mkfs [t]))) NoCost [] (Some w) 0))).
    { unfold seq_offers in Ea. intros p f. destruct (has_scan scan_ops SeqScan) eqn:Hs; cbn [negb] in Ea.
      - apply has_scan_In in Hs. destruct (estimate_workers _ _ _ _) as [w|] eqn:Ew; cbn in Ea; [|discriminate]. injection Ea as <-.
        rewrite as_offers_In. split; [intros [-> Hf]; exists w; auto|]. intros (w' & _ & E & Hf & ->). injection E as <-. auto.
      - injection Ea as <-. split; [intros []|]. intros (w & X & _). apply has_scan_In in X. congruence. }
    assert (Hc : forall p f, In (p, f) c <-> exists w, In BmpScan scan_ops /\ columns_of t <> [] /\ workers (inl t) w /\ (f = true -> w <> 0) /\
      p = priced (PScan BmpScan t None (columns_of t) (filters_for t) (mkinfo None NoCost [] (Some w) 0))).
    { unfold bmp_offers in Ec. intros p f. destruct (has_scan scan_ops BmpScan) eqn:Hs; cbn [negb] in Ec.
      - apply has_scan_In in Hs. destruct (columns_of t) as [|k ks]; [injection Ec as <-; split; [intros []|intros (w & _ & X & _); congruence]|].
        destruct (estimate_workers _ _ _ _) as [w|] eqn:Ew; cbn in Ec; [|discriminate]. injection Ec as <-.
        rewrite as_offers_In. split; [intros [-> Hf]; exists w; repeat split; auto; discriminate|]. intros (w' & _ & _ & E & Hf & ->). injection E as <-. auto.
      - injection Ec as <-. split; [intros []|]. intros (w & X & _). apply has_scan_In in X. congruence. }
    assert (Hb : forall p f, In (p, f) b <-> exists w k ix op, In op scan_ops /\ (op = IdxScan /\ In k (columns_of t) \/ op = IdxOnlyScan /\ columns_of t = [k]) /\ In ix (indexes_on k)
      /\ workers (inr ix) w /\ (f = true -> w <> 0) /\ p = priced (PScan op t (Some (k, ix)) [] (filters_for t) (mkinfo None NoCost [mkKey [MCol k] true] (Some w) 0))).
    { unfold idx_offers in Eb. intros p f. destruct (negb (has_scan scan_ops IdxScan) && negb (has_scan scan_ops IdxOnlyScan)) eqn:Hs.
      - injection Eb as <-. apply andb_true_iff in Hs. rewrite !negb_true_iff in Hs. destruct Hs as [S1 S2]. split; [intros []|].
        intros (w & k & ix & op & Ho & Hop & _). apply has_scan_In in Ho. destruct Hop as [[-> _]|[-> _]]; congruence.
      - match type of Eb with rmap _ ?x = _ => destruct x as [ls|] eqn:El end; cbn [rmap rbind] in Eb; [|discriminate]. injection Eb as <-.
        destruct (rmapM_ok _ _ _ El) as (X1 & X2 & _). rewrite in_concat. split.
        + intros (l & Hl & Hp). destruct (X2 l Hl) as ([k ix] & Hk & E). apply in_flat_map in Hk. destruct Hk as (k' & Ik & Hk). apply in_map_iff in Hk.
          destruct Hk as (ix' & E' & Iix). injection E' as -> ->. cbn [fst snd] in E. destruct (estimate_workers _ _ _ _) as [w|] eqn:Ew; cbn [rmap rbind] in E; [|discriminate].
          injection E as <-. apply in_app_or in Hp. destruct Hp as [Hp|Hp].
          * destruct (has_scan scan_ops IdxScan) eqn:H1; [|destruct Hp]. apply as_offers_In in Hp. destruct Hp as [-> Hf]. exists w, k, ix, IdxScan. apply has_scan_In in H1.
            repeat split; auto.
          * destruct (has_scan scan_ops IdxOnlyScan) eqn:H1; cbn [andb] in Hp; [|destruct Hp]. destruct (length (columns_of t) <=? 1) eqn:H2; [|destruct Hp].
            apply as_offers_In in Hp. destruct Hp as [-> Hf]. exists w, k, ix, IdxOnlyScan. apply has_scan_In in H1. apply Nat.leb_le in H2.
            assert (C : columns_of t = [k]). { destruct (columns_of t) as [|x [|y z]]; [destruct Ik|destruct Ik as [->|[]]; reflexivity|cbn in H2; lia]. }
            repeat split; auto.
        + intros (w & k & ix & op & Ho & Hop & Iix & Ew & Hf & ->). apply has_scan_In in Ho.
          assert (Ik : In k (columns_of t)) by (destruct Hop as [[_ X]|[_ ->]]; [assumption|now left]).
          destruct (X1 (k, ix)) as (l & E & Il). { apply in_flat_map. exists k. split; [assumption|]. now apply in_map. }
          exists l. split; [assumption|]. cbn [fst snd] in E. rewrite Ew in E. cbn [rmap rbind] in E. injection E as <-. apply in_or_app.
          destruct Hop as [[-> _]|[-> C]].
          * left. rewrite Ho. apply as_offers_In. auto.
          * right. rewrite Ho, C. cbn. apply as_offers_In. auto. }
    intros p f. rewrite !in_app_iff, Ha, Hb, Hc. split.
    - intros [(w & H1 & H2 & H3 & ->)|[(w & k & ix & op & H1 & [[-> H2]|[-> H2]] & H3 & H4 & H5 & ->)|(w & H1 & H2 & H3 & H4 & ->)]]; exists w; (split; [|assumption]).
      + now apply sw_seq.
      + now apply sw_idx.
      + now apply sw_only.
      + now apply sw_bmp.
    - intros (w & H & Hf). destruct H.
      + left. exists w. auto.
      + right; left. exists w, c0, ix, IdxScan. repeat split; auto.
      + right; left. exists w, c0, ix, IdxOnlyScan. repeat split; auto.
      + right; right. exists w. auto.
  Qed.
  Lemma base_rel_inv t r : base_rel t = Ok r -> exists l, base_offers t l /\ finish (add_paths (new_rel [t]) l) = Ok r.
  Proof. intros H. destruct (base_rel_lists t) as [(e & E & _)|(l & Bl & E)]; rewrite E in H; [discriminate|]. exists l. auto. Qed.
  Lemma base_sound t l : base_offers t l -> sound [t] l.
  Proof.
    intros H p b Hp. apply H in Hp. destruct Hp as (w & Hw & Hb).
    assert (Pr : is_priced p) by (destruct Hw; eexists; reflexivity). split; [assumption|]. intros F. split; [unfold tabs_of; rewrite (scan_leaves _ _ _ Hw); reflexivity|].
    destruct Pr as (p0 & ->). destruct b; [apply (p_scan _ _ _ _ _ _ _ _ _ _ _ _ _ _ t w)|apply (f_scan _ _ _ _ _ _ _ _ _ _ _ _ _ _ t w)]; auto using finite_priced.
  Qed.

  (** ** Joins *)
  Definition join_way (a b : ri) (p : pp) (f : bool) : Prop :=
    exists op o i i', (op = NLJ \/ op = HashJ) /\ In op join_ops /\ (if f then ri_best_partial a else ri_best a) = Some o /\ ri_best b = Some i
      /\ inner_way op (negb f) (ri_set a) i i' /\ p = joined op o i'.
  Lemma mk_join_joined op S o i i' a b (ra rb : ri) : tabs_of o = ri_set ra -> tabs_of i = ri_set rb -> S = mkfs (ri_set ra ++ ri_set rb) -> inner_way op a b i i' ->
    mk_join cost joins_between op (card S) o i' = joined op o i'.
  Proof. intros Ho Hi -> W. unfold mk_join, PgDP_spec.joined. assert (E : tabs_of i' = tabs_of i) by (unfold tabs_of; now rewrite (inner_leaves _ _ _ _ _ W)). now rewrite Ho, E, Hi. Qed.
  Lemma cache_keys_In a b ks k : cache_keys joins_between partners ktab a b = Ok ks ->
    (In k ks <-> exists cond c1 c2, joins_between a b = Some cond /\ In (c1, c2) (partners cond) /\ k = if mem (ktab c1) b then c1 else c2).
  Proof.
    unfold cache_keys. destruct (joins_between a b) as [cond|]; [|discriminate]. intros E. destruct (rmapM_ok _ _ _ E) as (X1 & X2 & _). split.
    - intros H. destruct (X2 k H) as ([c1 c2] & Hc & Ec). cbn [fst snd] in Ec. exists cond, c1, c2. split; [reflexivity|]. split; [assumption|].
      destruct (mem (ktab (if mem (ktab c1) b then c1 else c2)) b); [|discriminate]. now injection Ec as <-.
    - intros (cond' & c1 & c2 & E' & Hc & ->). injection E' as <-. destruct (X1 (c1, c2) Hc) as (y & Ey & Hy). cbn [fst snd] in Ey.
      destruct (mem (ktab (if mem (ktab c1) b then c1 else c2)) b); [|discriminate]. injection Ey as <-. exact Hy.
  Qed.
  Lemma join_offers_In S a b l : done a -> done b -> S = mkfs (ri_set a ++ ri_set b) -> join_offers (card S) a b = Ok l ->
    forall p f, In (p, f) l <-> join_way a b p f.
  Proof.
    intros Da Db ES E p f. destruct Da as (_ & (o & Eo & _ & To) & Hop & _). destruct Db as (_ & (i & Ei & _ & Ti) & _). unfold PgDP_model.join_offers in E.
    destruct (if has_join join_ops NLJ then _ else _) as [la|] eqn:La; cbn [rbind] in E; [|discriminate].
    destruct (if has_join join_ops MergeJ then _ else _) as [lb|] eqn:Lb; cbn [rbind] in E; [|discriminate].
    destruct (if has_join join_ops HashJ then _ else _) as [lc|] eqn:Lc; cbn [rbind] in E; [|discriminate]. injection E as <-.
    assert (B : lb = []).
    { destruct (has_join join_ops MergeJ); [|now injection Lb as <-]. unfold merge_offers in Lb. destruct (joins_between _ _); [|discriminate].
      destruct (rmapM _ _); cbn in Lb; [|discriminate]. now injection Lb as <-. }
    subst lb. cbn [app]. rewrite in_app_iff.
    assert (H1 : In (p, f) la <-> In NLJ join_ops /\ exists o i', (if f then ri_best_partial a else ri_best a) = Some o /\ inner_way NLJ (negb f) (ri_set a) i i' /\ p = joined NLJ o i').
    { destruct (has_join join_ops NLJ) eqn:HN; [|injection La as <-; split; [intros []|intros [X _]; apply has_join_In in X; congruence]]. apply has_join_In in HN.
      unfold nlj_offers in La. rewrite Eo, Ei in La.
      destruct (if enable_memo then _ else _) as [ks|] eqn:Ek; cbn [rbind] in La; [|discriminate]. injection La as <-.
      assert (K : forall k, In k ks <-> enable_memo = true /\ exists cond c1 c2, joins_between (ri_set a) (tabs_of i) = Some cond /\ In (c1, c2) (partners cond) /\ k = if mem (ktab c1) (tabs_of i) then c1 else c2).
      { intros k. rewrite Ti. destruct enable_memo; [rewrite (cache_keys_In _ _ _ _ Ek); intuition|]. injection Ek as <-. cbn. intuition discriminate. }
      assert (WM : forall k m, In k ks -> inner_way NLJ m (ri_set a) i (mk_aux cost (AMemo k) i)).
      { intros k m Hk. apply K in Hk. destruct Hk as (Em & cond & c1 & c2 & Ej & Hc & ->). eapply iw_memo; [reflexivity|exact Em|exact Ej|exact Hc|reflexivity]. }
      assert (WT : enable_mat = true -> inner_way NLJ true (ri_set a) i (mk_aux cost AMat i)) by (intros X; apply iw_mat; auto).
      assert (J : forall op_ f i', (if f : bool then ri_best_partial a else ri_best a) = Some op_ -> (exists m, inner_way NLJ m (ri_set a) i i') -> mk_join cost joins_between NLJ (card S) op_ i' = joined NLJ op_ i').
      { intros op_ f0 i' Hb (m & W). apply (mk_join_joined NLJ S op_ i i' m (ri_set a) a b); auto. destruct f0; [apply (Hop _ Hb)|congruence]. }
      cbn [app]. cbn [In]. rewrite !in_app_iff, in_map_iff. split.
      - intros [H|[(k & H & Hk)|[H|H]]].
        + injection H as <- <-. split; [assumption|]. exists o, i. split; [assumption|]. split; [apply iw_plain|]. apply (J o false); [assumption|]. exists true. apply iw_plain.
        + injection H as <- <-. split; [assumption|]. exists o, (mk_aux cost (AMemo k) i). split; [assumption|]. split; [now apply WM|]. apply (J o false); [assumption|]. exists true. now apply WM.
        + destruct enable_mat eqn:Em; [|destruct H]. destruct H as [H|[]]. injection H as <- <-. split; [assumption|]. exists o, (mk_aux cost AMat i).
          split; [assumption|]. split; [now apply WT|]. apply (J o false); [assumption|]. exists true. now apply WT.
        + destruct (ri_best_partial a) as [op_|] eqn:Ebp; [|destruct H]. destruct H as [H|H].
          * injection H as <- <-. split; [assumption|]. exists op_, i. split; [reflexivity|]. split; [apply iw_plain|]. apply (J op_ true); [reflexivity|]. exists true. apply iw_plain.
          * apply in_map_iff in H. destruct H as (k & H & Hk). injection H as <- <-. split; [assumption|]. exists op_, (mk_aux cost (AMemo k) i).
            split; [reflexivity|]. split; [now apply WM|]. apply (J op_ true); [reflexivity|]. exists true. now apply WM.
      - intros (_ & o' & i' & Ho & W & ->). rewrite <- (J o' f i' Ho (ex_intro _ _ W)). destruct W as [|cond c1 c2 k _ Em Ej Hc Hk|_ Em1 Em2].
        + destruct f; [right; right; right|left; congruence]. rewrite Ho. now left.
        + assert (Ik : In k ks) by (apply K; split; [assumption|]; exists cond, c1, c2; auto).
          destruct f; [right; right; right; rewrite Ho; right; apply in_map_iff; exists k; auto|]. right; left. exists k. split; [|assumption]. rewrite Eo in Ho. injection Ho as <-. reflexivity.
        + destruct f; [discriminate|]. right; right; left. rewrite Em2. left. rewrite Eo in Ho. injection Ho as <-. reflexivity. }
    assert (H2 : In (p, f) lc <-> In HashJ join_ops /\ exists o, (if f then ri_best_partial a else ri_best a) = Some o /\ p = joined HashJ o i).
    { destruct (has_join join_ops HashJ) eqn:HN; [|injection Lc as <-; split; [intros []|intros [X _]; apply has_join_In in X; congruence]]. apply has_join_In in HN.
      unfold hash_offers in Lc. rewrite Eo, Ei in Lc. injection Lc as <-.
      assert (J : forall op_ f, (if f : bool then ri_best_partial a else ri_best a) = Some op_ -> mk_join cost joins_between HashJ (card S) op_ i = joined HashJ op_ i).
      { intros op_ f0 Hb. apply (mk_join_joined HashJ S op_ i i true (ri_set a) a b); auto; [|apply iw_plain]. destruct f0; [apply (Hop _ Hb)|congruence]. }
      cbn [In]. split.
      - intros [H|H].
        + injection H as <- <-. split; [assumption|]. exists o. split; [assumption|]. now apply (J o false).
        + destruct (ri_best_partial a) as [op_|] eqn:Ebp; [|destruct H]. destruct H as [H|[]]. injection H as <- <-. split; [assumption|]. exists op_. split; [reflexivity|]. now apply (J op_ true).
      - intros (_ & o' & Ho & ->). rewrite <- (J o' f Ho). destruct f; [rewrite Ho; right; now left|]. left. rewrite Eo in Ho. injection Ho as <-. reflexivity. }
    rewrite H1, H2. unfold join_way. split.
    - intros [(X & o' & i' & Y1 & Y2 & ->)|(X & o' & Y1 & ->)]; [exists NLJ, o', i, i'|exists HashJ, o', i, i]; repeat split; auto. apply iw_plain.
    - intros (op & o' & i0 & i' & Hk & X & Y1 & Y2 & Y3 & ->). rewrite Ei in Y2. injection Y2 as <-. destruct Hk as [->| ->]; [left; split; [assumption|]; exists o', i'; auto|].
      right. split; [assumption|]. exists o'. split; [assumption|]. inversion Y3; subst; [reflexivity|discriminate|discriminate].
  Qed.
  Lemma in_tabs (p : pp) x : In x (tabs_of p) <-> In x (leaves p).
  Proof. apply mkfs_In. Qed.
  Lemma join_way_sound S a b p f : done a -> done b -> S = mkfs (ri_set a ++ ri_set b) -> (forall x, In x (ri_set a) -> ~ In x (ri_set b)) ->
    joins_between (ri_set a) (ri_set b) <> None -> join_way a b p f -> is_priced p /\ (isInf p = false -> tabs_of p = S /\ if f then part R p else full R p).
  Proof.
    intros Da Db ES Dis Lk (op & o & i & i' & Hk & Ho & Eo & Ei & W & ->). split; [eexists; reflexivity|]. intros F.
    destruct Da as (_ & (ob & Eob & Fo & To) & Hop & _). destruct Db as (_ & (ib & Eib & Fi & Ti) & _). rewrite Eib in Ei. injection Ei as ->.
    assert (To' : tabs_of o = ri_set a) by (destruct f; [apply (Hop _ Eo)|congruence]).
    assert (Ap : apart o i). { intros x Hx Hy. apply (Dis x); [rewrite <- To'; now apply in_tabs|rewrite <- Ti; now apply in_tabs]. }
    assert (Ln : linked R o i).
    { apply Hjb in Lk; [|assumption]. destruct Lk as (x & y & Hx & Hy & Hr). exists x, y. rewrite <- To' in Hx. rewrite <- Ti in Hy. apply in_tabs in Hx, Hy. auto. }
    split.
    - unfold tabs_of. rewrite leaves_joined, (inner_leaves _ _ _ _ _ W), ES. apply mkfs_eq. intros x. rewrite !in_app_iff, <- To', <- Ti, !in_tabs. tauto.
    - assert (Fn := finite_priced _ F : finite (joined op o i')). rewrite <- To' in W.
      destruct f; [apply (p_join _ _ _ _ _ _ _ _ _ _ _ _ _ _ op o i i')|apply (f_join _ _ _ _ _ _ _ _ _ _ _ _ _ _ op o i i')]; auto; [apply (Hop _ Eo)|congruence].
  Qed.

  (** ** One level *)
  Definition valid (ab : ri * ri) : Prop := (forall x, In x (ri_set (fst ab)) -> ~ In x (ri_set (snd ab))) /\ joins_between (ri_set (fst ab)) (ri_set (snd ab)) <> None.
  Definition union (ab : ri * ri) : list nat := mkfs (ri_set (fst ab) ++ ri_set (snd ab)).
  Definition of_hist (e : list nat * list (pp * bool)) : ri := add_paths (new_rel (fst e)) (snd e).
  Lemma of_hist_set e : ri_set (of_hist e) = fst e.
  Proof. unfold of_hist. now rewrite add_paths_eq. Qed.
  Lemma of_hist_card e : ri_card (of_hist e) = card (fst e).
  Proof. unfold of_hist. now rewrite add_paths_eq. Qed.
  Lemma update_hist hs S g l : (forall r, ri_card r = card S -> g r = Ok (add_paths r l)) -> NoDup (map fst hs) ->
    exists hs', update card (map of_hist hs) S g = Ok (map of_hist hs') /\ NoDup (map fst hs') /\ (forall x, In x (map fst hs') <-> x = S \/ In x (map fst hs))
      /\ (exists h, In (S, h) hs' /\ incl l h)
      /\ (forall T h, In (T, h) hs -> exists h', In (T, h') hs' /\ incl h h')
      /\ (forall T h', In (T, h') hs' -> forall o, In o h' -> (exists h, In (T, h) hs /\ In o h) \/ (T = S /\ In o l)).
  Proof.
    intros Hg. induction hs as [|[T h] hs IH]; intros ND.
    - cbn [map update]. rewrite Hg by reflexivity. cbn [rmap rbind]. exists [(S, l)]. split; [reflexivity|]. split; [repeat constructor; intros []|].
      split; [intros x; cbn; intuition|]. split; [exists l; split; [now left|apply incl_refl]|]. split; [intros T h []|].
      intros T h' [H|[]]. injection H as <- <-. auto.
    - cbn [map update]. rewrite of_hist_set. cbn [fst]. inversion ND as [|? ? Hn ND']; subst.
      destruct (deqb T S) eqn:E.
      + apply (proj1 (deqb_eq _ _)) in E. subst T. rewrite Hg by (rewrite of_hist_card; reflexivity). cbn [rmap rbind]. exists ((S, h ++ l) :: hs).
        split; [cbn [map]; unfold of_hist at 1 3; cbn [fst snd]; now rewrite add_paths_app|]. split; [exact ND|]. split; [intros x; cbn; intuition|].
        split; [exists (h ++ l); split; [now left|apply incl_appr, incl_refl]|]. split.
        * intros T h0 [H|H]; [injection H as <- <-; exists (h ++ l); split; [now left|apply incl_appl, incl_refl]|]. exists h0. split; [now right|apply incl_refl].
        * intros T h' [H|H] o Ho; [injection H as <- <-; apply in_app_or in Ho; destruct Ho as [Ho|Ho]; [left; exists h; split; [now left|assumption]|auto]|].
          left. exists h'. split; [now right|assumption].
      + destruct (IH ND') as (hs' & E' & N' & K' & (hl & Hl & Il) & Mo & So). rewrite E'. cbn [rmap rbind]. exists ((T, h) :: hs').
        split; [reflexivity|]. split; [cbn; constructor; [|assumption]; rewrite K'; intros [X|X]; [apply (proj1 (deqb_neq _ _)) in E; congruence|tauto]|].
        split; [intros x; cbn; rewrite K'; intuition|]. split; [exists hl; split; [now right|assumption]|]. split.
        * intros T0 h0 [H|H]; [injection H as <- <-; exists h; split; [now left|apply incl_refl]|]. destruct (Mo T0 h0 H) as (h' & X & Y). exists h'. split; [now right|assumption].
        * intros T0 h' [H|H] o Ho; [injection H as <- <-; left; exists h; split; [now left|assumption]|]. destruct (So T0 h' H o Ho) as [(h0 & X & Y)|X]; [|auto].
          left. exists h0. split; [now right|assumption].
  Qed.
  Lemma update_raises hs S g e : (forall r, ri_card r = card S -> g r = Raise e) -> update card (map of_hist hs) S g = Raise e.
  Proof.
    intros Hg. induction hs as [|[T h] hs IH]; cbn [map update]; [rewrite Hg by reflexivity; reflexivity|].
    rewrite of_hist_set. cbn [fst]. destruct (deqb T S) eqn:E; [apply (proj1 (deqb_eq _ _)) in E; rewrite Hg by (rewrite of_hist_card; cbn; congruence); reflexivity|].
    rewrite IH. reflexivity.
  Qed.
  Definition hist_of (pairs : list (ri * ri)) (hs : list (list nat * list (pp * bool))) : Prop :=
    NoDup (map fst hs)
    /\ (forall S h, In (S, h) hs -> (exists ab, In ab pairs /\ valid ab /\ S = union ab) /\ forall o, In o h -> exists ab l1 l2, In ab pairs /\ valid ab /\ S = union ab
          /\ join_offers (card S) (fst ab) (snd ab) = Ok l1 /\ join_offers (card S) (snd ab) (fst ab) = Ok l2 /\ In o (l1 ++ l2))
    /\ (forall ab, In ab pairs -> valid ab -> exists h l1 l2, In (union ab, h) hs /\ join_offers (card (union ab)) (fst ab) (snd ab) = Ok l1
          /\ join_offers (card (union ab)) (snd ab) (fst ab) = Ok l2 /\ incl (l1 ++ l2) h).
  Lemma pairs_hist pairs cur : rfold join_pair pairs [] = Ok cur -> exists hs, cur = map of_hist hs /\ hist_of pairs hs.
  Proof.
    revert cur. induction pairs as [|[a b] pairs IH] using rev_ind; intros cur.
    - cbn. intros [= <-]. exists []. split; [reflexivity|]. split; [constructor|]. split; [intros S h []|intros ab []].
    - rewrite rfold_app. destruct (rfold join_pair pairs []) as [c0|]; cbn [rbind]; [|discriminate]. destruct (IH c0 eq_refl) as (hs & -> & ND & So & Co). clear IH.
      cbn [rfold]. unfold PgDP_model.join_pair. destruct (existsb (fun x => mem x (ri_set b)) (ri_set a)) eqn:Ex.
      + cbn [rbind]. intros [= <-]. exists hs. split; [reflexivity|]. split; [assumption|].
        assert (NV : ~ valid (a, b)). { intros [V _]. apply existsb_exists in Ex. destruct Ex as (x & Hx & Hm). apply mem_In in Hm. exact (V x Hx Hm). }
        split.
        * intros S h H. destruct (So S h H) as [(ab & I1 & I2) So']. split; [exists ab; rewrite in_app_iff; tauto|]. intros o Ho.
          destruct (So' o Ho) as (ab' & l1 & l2 & J1 & J2). exists ab', l1, l2. rewrite in_app_iff. tauto.
        * intros ab Hab V. apply in_app_or in Hab. destruct Hab as [Hab|[<-|[]]]; [now apply Co|contradiction].
      + destruct (joins_between (ri_set a) (ri_set b)) as [cond|] eqn:Ej.
        2:{ cbn [rbind]. intros [= <-]. exists hs. split; [reflexivity|]. split; [assumption|].
            assert (NV : ~ valid (a, b)) by (intros [_ V]; cbn [fst snd] in V; congruence). split.
            - intros S h H. destruct (So S h H) as [(ab & I1 & I2) So']. split; [exists ab; rewrite in_app_iff; tauto|]. intros o Ho.
              destruct (So' o Ho) as (ab' & l1 & l2 & J1 & J2). exists ab', l1, l2. rewrite in_app_iff. tauto.
            - intros ab Hab V. apply in_app_or in Hab. destruct Hab as [Hab|[<-|[]]]; [now apply Co|contradiction]. }
        assert (V : valid (a, b)).
        { split; cbn [fst snd]; [|congruence]. intros x Hx Hy. apply Bool.not_true_iff_false in Ex. apply Ex. apply existsb_exists. exists x. split; [assumption|]. now apply mem_In. }
        fold (union (a, b)). set (U := union (a, b)). change (mkfs (ri_set a ++ ri_set b)) with U.
        destruct (join_offers (card U) a b) as [l1|e1] eqn:E1.
        2:{ intros H. exfalso. revert H. set (g := fun r => _). assert (Hg : forall r, ri_card r = card U -> g r = Raise e1) by (intros r Hr; unfold g; rewrite Hr, E1; reflexivity).
            rewrite (update_raises hs U g _ Hg). discriminate. }
        destruct (join_offers (card U) b a) as [l2|e2] eqn:E2.
        2:{ intros H. exfalso. revert H. set (g := fun r => _). assert (Hg : forall r, ri_card r = card U -> g r = Raise e2) by (intros r Hr; unfold g; rewrite Hr, E1; cbn [rbind]; rewrite E2; reflexivity).
            rewrite (update_raises hs U g _ Hg). discriminate. }
        set (g := fun r => _). destruct (update_hist hs U g (l1 ++ l2)) as (hs' & E' & N' & K' & (hl & Hl & Il) & Mo & So2).
        { intros r Hr. unfold g. rewrite Hr, E1. cbn [rbind]. rewrite E2. reflexivity. } { assumption. }
        rewrite E'. cbn [rbind]. intros [= <-]. exists hs'. split; [reflexivity|]. split; [assumption|]. split.
        * intros S h H. split.
          -- assert (X : In S (map fst hs')) by (apply in_map_iff; exists (S, h); auto). apply K' in X. destruct X as [->|X]; [exists (a, b); rewrite in_app_iff; cbn; auto|].
             apply in_map_iff in X. destruct X as ([S' h0] & E0 & X). cbn in E0. subst S'. destruct (So S h0 X) as [(ab & I1 & I2) _]. exists ab. rewrite in_app_iff. tauto.
          -- intros o Ho. destruct (So2 S h H o Ho) as [(h0 & X & Y)|[-> X]].
             ++ destruct (So S h0 X) as [_ So']. destruct (So' o Y) as (ab' & m1 & m2 & J1 & J2). exists ab', m1, m2. rewrite in_app_iff. tauto.
             ++ exists (a, b), l1, l2. rewrite in_app_iff. cbn [In fst snd]. auto 10.
        * intros ab Hab Vab. apply in_app_or in Hab. destruct Hab as [Hab|[<-|[]]].
          -- destruct (Co ab Hab Vab) as (h & m1 & m2 & X1 & X2 & X3 & X4). destruct (Mo _ _ X1) as (h' & Y1 & Y2). exists h', m1, m2. repeat split; auto. intros o Ho. auto.
          -- exists hl, l1, l2. auto.
  Qed.
  Lemma hist_sound pairs hs S h : (forall ab, In ab pairs -> done (fst ab) /\ done (snd ab)) -> hist_of pairs hs -> In (S, h) hs -> sound S h.
  Proof.
    intros D (_ & So & _) H p f Hp. destruct (So S h H) as [_ So']. destruct (So' (p, f) Hp) as (ab & l1 & l2 & I1 & [V1 V2] & ES & E1 & E2 & Hin). destruct (D ab I1) as [Da Db].
    apply in_app_or in Hin. destruct Hin as [Hin|Hin].
    - apply (join_offers_In S (fst ab) (snd ab) l1 Da Db ES E1) in Hin. now apply (join_way_sound S (fst ab) (snd ab)).
    - assert (ES' : S = mkfs (ri_set (snd ab) ++ ri_set (fst ab))). { rewrite ES. apply mkfs_eq. intros x. rewrite !in_app_iff. tauto. }
      apply (join_offers_In S (snd ab) (fst ab) l2 Db Da ES' E2) in Hin. apply (join_way_sound S (snd ab) (fst ab)); auto.
      + intros x Hx Hy. exact (V1 x Hy Hx).
      + apply Hjb; [intros x Hx Hy; exact (V1 x Hy Hx)|]. apply Hjb in V2; [|assumption]. destruct V2 as (x & y & Hx & Hy & Hr). exists y, x. auto.
  Qed.

  (** ** Costs *)
  Lemma part_ew : forall p, part R p -> exists w, i_ew (dat p) = Some w /\ w <> 0 /\ i_pw (dat p) = 0.
  Proof.
    assert (X : (forall p, full R p -> True) /\ (forall p, part R p -> exists w, i_ew (dat p) = Some w /\ w <> 0 /\ i_pw (dat p) = 0)); [|apply X]. apply full_part_ind; auto.
    - intros t w p W Hw _. destruct W; exists w; split; auto.
    - intros op o i i' _ (w & E & Hw & _) _ _ _ _ _ _ _ _. exists w. split; [exact E|]. auto.
  Qed.
  Definition nonneg : Prop := forall p q, cost p = Some q -> (0 <= q)%Q.
  Definition opt_ok (k : Q) (r : ri) : Prop :=
    (forall q, full R q -> tabs_of q = ri_set r -> exists b, ri_best r = Some b /\ within k (i_cost (dat b)) (i_cost (dat q)))
    /\ (forall q, part R q -> tabs_of q = ri_set r -> exists b, ri_best_partial r = Some b /\ within k (i_cost (dat b)) (i_cost (dat q))).
  Definition covers (S : list nat) (h : list (pp * bool)) (g : Q) : Prop :=
    (forall q, part R q -> tabs_of q = S -> exists p, In (p, true) h /\ within g (i_cost (dat p)) (i_cost (dat q)))
    /\ (forall q, full R q -> tabs_of q = S -> (exists p w, part R p /\ i_ew (dat p) = Some w /\ tabs_of p = S /\ q = gathered p w) \/ exists p, In (p, false) h /\ within g (i_cost (dat p)) (i_cost (dat q))).
  Lemma plan_priced q : full R q \/ part R q -> is_priced q.
  Proof. intros [[t w p [] _|p w _ _ _|op o i i' _ _ _ _ _ _ _ _]|[t w p [] _ _|op o i i' _ _ _ _ _ _ _ _]]; eexists; reflexivity. Qed.
  Lemma priced_nonneg p : nonneg -> is_priced p -> (0 <= fin p)%Q.
  Proof. intros Hn (p0 & ->). unfold fin. rewrite cost_priced. destruct (cost p0) eqn:E; [now apply (Hn p0)|lra]. Qed.
  Lemma within_le k (p q : pp) : finite p -> finite q -> (within k (i_cost (dat p)) (i_cost (dat q)) <-> (fin p <= k * fin q)%Q).
  Proof.
    intros Hp Hq. rewrite (finite_fin p Hp), (finite_fin q Hq). split; [intros (a & E & H); injection E as <-; exact H|]. intros H. eexists. split; [reflexivity|exact H].
  Qed.
  Definition tame (p : pp) : Prop := srt p = [] \/ exists k, srt p = [k] /\ k_members k <> [].
  Lemma finish_opt S h r' f g m : nonneg -> (1 <= f)%Q -> (1 <= g)%Q -> (m == f * g)%Q -> monotone_at m -> sound S h -> (forall p b, In (p, b) h -> tame p) ->
    ((forall p b, In (p, b) h -> srt p = []) \/ (fuzz <= f)%Q) -> covers S h g -> finish (add_paths (new_rel S) h) = Ok r' ->
    opt_ok (f * f * g) r'.
  Proof.
    intros Hn F1 G1 Em (_ & _ & Mg) Hs Ht Hf [Cp Cf] H. destruct (finish_inv S h r' H) as (gs & E & Es & Ec & Ep & (b & Eb & Bb) & Bp).
    assert (N0 : forall q, In q (parts h) -> (0 <= fin q)%Q /\ tame q). { intros q Hq. apply parts_In in Hq. split; [apply priced_nonneg; [assumption|apply (Hs q true Hq)]|apply (Ht q true Hq)]. }
    assert (K1 : forall q, part R q -> tabs_of q = S -> exists p, In p (offers [] (parts h)) /\ (fin p <= f * g * fin q)%Q).
    { intros q Pq Tq. destruct (Cp q Pq Tq) as (p & Hp & W). assert (Fq := part_finite q Pq).
      assert (Fp : isInf p = false). { unfold isInf. rewrite (finite_fin q Fq) in W. destruct W as (a & -> & _). reflexivity. }
      destruct (Hs p true Hp) as [_ X]. destruct (X Fp) as [Tp Pp]. apply within_le in W; [|now apply part_finite|assumption].
      destruct (cover f (parts h) p F1 N0) as (p' & Hp' & L); [|now apply parts_In|assumption|].
      - destruct Hf as [Hf|Hf]; [left|now right]. intros q0 Hq0. apply parts_In in Hq0. now apply (Hf q0 true).
      - exists p'. split; [assumption|]. assert (X0 := proj1 (N0 p (proj2 (parts_In h p) Hp))). nra. }
    assert (N1 : forall q, In q (fulls h ++ gs) -> (0 <= fin q)%Q /\ tame q).
    { intros q Hq. apply in_app_or in Hq. destruct Hq as [Hq|Hq].
      - apply fulls_In in Hq. split; [apply priced_nonneg; [assumption|apply (Hs q false Hq)]|apply (Ht q false Hq)].
      - destruct (gathers_sound S h gs q Hs E Hq) as (p & w & Hp & _ & ->). split; [apply priced_nonneg; [assumption|eexists; reflexivity]|].
        unfold tame, PgDP_spec.gathered. rewrite sort_priced, sort_par. apply offers_In in Hp. destruct Hp as [[]|[Hp _]]. apply (N0 p Hp). }
    assert (K2 : forall p q : pp, In p (fulls h ++ gs) -> isInf p = false -> finite q -> (0 <= fin q)%Q -> (fin p <= f * g * fin q)%Q -> (fin b <= f * f * g * fin q)%Q).
    { intros p q Hp Fp Fq Q0 L. destruct (cover f (fulls h ++ gs) p F1 N1) as (p' & Hp' & L'); [|assumption|assumption|].
      - destruct Hf as [Hf|Hf]; [left|now right]. intros q0 Hq0. apply in_app_or in Hq0. destruct Hq0 as [Hq0|Hq0]; [apply fulls_In in Hq0; now apply (Hf q0 false)|].
        destruct (gathers_sound S h gs q0 Hs E Hq0) as (p1 & w & Hp1 & _ & ->). unfold PgDP_spec.gathered. rewrite sort_priced, sort_par. apply offers_In in Hp1. destruct Hp1 as [[]|[Hp1 _]].
        apply parts_In in Hp1. now apply (Hf p1 true).
      - assert (X := proj2 Bb p' Hp'). nra. }
    assert (Fb : finite b) by (apply full_finite; apply (all_sound S h gs b Hs E); apply Bb).
    unfold opt_ok. rewrite Es. split.
    - intros q Fq Tq. exists b. split; [assumption|]. apply within_le; [assumption|now apply full_finite|]. assert (Q0 : (0 <= fin q)%Q) by (apply priced_nonneg; [assumption|apply plan_priced; auto]).
      destruct (Cf q Fq Tq) as [(p & w & Pp & Ew & Tp & ->)|(p & Hp & W)].
      + destruct (K1 p Pp Tp) as (p' & Hp' & L). destruct (parts_sound S h p' Hs Hp') as [Pp' Tp']. destruct (proj1 (rmapM_ok _ _ _ E) p' Hp') as (g' & Eg & Ig).
        unfold gather in Eg. destruct (i_ew (dat p')) as [w'|] eqn:Ew'; [|discriminate]. injection Eg as Eg. change (gathered p' w' = g') in Eg. subst g'.
        assert (C : cheaper m (gathered p' w') (gathered p w)).
        { destruct (plan_priced p' (or_intror Pp')) as (p0' & E0'). destruct (plan_priced p (or_intror Pp)) as (p0 & E0). rewrite E0, E0'. 
          assert (PW : forall x, i_pw (dat (priced x)) = i_pw (dat x)) by (intros x; unfold PgDP_spec.priced, with_cost; now rewrite dat_set).
          destruct (part_ew p Pp) as (v & Ev & Nv & Wv), (part_ew p' Pp') as (v' & Ev' & Nv' & Wv').
          apply Mg; [congruence|congruence|rewrite <- PW; congruence|rewrite <- PW; congruence|]. rewrite <- E0, <- E0'. split; [congruence|]. apply within_le; [now apply part_finite|now apply part_finite|]. rewrite Em. exact L. }
        destruct C as [_ C]. rewrite (finite_fin _ (full_finite _ Fq)) in C. destruct C as (a & Ea & La).
        apply (K2 (gathered p' w')); [apply in_or_app; now right| |now apply full_finite|assumption|]; [unfold isInf; now rewrite Ea|]. unfold fin at 1. rewrite Ea. rewrite Em in La. exact La.
      + rewrite (finite_fin _ (full_finite _ Fq)) in W. destruct W as (a & Ea & La). apply (K2 p); [apply in_or_app; left; now apply fulls_In| |now apply full_finite|assumption|].
        * unfold isInf; now rewrite Ea.
        * unfold fin at 1. rewrite Ea. assert (Y : (0 <= g * fin q)%Q) by nra. nra.
    - intros q Pq Tq. destruct (K1 q Pq Tq) as (p & Hp & L). destruct (ri_best_partial r') as [bp|]; [|rewrite Bp in Hp; destruct Hp]. exists bp. split; [reflexivity|].
      assert (Q0 : (0 <= fin q)%Q) by (apply priced_nonneg; [assumption|apply plan_priced; auto]).
      apply within_le; [apply part_finite; apply (parts_sound S h bp Hs), Bp|now apply part_finite|]. assert (X := proj2 Bp p Hp). assert (Y : (0 <= g * fin q)%Q) by nra. assert (Z : (0 <= f * g * fin q)%Q) by nra. assert (V : (0 <= (f - 1) * (f * g * fin q))%Q) by nra. lra.
  Qed.
  Lemma tabs_gathered p w : tabs_of (gathered p w) = tabs_of p.
  Proof. unfold PgDP_spec.gathered. rewrite tabs_priced. unfold tabs_of. now rewrite leaves_par. Qed.
  Lemma mkfs_single (t t' : nat) : mkfs [t'] = [t] -> t' = t.
  Proof. intros H. assert (X : In t' (mkfs [t'])) by (apply mkfs_In; now left). rewrite H in X. destruct X as [X|[]]. congruence. Qed.
  Lemma within_refl (p : pp) : finite p -> within 1 (i_cost (dat p)) (i_cost (dat p)).
  Proof. intros F. apply within_le; [assumption|assumption|]. lra. Qed.
  Lemma join_not_single o i t : full R o \/ part R o -> full R i -> apart (o : pp) (i : pp) -> mkfs (leaves o ++ leaves i) = [t] -> False.
  Proof.
    intros Ho Hi A E. assert (X : exists x, In x (leaves o)).
    { assert (Z : leaves o <> []) by (destruct Ho as [Ho|Ho]; [apply (proj1 plan_shape o Ho)|apply (proj2 plan_shape o Ho)]). destruct (leaves o) as [|x l]; [congruence|]. exists x. now left. }
    assert (Y : exists x, In x (leaves i)). { assert (Z := proj2 (proj2 (proj1 plan_shape i Hi))). destruct (leaves i) as [|x l]; [congruence|]. exists x. now left. }
    destruct X as (x & Hx), Y as (y & Hy).
    assert (X1 : In x [t]) by (rewrite <- E; apply mkfs_In, in_app_iff; auto). assert (X2 : In y [t]) by (rewrite <- E; apply mkfs_In, in_app_iff; auto).
    destruct X1 as [X1|[]], X2 as [X2|[]]. subst. exact (A _ Hx Hy).
  Qed.
  Lemma base_covers t l : base_offers t l -> covers [t] l 1.
  Proof.
    intros H. split.
    - intros q Pq Tq. destruct Pq as [t' w p W Hw F|op o i i' Ho Hi W J1 J2 A L F].
      + assert (t' = t) by (apply mkfs_single; unfold tabs_of in Tq; now rewrite (scan_leaves _ _ _ W) in Tq). subst t'. exists p. split; [apply H; exists w; auto|now apply within_refl].
      + exfalso. unfold tabs_of in Tq. rewrite leaves_joined, (inner_leaves _ _ _ _ _ W) in Tq. exact (join_not_single o i t (or_intror Ho) Hi A Tq).
    - intros q Fq Tq. destruct Fq as [t' w p W F|p w Pp Ew F|op o i i' Ho Hi W J1 J2 A L F].
      + right. assert (t' = t) by (apply mkfs_single; unfold tabs_of in Tq; now rewrite (scan_leaves _ _ _ W) in Tq). subst t'.
        exists p. split; [apply H; exists w; split; [assumption|discriminate]|now apply within_refl].
      + left. exists p, w. rewrite tabs_gathered in Tq. auto.
      + exfalso. unfold tabs_of in Tq. rewrite leaves_joined, (inner_leaves _ _ _ _ _ W) in Tq. exact (join_not_single o i t (or_introl Ho) Hi A Tq).
  Qed.
  Lemma scan_tame t w p : scan_way t w p -> tame p.
  Proof. intros []; unfold tame; rewrite sort_priced; unfold srt; cbn; auto; right; eexists; (split; [reflexivity|discriminate]). Qed.
  Lemma scan_unsorted t w p : ~ In IdxScan scan_ops -> ~ In IdxOnlyScan scan_ops -> scan_way t w p -> srt p = [].
  Proof. intros H1 H2 []; rewrite sort_priced; try reflexivity; contradiction. Qed.
  (** What has to hold of the costs so that the chosen plan is at most [f * f] times as expensive as any other one. *)
  Definition opt_hyps (f : Q) : Prop :=
    nonneg /\ (1 <= f)%Q /\ monotone_at f /\ monotone_at (f * f) /\ ((~ In IdxScan scan_ops /\ ~ In IdxOnlyScan scan_ops) \/ (fuzz <= f)%Q).
  Lemma opt_ok_le k k' (r : ri) : nonneg -> (k <= k')%Q -> opt_ok k r -> opt_ok k' r.
  Proof.
    intros Hn L [H1 H2]. split.
    - intros q Fq Tq. destruct (H1 q Fq Tq) as (b & E & W). exists b. split; [assumption|]. assert (Q0 : (0 <= fin q)%Q) by (apply priced_nonneg; [assumption|apply plan_priced; auto]).
      rewrite (finite_fin q (full_finite q Fq)) in *. destruct W as (a & -> & La). exists a. split; [reflexivity|]. nra.
    - intros q Fq Tq. destruct (H2 q Fq Tq) as (b & E & W). exists b. split; [assumption|]. assert (Q0 : (0 <= fin q)%Q) by (apply priced_nonneg; [assumption|apply plan_priced; auto]).
      rewrite (finite_fin q (part_finite q Fq)) in *. destruct W as (a & -> & La). exists a. split; [reflexivity|]. nra.
  Qed.
  Lemma base_opt f t r : opt_hyps f -> base_rel t = Ok r -> opt_ok (f * f) r.
  Proof.
    intros (Hn & F1 & Mf & _ & Hi) H. destruct (base_rel_inv t r H) as (l & Bl & Fl). apply (opt_ok_le (f * f * 1)); [assumption|lra|].
    apply (finish_opt [t] l r f 1 f); auto; [lra|lra|now apply base_sound| | |now apply base_covers].
    - intros p b Hp. apply Bl in Hp. destruct Hp as (w & W & _). exact (scan_tame _ _ _ W).
    - destruct Hi as [[H1 H2]|Hi]; [left|now right]. intros p b Hp. apply Bl in Hp. destruct Hp as (w & W & _). exact (scan_unsorted _ _ _ H1 H2 W).
  Qed.

  (** ** The levels *)
  Section Levels.
    Context (tabs : list nat) (f : Q).
    Definition fits (j : nat) (S : list nat) : Prop := mkfs S = S /\ length S = j /\ hangs_together R S /\ incl S tabs.
    Definition good_rel (r : ri) : Prop := done r /\ (opt_hyps f -> opt_ok (f * f) r).
    Definition LI (l : nat) (levels : list (list ri)) : Prop :=
      length levels = l /\ forall j, 1 <= j <= l -> NoDup (map ri_set (at_level levels j))
        /\ (forall r, In r (at_level levels j) -> good_rel r /\ fits j (ri_set r))
        /\ (forall S, fits j S -> exists r, In r (at_level levels j) /\ ri_set r = S).
    Lemma rmapM_map {A B C} (F : A -> res B) (g : B -> C) (h : A -> C) l l' : rmapM F l = Ok l' -> (forall x y, In x l -> F x = Ok y -> g y = h x) -> map g l' = map h l.
    Proof.
      revert l'. induction l as [|a l IH]; intros l' E H; cbn in E; [injection E as <-; reflexivity|].
      destruct (F a) as [y|] eqn:Ea; cbn in E; [|discriminate]. destruct (rmapM F l) as [ys|] eqn:El; cbn in E; [|discriminate]. injection E as <-. cbn. f_equal.
      - apply H; [now left|assumption].
      - apply IH; [reflexivity|]. intros x z Hx. apply H. now right.
    Qed.
    Lemma base_levels base : NoDup tabs -> rmapM base_rel tabs = Ok base -> LI 1 [base].
    Proof.
      intros ND E. split; [reflexivity|]. intros j Hj. assert (j = 1) by lia. subst j. cbn [at_level nth Nat.sub]. change (at_level [base] 1) with base.
      assert (Z : forall t r, base_rel t = Ok r -> ri_set r = [t] /\ good_rel r).
      { intros t r Hr. destruct (base_rel_inv t r Hr) as (l & Bl & Fl). destruct (finish_done [t] l r (base_sound t l Bl) Fl) as [Z1 Z2]. split; [assumption|]. split; [assumption|].
        intros Ho. now apply (base_opt f t). }
      destruct (rmapM_ok _ _ _ E) as (X1 & X2 & _). split; [|split].
      - rewrite (rmapM_map base_rel ri_set (fun t => [t]) tabs base E); [|intros t r _ Hr; apply (Z t r Hr)].
        clear - ND. induction ND; cbn; constructor; [|assumption]. rewrite in_map_iff. intros (y & Ey & Hy). injection Ey as ->. contradiction.
      - intros r Hr. destruct (X2 r Hr) as (t & Ht & Et). destruct (Z t r Et) as [Z1 Z2]. split; [assumption|]. rewrite Z1. split; [reflexivity|]. split; [reflexivity|].
        split; [apply hang_single|]. intros x [<-|[]]. assumption.
      - intros S (M & L & Hh & Hi). destruct S as [|t [|]]; try discriminate. destruct (X1 t (Hi t (or_introl eq_refl))) as (r & Er & Hr). exists r. split; [assumption|]. apply (Z t r Er).
    Qed.
    Lemma level_pairs_In l (levels : list (list ri)) a b : 1 <= l -> In (a, b) (level_pairs levels (S l)) ->
      exists i j, 1 <= i <= l /\ 1 <= j <= l /\ i + j = S l /\ In a (at_level levels i) /\ In b (at_level levels j).
    Proof.
      intros Hl H. unfold level_pairs in H. apply in_app_or in H. destruct H as [H|H].
      - apply in_prod_iff in H. exists l, 1. replace (S l - 1) with l in H by lia. repeat split; try lia; tauto.
      - apply in_flat_map in H. destruct H as (s & Hs & H). apply filter_In in Hs. destruct Hs as [Hs H2]. apply in_seq in Hs. apply Nat.leb_le in H2. apply in_prod_iff in H.
        exists s, (S l - s). repeat split; try lia; tauto.
    Qed.
    Lemma level_pairs_complete l (levels : list (list ri)) i j a b : 1 <= i -> 1 <= j -> i + j = S l -> In a (at_level levels i) -> In b (at_level levels j) ->
      In (a, b) (level_pairs levels (S l)) \/ In (b, a) (level_pairs levels (S l)).
    Proof.
      intros Hi Hj E Ha Hb. unfold level_pairs. rewrite !in_app_iff. replace (S l - 1) with l by lia.
      destruct (Nat.eq_dec j 1) as [->|J]; [left; left; apply in_prod_iff; replace l with i by lia; auto|].
      destruct (Nat.eq_dec i 1) as [->|I1]; [right; left; apply in_prod_iff; replace l with j by lia; auto|].
      assert (D : forall s t x y, 2 <= s -> s <= t -> s + t = S l -> In x (at_level levels s) -> In y (at_level levels t) ->
        In (x, y) (flat_map (fun outer_size => list_prod (at_level levels outer_size) (at_level levels (S l - outer_size))) (filter (fun s => 2 <=? S l - s) (seq 2 (S l / 2 - 1))))).
      { intros s t x y Hs Hst Est Hx Hy. apply in_flat_map. exists s. split.
        - apply filter_In. split; [|apply Nat.leb_le; lia]. apply in_seq. assert (s <= S l / 2) by (apply Nat.div_le_lower_bound; lia). lia.
        - apply in_prod_iff. replace (S l - s) with t by lia. auto. }
      destruct (Nat.le_gt_cases i j) as [Q1|Q1]; [left; right; apply (D i j); auto; lia|right; right; apply (D j i); auto; lia].
    Qed.
    Lemma at_level_old levels (cur : list ri) j : 1 <= j <= length levels -> at_level (levels ++ [cur]) j = at_level levels j.
    Proof. intros H. unfold at_level. apply app_nth1. lia. Qed.
    Lemma at_level_new levels (cur : list ri) l : length levels = l -> at_level (levels ++ [cur]) (S l) = cur.
    Proof. intros H. unfold at_level. rewrite app_nth2 by lia. replace (S l - 1 - length levels) with 0 by lia. reflexivity. Qed.
    Lemma disjoint_union_length (A B : list nat) : NoDup A -> NoDup B -> (forall x, In x A -> ~ In x B) -> length (mkfs (A ++ B)) = length A + length B.
    Proof.
      intros HA HB D. rewrite <- app_length. apply NoDup_seteq_length; [apply mkfs_NoDup| |intros x; apply mkfs_In].
      clear - HA HB D. induction A as [|a A IH]; [assumption|]. cbn. inversion HA; subst. constructor; [rewrite in_app_iff; intros [X|X]; [tauto|exact (D a (or_introl eq_refl) X)]|].
      apply IH; [assumption|]. intros x Hx. apply D. now right.
    Qed.
    Lemma split_found l levels S A B : 1 <= l -> LI l levels -> fits (Datatypes.S l) S -> mkfs A = A -> mkfs B = B -> A <> [] -> B <> [] -> (forall x, In x A -> ~ In x B) -> mkfs (A ++ B) = S ->
      hangs_together R A -> hangs_together R B ->
      exists ra rb, ri_set ra = A /\ ri_set rb = B /\ good_rel ra /\ good_rel rb /\ (In (ra, rb) (level_pairs levels (Datatypes.S l)) \/ In (rb, ra) (level_pairs levels (Datatypes.S l))).
    Proof.
      intros Hl [Ll Lv] (Sm & Sl & Sh & Si) MA MB NA NB D U HA HB.
      assert (La : length A + length B = Datatypes.S l). { rewrite <- Sl, <- U. symmetry. apply disjoint_union_length; [rewrite <- MA; apply mkfs_NoDup|rewrite <- MB; apply mkfs_NoDup|assumption]. }
      assert (Pa : 1 <= length A) by (destruct A; [congruence|cbn; lia]). assert (Pb : 1 <= length B) by (destruct B; [congruence|cbn; lia]).
      destruct (proj2 (proj2 (Lv (length A) ltac:(lia))) A) as (ra & Ia & Ea). { repeat split; auto. intros x Hx. apply Si. rewrite <- U. apply mkfs_In, in_app_iff. auto. }
      destruct (proj2 (proj2 (Lv (length B) ltac:(lia))) B) as (rb & Ib & Eb). { repeat split; auto. intros x Hx. apply Si. rewrite <- U. apply mkfs_In, in_app_iff. auto. }
      exists ra, rb. split; [assumption|]. split; [assumption|]. split; [apply (proj1 (proj2 (Lv (length A) ltac:(lia))) ra Ia)|]. split; [apply (proj1 (proj2 (Lv (length B) ltac:(lia))) rb Ib)|].
      apply (level_pairs_complete l levels (length A) (length B)); auto.
    Qed.
    Lemma valid_sym a b : valid (a, b) -> valid (b, a).
    Proof.
      intros [V1 V2]. cbn [fst snd] in *. assert (D : forall x, In x (ri_set b) -> ~ In x (ri_set a)) by (intros x Hx Hy; exact (V1 x Hy Hx)). split; [exact D|]. cbn [fst snd].
      apply Hjb; [assumption|]. apply Hjb in V2; [|assumption]. destruct V2 as (x & y & Hx & Hy & Hr). exists y, x. auto.
    Qed.
    Lemma union_sym a b : union (a, b) = union (b, a).
    Proof. unfold union. cbn [fst snd]. apply mkfs_eq. intros x. rewrite !in_app_iff. tauto. Qed.
    Lemma found_offers pairs hs ra rb : hist_of pairs hs -> done ra -> done rb -> valid (ra, rb) -> In (ra, rb) pairs \/ In (rb, ra) pairs ->
      exists h, In (union (ra, rb), h) hs /\ forall p b, join_way ra rb p b -> In (p, b) h.
    Proof.
      intros (_ & _ & Co) Da Db V [H|H].
      - destruct (Co _ H V) as (h & l1 & l2 & X1 & X2 & X3 & X4). exists h. split; [assumption|]. intros p b W. apply X4, in_or_app. left. apply (join_offers_In (union (ra, rb)) ra rb l1 Da Db eq_refl X2). assumption.
      - destruct (Co _ H (valid_sym _ _ V)) as (h & l1 & l2 & X1 & X2 & X3 & X4). rewrite union_sym. exists h. split; [assumption|]. intros p b W. apply X4, in_or_app. right.
        apply (join_offers_In (union (rb, ra)) ra rb l2 Da Db (union_sym rb ra) X3). assumption.
    Qed.
    Lemma inner_cheaper op m outer i i' i0 : inner_way op m outer i i' -> monotone_at (f * f) -> cheaper (f * f) i0 i -> exists i0', inner_way op m outer i0 i0' /\ cheaper (f * f) i0' i'.
    Proof.
      intros W (_ & Ma & _) C. destruct W as [|cond c1 c2 k Eo Em Ej Hc Hk|Eo Em1 Em2].
      - exists i0. split; [apply iw_plain|assumption].
      - exists (priced (PAux (AMemo k) i0 (mkinfo (i_card (dat i0)) NoCost [] (i_ew (dat i0)) 0))). split; [|now apply Ma].
        rewrite <- (proj1 C) in Ej, Hk. eapply iw_memo; eauto.
      - exists (priced (PAux AMat i0 (mkinfo (i_card (dat i0)) NoCost [] (i_ew (dat i0)) 0))). split; [now apply iw_mat|now apply Ma].
    Qed.
    Lemma join_covered l levels hs S h op o i i' (b : bool) (q := joined op o i') : 1 <= l -> LI l levels -> opt_hyps f -> hist_of (level_pairs levels (Datatypes.S l)) hs -> In (S, h) hs -> fits (Datatypes.S l) S ->
      (if b then part R o else full R o) -> full R i -> inner_way op (negb b) (tabs_of o) i i' -> In op join_ops -> op = NLJ \/ op = HashJ -> apart o i -> linked R o i -> finite q -> tabs_of q = S ->
      exists p, In (p, b) h /\ within (f * f) (i_cost (dat p)) (i_cost (dat q)).
    Proof.
      intros Hl HL Ho HH HS FS Po Fi W J1 J2 A Ln Fq Tq.
      assert (So : hangs_together R (leaves o) /\ NoDup (leaves o) /\ leaves o <> []) by (destruct b; [apply (proj2 plan_shape o Po)|apply (proj1 plan_shape o Po)]).
      assert (Si := proj1 plan_shape i Fi).
      assert (T : mkfs (tabs_of o ++ tabs_of i) = S). { rewrite <- Tq. unfold q, tabs_of. rewrite leaves_joined, (inner_leaves _ _ _ _ _ W). apply mkfs_eq. intros x. rewrite !in_app_iff, !mkfs_In. tauto. }
      assert (D : forall x, In x (tabs_of o) -> ~ In x (tabs_of i)) by (intros x Hx Hy; apply in_tabs in Hx, Hy; exact (A x Hx Hy)).
      assert (NE : forall p : pp, leaves p <> [] -> tabs_of p <> []).
      { intros p Hp Z. destruct (leaves p) as [|x r] eqn:E; [congruence|]. assert (X : In x (tabs_of p)) by (apply in_tabs; rewrite E; now left). rewrite Z in X. destruct X. }
      destruct (split_found l levels S (tabs_of o) (tabs_of i) Hl HL FS) as (ra & rb & Ea & Eb & Ga & Gb & Hp); auto.
      { apply mkfs_mkfs. } { apply mkfs_mkfs. } { apply NE, So. } { apply NE, Si. }
      { apply (hang_seteq R (leaves o)); [intros x; symmetry; apply in_tabs|apply So]. } { apply (hang_seteq R (leaves i)); [intros x; symmetry; apply in_tabs|apply Si]. }
      assert (V : valid (ra, rb)).
      { split; cbn [fst snd]; rewrite Ea, Eb; [assumption|]. apply Hjb; [assumption|]. destruct Ln as (x & y & Hx & Hy & Hr). exists x, y. rewrite !in_tabs. auto. }
      destruct (found_offers _ hs ra rb HH (proj1 Ga) (proj1 Gb) V Hp) as (h' & Hh' & Hway).
      assert (U : union (ra, rb) = S) by (unfold union; cbn [fst snd]; now rewrite Ea, Eb). rewrite U in Hh'.
      assert (h' = h). { destruct HH as [ND _]. revert ND Hh' HS. clear. induction hs as [|[T h0] hs IH]; [intros _ []|]. cbn. intros ND. inversion ND as [|? ? Hn ND']; subst.
        intros [X|X] [Y|Y]; [congruence| | |now apply IH]; exfalso; apply Hn; apply in_map_iff; [exists (S, h)|exists (S, h')]; split; congruence || cbn; try congruence; auto; cbn in *; congruence. }
      subst h'. destruct (proj2 Ga Ho) as [Oa Ob]. destruct (proj2 Gb Ho) as [Ob' _].
      assert (Bo : exists o0, (if b then ri_best_partial ra else ri_best ra) = Some o0 /\ cheaper (f * f) o0 o).
      { destruct Ga as [(_ & (b0 & Eb0 & _ & Tb0) & Dp & _) _]. destruct b.
        - destruct (Ob o Po (eq_sym Ea)) as (o0 & E0 & W0). exists o0. split; [assumption|]. split; [rewrite (proj2 (Dp o0 E0)); congruence|assumption].
        - destruct (Oa o Po (eq_sym Ea)) as (o0 & E0 & W0). exists o0. split; [assumption|]. split; [congruence|assumption]. }
      destruct Bo as (o0 & E0 & C0). destruct (Ob' i Fi (eq_sym Eb)) as (i0 & Ei0 & Wi0).
      assert (Ci : cheaper (f * f) i0 i). { split; [|assumption]. destruct Gb as [(_ & (b0 & Eb0 & _ & Tb0) & _) _]. congruence. }
      destruct Ho as (_ & _ & _ & Mo & _). destruct (inner_cheaper _ _ _ _ _ i0 W Mo Ci) as (i0' & Wi & Ci').
      exists (joined op o0 i0'). split.
      - apply Hway. exists op, o0, i0, i0'. rewrite Ea. auto 10.
      - apply (proj1 Mo op o0 i0' o i' C0 Ci').
    Qed.
    Lemma search_level_LI l levels levels' : 1 <= l -> LI l levels -> search_level levels (S l) = Ok levels' -> LI (S l) levels'.
    Proof.
      intros Hl HL H. unfold PgDP_model.search_level in H.
      destruct (rfold join_pair (level_pairs levels (S l)) []) as [cur|] eqn:E; cbn [rbind] in H; [|discriminate].
      destruct (rmapM finish cur) as [cur'|] eqn:Ef; cbn [rmap rbind] in H; [|discriminate]. injection H as <-.
      destruct (pairs_hist _ _ E) as (hs & -> & HH).
      assert (Pd : forall ab, In ab (level_pairs levels (S l)) -> exists i j, 1 <= i <= l /\ 1 <= j <= l /\ i + j = S l /\ (good_rel (fst ab) /\ fits i (ri_set (fst ab))) /\ (good_rel (snd ab) /\ fits j (ri_set (snd ab)))).
      { intros [a b] Hab. destruct (level_pairs_In l levels a b Hl Hab) as (i & j & Hi & Hj & Eij & Ha & Hb). exists i, j. repeat (split; [assumption|]).
        destruct HL as [_ Lv]. split; [apply (proj1 (proj2 (Lv i Hi)) a Ha)|apply (proj1 (proj2 (Lv j Hj)) b Hb)]. }
      assert (Dn : forall ab, In ab (level_pairs levels (S l)) -> done (fst ab) /\ done (snd ab)).
      { intros ab Hab. destruct (Pd ab Hab) as (i & j & _ & _ & _ & [[X _] _] & [[Y _] _]). auto. }
      assert (Fit : forall S' h, In (S', h) hs -> fits (S l) S').
      { intros S' h Hin. destruct HH as (_ & So & _). destruct (So S' h Hin) as [(ab & Hab & [V1 V2] & ->) _]. destruct (Pd ab Hab) as (i & j & Hi & Hj & Eij & [_ (M1 & L1 & H1 & I1)] & [_ (M2 & L2 & H2 & I2)]).
        unfold union. split; [apply mkfs_mkfs|]. split; [rewrite disjoint_union_length; [lia|rewrite <- M1; apply mkfs_NoDup|rewrite <- M2; apply mkfs_NoDup|assumption]|]. split.
        - apply Hjb in V2; [|assumption]. destruct V2 as (x & y & Hx & Hy & Hr). apply (hang_seteq R (ri_set (fst ab) ++ ri_set (snd ab))); [intros z; symmetry; apply mkfs_In|].
          apply (hang_join R Rsym _ _ x y); assumption.
        - intros x Hx. apply mkfs_In, in_app_or in Hx. destruct Hx; auto. }
      assert (Fin : forall e r, In e hs -> finish (of_hist e) = Ok r -> ri_set r = fst e /\ good_rel r).
      { intros [S' h] r He Hr. assert (Hso := hist_sound _ hs S' h Dn HH He). destruct (finish_done S' h r Hso Hr) as [Z1 Z2]. split; [assumption|]. split; [assumption|]. intros Ho.
        assert (Ho' := Ho). destruct Ho' as (Hn & F1 & _ & Mo & _). assert (FS := Fit S' h He). apply (opt_ok_le (1 * 1 * (f * f))); [assumption|lra|].
        assert (Unsorted : forall p b, In (p, b) h -> srt p = []).
        { intros p b Hp. destruct HH as (_ & So & _). destruct (proj2 (So S' h He) (p, b) Hp) as (ab & l1 & l2 & Hab & V & ES & E1 & E2 & Hin). destruct (Dn ab Hab) as [Da Db].
          assert (W : exists a0 b0, join_way a0 b0 p b).
          { apply in_app_or in Hin. destruct Hin as [Hin|Hin]; [exists (fst ab), (snd ab); apply (join_offers_In S' _ _ l1 Da Db ES E1); assumption|].
            exists (snd ab), (fst ab). apply (join_offers_In S' _ _ l2 Db Da) in Hin; auto. rewrite ES. destruct ab. apply union_sym. }
          destruct W as (a0 & b0 & op & o & i & i' & _ & _ & _ & _ & _ & ->). unfold PgDP_spec.joined. rewrite sort_priced. reflexivity. }
        apply (finish_opt S' h r 1 (f * f) (f * f)); auto; [lra|nra|lra| |].
        - intros p b Hp. left. now apply (Unsorted p b).
        - split.
          + intros q Pq Tq. destruct Pq as [t w p W _ _|op o i i' Po Fi W J1 J2 A L Fq].
            * exfalso. destruct FS as (_ & FS & _). rewrite <- Tq in FS. unfold tabs_of in FS. rewrite (scan_leaves _ _ _ W) in FS. cbn in FS. lia.
            * now apply (join_covered l levels hs S' h op o i i' true).
          + intros q Fq Tq. destruct Fq as [t w p W _|p w Pp Ew Fp|op o i i' Po Fi W J1 J2 A L Fq].
            * exfalso. destruct FS as (_ & FS & _). rewrite <- Tq in FS. unfold tabs_of in FS. rewrite (scan_leaves _ _ _ W) in FS. cbn in FS. lia.
            * left. exists p, w. rewrite tabs_gathered in Tq. auto.
            * right. now apply (join_covered l levels hs S' h op o i i' false). }
      destruct HL as [Ll Lv]. assert (HL : LI l levels) by (split; assumption).
      destruct (rmapM_ok _ _ _ Ef) as (X1 & X2 & _). split; [rewrite app_length; cbn; lia|]. intros j Hj. destruct (Nat.eq_dec j (S l)) as [->|Hne].
      2:{ rewrite at_level_old by lia. apply Lv. lia. }
      rewrite at_level_new by assumption. split; [|split].
      - rewrite (rmapM_map finish ri_set ri_set (map of_hist hs) cur' Ef).
        + rewrite map_map. destruct HH as [ND _]. erewrite map_ext; [exact ND|]. intros e. apply of_hist_set.
        + intros x y Hx Hy. apply in_map_iff in Hx. destruct Hx as (e & <- & He). rewrite of_hist_set. apply (Fin e y He Hy).
      - intros r Hr. destruct (X2 r Hr) as (x & Hx & Hf). apply in_map_iff in Hx. destruct Hx as (e & <- & He). destruct (Fin e r He Hf) as [Z1 Z2]. split; [assumption|]. rewrite Z1.
        destruct e as [S' h]. exact (Fit S' h He).
      - intros S' FS. assert (FS' := FS). destruct FS' as (M & Ls & Hh & Hi). assert (ND : NoDup S') by (rewrite <- M; apply mkfs_NoDup).
        destruct (peel R Rsym S' Hh ND ltac:(lia)) as (v & A & Hv & HvA & NA & HA & NDA & Eq).
        assert (D : forall x, In x (mkfs A) -> ~ In x [v]) by (intros x Hx [<-|[]]; apply HvA; now apply mkfs_In).
        destruct (split_found l levels S' (mkfs A) [v] Hl HL FS) as (ra & rb & Ea & Eb & Ga & Gb & Hp); auto.
        { apply mkfs_mkfs. } { intros Z. destruct A as [|y A']; [congruence|]. assert (X : In y (mkfs (y :: A'))) by (apply mkfs_In; now left). rewrite Z in X. destruct X. } { discriminate. }
        { rewrite <- M. apply mkfs_eq. intros x. rewrite in_app_iff, mkfs_In, (Eq x). cbn. tauto. } { apply (hang_seteq R A); [intros x; symmetry; apply mkfs_In|assumption]. } { apply hang_single. }
        assert (V : valid (ra, rb)).
        { split; cbn [fst snd]; rewrite Ea, Eb; [assumption|]. apply Hjb; [assumption|]. destruct A as [|y A']; [congruence|].
          destruct (crossing R S' (y :: A') Hh y v) as (x & z & Hx & HxA & Hz & HzA & Hr); [apply Eq; right; now left|now left|assumption|assumption|].
          exists x, z. split; [now apply mkfs_In|]. split; [|assumption]. apply Eq in Hz. destruct Hz as [<-|Hz]; [now left|contradiction]. }
        destruct (found_offers _ hs ra rb HH (proj1 Ga) (proj1 Gb) V Hp) as (h & Hh' & _).
        assert (U : union (ra, rb) = S'). { unfold union. cbn [fst snd]. rewrite Ea, Eb, <- M. apply mkfs_eq. intros x. rewrite in_app_iff, mkfs_In, (Eq x). cbn. tauto. }
        rewrite U in Hh'. destruct (X1 (of_hist (S', h))) as (r & Er & Ir); [apply in_map; assumption|]. exists r. split; [assumption|]. apply (Fin (S', h) r Hh' Er).
    Qed.
    Lemma levels_LI n : forall l levels levels', 1 <= l -> LI l levels -> rfold search_level (seq (S l) n) levels = Ok levels' -> LI (l + n) levels'.
    Proof.
      induction n as [|n IH]; intros l levels levels' Hl HL H; cbn in H; [injection H as <-; now rewrite Nat.add_0_r|].
      destruct (search_level levels (S l)) as [lv|] eqn:E; cbn in H; [|discriminate]. replace (l + S n) with (S l + n) by lia. apply (IH (S l) lv); [lia| |assumption].
      now apply (search_level_LI l levels).
    Qed.
    Lemma fits_top S : NoDup tabs -> fits (length tabs) S -> S = mkfs tabs.
    Proof.
      intros ND (M & L & _ & Hi). rewrite <- M. apply mkfs_eq. intros x. split; [apply Hi|]. apply (NoDup_length_incl (l := S)); [rewrite <- M; apply mkfs_NoDup|lia|assumption].
    Qed.
    Lemma fits_tabs : NoDup tabs -> hangs_together R tabs -> fits (length tabs) (mkfs tabs).
    Proof.
      intros ND Hh. split; [apply mkfs_mkfs|]. split; [apply NoDup_seteq_length; [apply mkfs_NoDup|assumption|intros x; apply mkfs_In]|]. split.
      - apply (hang_seteq R tabs); [intros x; symmetry; apply mkfs_In|assumption].
      - intros x Hx. now apply mkfs_In.
    Qed.
    Lemma join_search_spec r : NoDup tabs -> join_search tabs = Ok r -> good_rel r /\ ri_set r = mkfs tabs /\ hangs_together R tabs /\ tabs <> [].
    Proof.
      intros ND H. unfold PgDP_model.join_search in H. destruct (rmapM base_rel tabs) as [base|] eqn:Eb; cbn [rbind] in H; [|discriminate].
      destruct (rfold search_level (seq 2 (length tabs - 1)) [base]) as [levels|] eqn:E; cbn [rbind] in H; [|discriminate].
      assert (HL := levels_LI (length tabs - 1) 1 [base] levels ltac:(lia) (base_levels base ND Eb) E).
      destruct (at_level levels (length tabs)) as [|r0 [|]] eqn:El; try discriminate. destruct tabs as [|t ts] eqn:Et; [discriminate|]. injection H as ->. rewrite <- Et in *.
      assert (1 <= length tabs) by (rewrite Et; cbn; lia). replace (1 + (length tabs - 1)) with (length tabs) in HL by lia.
      destruct HL as [_ Lv]. destruct (Lv (length tabs) ltac:(lia)) as (_ & X & _). rewrite El in X. destruct (X r (or_introl eq_refl)) as [Gr Fr]. split; [assumption|].
      assert (Er := fits_top _ ND Fr). split; [assumption|]. split; [|rewrite Et; discriminate]. apply (hang_seteq R (ri_set r)); [rewrite Er; intros x; apply mkfs_In|apply Fr].
    Qed.
    (** *** Something is always found *)
    Definition usable : Prop :=
      (forall p, inputs_finite p -> cost p <> None) /\ (forall x, exists w, workers x w) /\ (forall t, In t tabs -> exists w p, scan_way t w p) /\ (In NLJ join_ops \/ In HashJ join_ops)
      /\ (enable_memo = true -> forall A B cond c1 c2, joins_between A B = Some cond -> In (c1, c2) (partners cond) -> In (ktab c1) B \/ In (ktab c2) B)
      /\ (In MergeJ join_ops -> forall A B cond c, joins_between A B = Some cond -> In c (conjuncts cond) -> length (partners c) <> 2).
    Lemma gadd_nonempty (l : list pp) (p : pp) : gadd l p <> [].
    Proof.
      destruct l as [|a r]; [discriminate|]. unfold gadd. assert (X : forall (cur : list pp) out, gadd_loop p cur = (out, false) -> out <> []).
      { induction cur as [|o cur IH]; intros out E; cbn in E; [discriminate|]. destruct (negb _).
        - destruct (gadd_loop p cur) as [out' k] eqn:E'. injection E as <- ->. discriminate.
        - destruct (dominates _ _); [now apply IH|]. injection E as <-. discriminate. }
      destruct (gadd_loop p (a :: r)) as [out k] eqn:E. destruct k; [destruct out; discriminate|exact (X _ _ E)].
    Qed.
    Lemma offers_nonempty (ps : list pp) p : In p ps -> isInf p = false -> offers [] ps <> [].
    Proof.
      intros H F. assert (Y : forall (l : list pp) x, l <> [] -> offer l x <> []). { intros l x Hl. unfold offer. destruct (i_cost (dat x)); auto using gadd_nonempty. }
      assert (Z : forall (qs : list pp) l, l <> [] -> offers l qs <> []). { induction qs as [|q qs IH]; intros l Hl; [assumption|]. cbn. apply IH, Y, Hl. }
      assert (G : forall l, offers l ps <> []); [|apply G]. induction ps as [|a r IH]; intros l; [destruct H|]. cbn. destruct H as [<-|H]; [|now apply IH].
      apply Z. unfold offer. unfold isInf in F. destruct (i_cost (dat a)); try discriminate; apply gadd_nonempty.
    Qed.
    Lemma finish_total S h p : sound S h -> In (p, false) h -> isInf p = false -> exists r, finish (add_paths (new_rel S) h) = Ok r.
    Proof.
      intros Hs Hp F. unfold PgDP_model.finish. rewrite add_paths_eq. cbn [ri_partial ri_paths ri_set ri_card ri_best ri_best_partial PgDP_model.new_rel].
      destruct (rmapM_total (gather cost) (offers [] (parts h))) as (gs & E).
      { intros x Hx. destruct (part_ew x (proj1 (parts_sound S h x Hs Hx))) as (w & Ew & _). unfold gather. rewrite Ew. eauto. }
      rewrite E. cbn [rbind]. rewrite add_paths_eq. unfold set_cheapest. cbn [ri_partial ri_paths ri_set ri_card ri_best ri_best_partial]. rewrite offers_app.
      match goal with |- context [gsort (offers [] ?l)] => destruct (gsort (offers [] l)) as [|x xs] eqn:G; [exfalso; apply gsort_nil in G; revert G; apply (offers_nonempty l p); [|assumption]; apply in_or_app; left; now apply fulls_In|] end.
      match goal with |- context [match gsort ?l with _ => _ end] => destruct (gsort l) end; eexists; reflexivity.
    Qed.
    Lemma usable_finite p : usable -> inputs_finite p -> isInf (priced p) = false.
    Proof. intros (H & _) Hi. unfold isInf. rewrite cost_priced. specialize (H p Hi). destruct (cost p); congruence. Qed.
    Lemma base_total t : usable -> In t tabs -> exists r, base_rel t = Ok r.
    Proof.
      intros Hu Ht. destruct (base_rel_lists t) as [(e & _ & X)|(l & Bl & E)]; [destruct X; apply Hu|]. rewrite E.
      destruct (proj1 (proj2 (proj2 Hu)) t Ht) as (w & p & W). assert (Ip : In (p, false) l) by (apply Bl; exists w; split; [assumption|discriminate]).
      assert (Hs := base_sound t l Bl). apply (finish_total [t] l p Hs Ip). destruct W; apply (usable_finite _ Hu); exact Logic.I.
    Qed.
    Lemma join_offers_total c a b : usable -> done a -> done b -> joins_between (ri_set a) (ri_set b) <> None -> exists l, join_offers c a b = Ok l.
    Proof.
      intros (_ & _ & _ & _ & Hm & Hc) Da Db Lk. destruct (joins_between (ri_set a) (ri_set b)) as [cond|] eqn:Ej; [|congruence].
      destruct Da as (_ & (o & Eo & _) & _). destruct Db as (_ & (i & Ei & _) & _). unfold PgDP_model.join_offers, nlj_offers, hash_offers, merge_offers. rewrite Eo, Ei, Ej.
      assert (K : exists ks, (if enable_memo then cache_keys joins_between partners ktab (ri_set a) (ri_set b) else Ok []) = Ok ks).
      { destruct enable_memo; [|eauto]. unfold cache_keys. rewrite Ej. apply rmapM_total. intros [c1 c2] Hin. cbn [fst snd].
        destruct (mem (ktab c1) (ri_set b)) eqn:M1; [rewrite M1; eauto|]. destruct (Hm eq_refl _ _ _ c1 c2 Ej Hin) as [X|X]; apply mem_In in X; [congruence|]. rewrite X. eauto. }
      destruct K as (ks & ->). cbn [rbind].
      assert (M : exists u : list (pp * bool), (if has_join join_ops MergeJ then rmap (fun _ => []) (rmapM (join_columns partners) (conjuncts cond)) else Ok []) = Ok u).
      { destruct (has_join join_ops MergeJ) eqn:HM; [|eauto]. apply has_join_In in HM. destruct (rmapM_total (join_columns partners) (conjuncts cond)) as (us & ->); [|cbn; eauto].
        intros x Hx. unfold join_columns. destruct (length (partners x) =? 2) eqn:E2; [|eauto]. apply Nat.eqb_eq in E2. exfalso. exact (Hc HM _ _ _ _ Ej Hx E2). }
      destruct M as (u & M). destruct (has_join join_ops NLJ); cbn [rbind]; rewrite M; cbn [rbind]; destruct (has_join join_ops HashJ); cbn [rbind]; eauto.
    Qed.
    Lemma update_total hs S g : (forall r, ri_card r = card S -> exists r', g r = Ok r') -> exists cur, update card (map of_hist hs) S g = Ok cur.
    Proof.
      intros Hg. induction hs as [|[T h] hs (cur & IH)]; cbn [map update].
      - destruct (Hg (new_rel S) eq_refl) as (r' & ->). cbn. eauto.
      - rewrite of_hist_set. cbn [fst]. destruct (deqb T S) eqn:E; [|rewrite IH; cbn; eauto].
        apply (proj1 (deqb_eq _ _)) in E. destruct (Hg (of_hist (T, h))) as (r' & ->); [rewrite of_hist_card; cbn; congruence|]. cbn. eauto.
    Qed.
    Lemma pairs_total pairs : usable -> (forall ab, In ab pairs -> done (fst ab) /\ done (snd ab)) -> exists cur, rfold join_pair pairs [] = Ok cur.
    Proof.
      intros Hu. induction pairs as [|[a b] pairs IH] using rev_ind; intros Hd; [cbn; eauto|]. rewrite rfold_app.
      destruct IH as (cur & Ec); [intros ab Hab; apply Hd, in_or_app; auto|]. rewrite Ec. cbn [rbind rfold]. destruct (pairs_hist _ _ Ec) as (hs & -> & _).
      unfold PgDP_model.join_pair. destruct (existsb _ _) eqn:Ex; [cbn; eauto|]. destruct (joins_between (ri_set a) (ri_set b)) as [cond|] eqn:Ej; [|cbn; eauto].
      destruct (Hd (a, b)) as [Da Db]; [apply in_or_app; right; now left|]. cbn [fst snd] in Da, Db.
      assert (V : valid (a, b)).
      { split; cbn [fst snd]; [|congruence]. intros x Hx Hy. apply Bool.not_true_iff_false in Ex. apply Ex. apply existsb_exists. exists x. split; [assumption|]. now apply mem_In. }
      match goal with |- context [update card (map of_hist hs) ?U ?g] => destruct (update_total hs U g) as (cur & ->) end; [|cbn; eauto].
      intros r _. destruct (join_offers_total (ri_card r) a b Hu Da Db) as (l1 & ->); [congruence|]. cbn [rbind].
      destruct (join_offers_total (ri_card r) b a Hu Db Da) as (l2 & ->); [apply (valid_sym a b V)|]. cbn. eauto.
    Qed.
    Lemma search_level_total l levels : 1 <= l -> LI l levels -> usable -> exists levels', search_level levels (S l) = Ok levels'.
    Proof.
      intros Hl HL Hu. unfold PgDP_model.search_level.
      assert (Dn : forall ab, In ab (level_pairs levels (S l)) -> done (fst ab) /\ done (snd ab)).
      { intros [a b] Hab. destruct (level_pairs_In l levels a b Hl Hab) as (i & j & Hi & Hj & _ & Ha & Hb). destruct HL as [_ Lv].
        split; [apply (proj1 (proj2 (Lv i Hi)) a Ha)|apply (proj1 (proj2 (Lv j Hj)) b Hb)]. }
      destruct (pairs_total (level_pairs levels (S l)) Hu Dn) as (cur & E). rewrite E. cbn [rbind]. destruct (pairs_hist _ _ E) as (hs & -> & HH).
      destruct (rmapM_total finish (map of_hist hs)) as (cur' & ->); [|cbn; eauto]. intros x Hx. apply in_map_iff in Hx. destruct Hx as ([S' h] & <- & He).
      assert (Hso := hist_sound _ hs S' h Dn HH He). destruct HH as (ND & So & Co). destruct (So S' h He) as [(ab & Hab & V & ES) _]. destruct (Co ab Hab V) as (h' & l1 & l2 & X1 & X2 & X3 & X4).
      assert (h' = h). { rewrite <- ES in X1. revert ND X1 He. clear. induction hs as [|[T h0] hs IH]; [intros _ []|]. cbn. intros ND. inversion ND as [|? ? Hn ND']; subst.
        intros [X|X] [Y|Y]; [congruence| | |now apply IH]; exfalso; apply Hn; apply in_map_iff; [exists (S', h)|exists (S', h')]; split; congruence || cbn; try congruence; auto; cbn in *; congruence. }
      subst h'. destruct (Dn ab Hab) as [Da Db]. assert (Da' := Da). assert (Db' := Db). destruct Da' as (_ & (o & Eo & Fo & _) & _). destruct Db' as (_ & (i & Ei & Fi & _) & _).
      assert (W : exists op, join_way (fst ab) (snd ab) (joined op o i) false).
      { destruct Hu as (_ & _ & _ & [Hn|Hh] & _); [exists NLJ, NLJ, o, i, i|exists HashJ, HashJ, o, i, i]; repeat split; auto; apply iw_plain. }
      destruct W as (op & W). assert (Ip : In (joined op o i, false) h) by (apply X4, in_or_app; left; apply (join_offers_In (union ab) (fst ab) (snd ab) l1 Da Db eq_refl X2); assumption).
      apply (finish_total S' h (joined op o i) Hso Ip). apply usable_finite; [assumption|]. split; now apply full_finite.
    Qed.
    Lemma levels_total n : usable -> forall l levels, 1 <= l -> LI l levels -> exists levels', rfold search_level (seq (S l) n) levels = Ok levels'.
    Proof.
      intros Hu. induction n as [|n IH]; intros l levels Hl HL; cbn; [eauto|]. destruct (search_level_total l levels Hl HL Hu) as (lv & E). rewrite E. cbn [rbind].
      apply (IH (S l) lv); [lia|]. now apply (search_level_LI l levels).
    Qed.
    Lemma search_total : NoDup tabs -> usable -> exists base levels, rmapM base_rel tabs = Ok base /\ rfold search_level (seq 2 (length tabs - 1)) [base] = Ok levels.
    Proof.
      intros ND Hu. destruct (rmapM_total base_rel tabs (fun t Ht => base_total t Hu Ht)) as (base & Eb). exists base.
      destruct (levels_total (length tabs - 1) Hu 1 [base] ltac:(lia) (base_levels base ND Eb)) as (levels & E). eauto.
    Qed.
    Lemma join_search_total : NoDup tabs -> tabs <> [] -> hangs_together R tabs -> usable -> exists r, join_search tabs = Ok r.
    Proof.
      intros ND NE Hh Hu. destruct (search_total ND Hu) as (base & levels & Eb & E). unfold PgDP_model.join_search. rewrite Eb. cbn [rbind]. rewrite E. cbn [rbind].
      assert (HL := levels_LI (length tabs - 1) 1 [base] levels ltac:(lia) (base_levels base ND Eb) E). assert (L1 : 1 <= length tabs) by (destruct tabs; [congruence|cbn; lia]).
      replace (1 + (length tabs - 1)) with (length tabs) in HL by lia. destruct HL as [_ Lv]. destruct (Lv (length tabs) ltac:(lia)) as (N1 & X & Y).
      destruct (Y (mkfs tabs) (fits_tabs ND Hh)) as (r & Hr & _).
      assert (Z : at_level levels (length tabs) = [r]).
      { destruct (at_level levels (length tabs)) as [|a [|b rs]]; [destruct Hr|destruct Hr as [<-|[]]; reflexivity|]. exfalso.
        assert (Ea := fits_top _ ND (proj2 (X a (or_introl eq_refl)))). assert (Eb' := fits_top _ ND (proj2 (X b (or_intror (or_introl eq_refl))))).
        cbn in N1. inversion N1 as [|? ? Hn _]; subst. apply Hn. left. congruence. }
      rewrite Z. destruct tabs; [congruence|eauto].
    Qed.
    Lemma join_search_disconnected : NoDup tabs -> ~ hangs_together R tabs -> forall levels base, rmapM base_rel tabs = Ok base -> rfold search_level (seq 2 (length tabs - 1)) [base] = Ok levels ->
      join_search tabs = Raise AssertionError.
    Proof.
      intros ND Hh levels base Eb E. unfold PgDP_model.join_search. rewrite Eb. cbn [rbind]. rewrite E. cbn [rbind].
      assert (HL := levels_LI (length tabs - 1) 1 [base] levels ltac:(lia) (base_levels base ND Eb) E).
      destruct (at_level levels (length tabs)) as [|r0 rs] eqn:El; [reflexivity|]. exfalso. apply Hh. destruct tabs as [|t ts] eqn:Et; [intros x y []|]. rewrite <- Et in *.
      assert (1 <= length tabs) by (rewrite Et; cbn; lia). replace (1 + (length tabs - 1)) with (length tabs) in HL by lia.
      destruct HL as [_ Lv]. destruct (Lv (length tabs) ltac:(lia)) as (_ & X & _). rewrite El in X. destruct (X r0 (or_introl eq_refl)) as [Gr Fr].
      assert (Er := fits_top _ ND Fr). apply (hang_seteq R (ri_set r0)); [rewrite Er; intros x; apply mkfs_In|apply Fr].
    Qed.
  End Levels.
End Search.
