(** Lemmas about move_into_subquery. *)
From Coq Require Import List Bool Arith Lia Permutation.
From Verif Require Import PyBase Pred_model Trans_model MSub_model MSub_spec.
Import ListNotations.

Lemma In_olist {A} (o : option A) k : In k (olist o) -> o = Some k.
Proof. destruct o; cbn; [intros [->|[]]; reflexivity|intros []]. Qed.

(** ** Conjuncts and remove_predicate *)
Lemma within_trans x y z : within x y -> within y z -> within x z.
Proof. intros H1 H2. revert H1. induction H2; intros; [assumption|constructor; auto|econstructor; eauto|eapply w_or; eauto]. Qed.
Lemma conjunct_within d p : In d (conjuncts p) -> within d p.
Proof.
  induction p as [op a b|a lo hi|a vs|op a|p IH|ps IH|ps IH] using pred_ind'; cbn; intros H; try (destruct H as [<-|[]]; constructor).
  apply in_flat_map in H as (c & Hc & H). rewrite Forall_forall in IH. econstructor; eauto.
Qed.
Fixpoint lsum (l : list nat) : nat := match l with [] => 0 | x :: r => x + lsum r end.
Fixpoint psize (p : prd) : nat := match p with PNot q => S (psize q) | PAnd ps | POr ps => S (lsum (map psize ps)) | _ => 1 end.
Lemma lsum_In (l : list nat) x : In x l -> x <= lsum l.
Proof. induction l as [|y l IH]; cbn; intros H; [destruct H|]. destruct H as [->|H]; [lia|]. specialize (IH H). lia. Qed.
Lemma within_size x p : within x p -> x = p \/ psize x < psize p.
Proof.
  induction 1 as [|p H IH|p ps Hi H IH|p ps Hi H IH]; [auto| | |]; right; cbn.
  - destruct IH as [->|]; lia.
  - assert (psize p <= lsum (map psize ps)) by (apply lsum_In, in_map; exact Hi). destruct IH as [->|]; lia.
  - assert (psize p <= lsum (map psize ps)) by (apply lsum_In, in_map; exact Hi). destruct IH as [->|]; lia.
Qed.
Lemma within_antisym x y : within x y -> within y x -> x = y.
Proof. intros H1 H2. apply within_size in H1. apply within_size in H2. destruct H1 as [|H1]; [assumption|]. destruct H2 as [|H2]; [auto|lia]. Qed.

Definition kids_of (x : prd) (ps : list prd) : list prd := flat_map (fun c => olist (remove_pred x c)) ps.
Lemma remove_unfold x p : remove_pred x p =
  if deqb p x then None else match p with
  | PNot q => match remove_pred x q with Some q' => Some (PNot q') | None => None end
  | PAnd ps => match kids_of x ps with [] => None | [q] => Some q | cs => Some (PAnd cs) end
  | POr ps => match kids_of x ps with [] => None | [q] => Some q | cs => Some (POr cs) end
  | b => Some b end.
Proof.
  assert (K : forall ps, (fix go l := match l with [] => [] | c :: r => match remove_pred x c with Some q => q :: go r | None => go r end end) ps = kids_of x ps).
  { induction ps as [|c r IH]; [reflexivity|]. cbn. destruct (remove_pred x c); cbn; rewrite IH; reflexivity. }
  destruct p; cbn [remove_pred]; try reflexivity; destruct (deqb _ x); try reflexivity; rewrite K; reflexivity.
Qed.
Lemma remove_absent x p : wfp p = true -> ~ within x p -> remove_pred x p = Some p.
Proof.
  induction p as [op a b|a lo hi|a vs|op a|p IH|ps IH|ps IH] using pred_ind'; intros W N; rewrite remove_unfold;
    (destruct (deqb _ x) eqn:Eq; [apply deqb_true in Eq; subst x; destruct N; constructor|]); auto.
  - rewrite IH; [reflexivity|exact W|]. intros H. apply N. constructor. exact H.
  - cbn in W. apply andb_prop in W as [L W]. rewrite forallb_forall in W. rewrite Forall_forall in IH.
    assert (E : kids_of x ps = ps).
    { unfold kids_of. assert (forall c, In c ps -> remove_pred x c = Some c) as R.
      { intros c Hc. apply IH; auto. intros H. apply N. econstructor; eauto. }
      clear - R. induction ps as [|c r IHr]; [reflexivity|]. cbn. rewrite R by (left; reflexivity). cbn. rewrite IHr; [reflexivity|]. intros d Hd. apply R. right. exact Hd. }
    rewrite E. destruct ps as [|c [|d r]]; cbn in L; try discriminate. reflexivity.
  - cbn in W. apply andb_prop in W as [L W]. rewrite forallb_forall in W. rewrite Forall_forall in IH.
    assert (E : kids_of x ps = ps).
    { unfold kids_of. assert (forall c, In c ps -> remove_pred x c = Some c) as R.
      { intros c Hc. apply IH; auto. intros H. apply N. eapply w_or; eauto. }
      clear - R. induction ps as [|c r IHr]; [reflexivity|]. cbn. rewrite R by (left; reflexivity). cbn. rewrite IHr; [reflexivity|]. intros d Hd. apply R. right. exact Hd. }
    rewrite E. destruct ps as [|c [|d r]]; cbn in L; try discriminate. reflexivity.
Qed.
Definition guarded (x p : prd) : Prop := forall d, In d (conjuncts p) -> d = x \/ ~ within x d.
Definition oconj (o : option prd) : list prd := match o with Some p => conjuncts p | None => [] end.
Lemma and_opt_conj l : oconj (and_opt l) = flat_map conjuncts l.
Proof. destruct l as [|a [|b l]]; cbn; rewrite ?app_nil_r; reflexivity. Qed.
Lemma remove_leaf x p : conjuncts p = [p] -> wfp p = true -> guarded x p ->
  (forall d, In d (oconj (remove_pred x p)) -> In d (conjuncts p)) /\
  (forall d, In d (conjuncts p) -> In d (oconj (remove_pred x p)) \/ In d (conjuncts x)).
Proof.
  intros C W G. destruct (G p) as [E|E]; [rewrite C; left; reflexivity| |].
  - subst x. assert (R : remove_pred p p = None) by (rewrite remove_unfold, deqb_refl; reflexivity). rewrite R. split; [intros d []|auto].
  - rewrite (remove_absent x p W E). split; auto.
Qed.
Lemma remove_conj x p : wfp p = true -> guarded x p ->
  (forall d, In d (oconj (remove_pred x p)) -> In d (conjuncts p)) /\
  (forall d, In d (conjuncts p) -> In d (oconj (remove_pred x p)) \/ In d (conjuncts x)).
Proof.
  intros W G. induction p as [op a b|a lo hi|a vs|op a|p IH|ps IH|ps IH] using pred_ind'.
  1-5,7: apply remove_leaf; auto.
  rewrite remove_unfold. destruct (deqb (PAnd ps) x) eqn:Eq.
  - apply deqb_true in Eq. subst x. cbn [oconj]. split; [intros d []|auto].
  - assert (X : match kids_of x ps with [] => None | [q] => Some q | cs => Some (PAnd cs) end = and_opt (kids_of x ps)) by (destruct (kids_of x ps) as [|? [|? ?]]; reflexivity). rewrite X, and_opt_conj. clear X Eq.
    cbn in W. apply andb_prop in W as [_ W]. rewrite forallb_forall in W. rewrite Forall_forall in IH.
    assert (H : forall c, In c ps -> (forall d, In d (oconj (remove_pred x c)) -> In d (conjuncts c)) /\ (forall d, In d (conjuncts c) -> In d (oconj (remove_pred x c)) \/ In d (conjuncts x))).
    { intros c Hc. apply IH; auto. intros d Hd. apply G. cbn. apply in_flat_map. eauto. }
    split.
    + intros d Hd. apply in_flat_map in Hd as (k & Hk & Hd). unfold kids_of in Hk. apply in_flat_map in Hk as (c & Hc & Hk).
      cbn. apply in_flat_map. exists c. split; [exact Hc|]. apply (proj1 (H c Hc)). destruct (remove_pred x c); cbn in Hk; [|destruct Hk]. destruct Hk as [<-|[]]. exact Hd.
    + intros d Hd. cbn in Hd. apply in_flat_map in Hd as (c & Hc & Hd). destruct (proj2 (H c Hc) d Hd) as [Hr|Hr]; [left|right; exact Hr].
      apply in_flat_map. destruct (remove_pred x c) as [k|] eqn:Ek; [|destruct Hr]. exists k. split; [|exact Hr].
      unfold kids_of. apply in_flat_map. exists c. rewrite Ek. cbn. auto.
Qed.
(** the results are well-formed *)
Lemma wf_and_opt l : forallb wfp l = true -> match and_opt l with Some p => wfp p = true | None => True end.
Proof. destruct l as [|a [|b l]]; cbn; auto. rewrite andb_true_r. auto. Qed.
Lemma remove_wf x p : wfp p = true -> match remove_pred x p with Some q => wfp q = true | None => True end.
Proof.
  induction p as [op a b|a lo hi|a vs|op a|p IH|ps IH|ps IH] using pred_ind'; intros W; rewrite remove_unfold; destruct (deqb _ x); auto.
  - specialize (IH W). destruct (remove_pred x p); auto.
  - cbn in W. apply andb_prop in W as [_ W]. rewrite forallb_forall in W. rewrite Forall_forall in IH.
    assert (X : match kids_of x ps with [] => None | [q] => Some q | cs => Some (PAnd cs) end = and_opt (kids_of x ps)) by (destruct (kids_of x ps) as [|? [|? ?]]; reflexivity).
    rewrite X. apply wf_and_opt. apply forallb_forall. intros k Hk. unfold kids_of in Hk. apply in_flat_map in Hk as (c & Hc & Hk).
    specialize (IH c Hc (W c Hc)). apply In_olist in Hk. rewrite Hk in IH. exact IH.
  - cbn in W. apply andb_prop in W as [_ W]. rewrite forallb_forall in W. rewrite Forall_forall in IH.
    assert (F : forallb wfp (kids_of x ps) = true).
    { apply forallb_forall. intros k Hk. unfold kids_of in Hk. apply in_flat_map in Hk as (c & Hc & Hk).
      specialize (IH c Hc (W c Hc)). apply In_olist in Hk. rewrite Hk in IH. exact IH. }
    destruct (kids_of x ps) as [|a [|b l]]; cbn in *; auto. rewrite andb_true_r in F. exact F.
Qed.
Lemma remove_all_conj sp : forall w, match w with Some p => wfp p = true | None => True end ->
  (forall x, In x sp -> forall p, w = Some p -> guarded x p) ->
  (forall d, In d (oconj (remove_all sp w)) -> In d (oconj w)) /\
  (forall d, In d (oconj w) -> In d (oconj (remove_all sp w)) \/ exists x, In x sp /\ In d (conjuncts x)).
Proof.
  unfold remove_all. induction sp as [|x sp IH]; intros w W G; cbn [fold_left]; [split; auto|].
  destruct w as [p|].
  - pose proof (remove_conj x p W (G x (or_introl eq_refl) p eq_refl)) as [A B]. pose proof (remove_wf x p W) as W'.
    destruct (IH (remove_pred x p) W') as [C D].
    + intros y Hy q Hq d Hd. assert (Hd' : In d (conjuncts p)) by (apply A; rewrite Hq; exact Hd). exact (G y (or_intror Hy) p eq_refl d Hd').
    + split; [auto|]. intros d Hd. destruct (B d Hd) as [H|H]; [|right; exists x; cbn; auto].
      destruct (D d H) as [H1|(y & Hy & H1)]; [auto|right; exists y; cbn; auto].
  - destruct (IH None I) as [C D]; [intros y _ q Hq; discriminate|]. split; [exact C|].
    intros d [].
Qed.

(** ** The collected predicates are conjuncts *)
Lemma filter_all {A} (f : A -> bool) l : (forall x, In x l -> f x = true) -> filter f l = l.
Proof. induction l as [|x l IH]; cbn; intros H; [reflexivity|]. rewrite H by auto. f_equal. apply IH. auto. Qed.
Lemma filter_none {A} (f : A -> bool) l : (forall x, In x l -> f x = false) -> filter f l = [].
Proof. induction l as [|x l IH]; cbn; intros H; [reflexivity|]. rewrite H by auto. apply IH. auto. Qed.
Lemma collect_filters_conj p : unmixed p -> forall f, In f (collect_filters xcols p) -> In f (conjuncts p) /\ conjuncts f = [f].
Proof.
  induction p as [op a b|a lo hi|a vs|op a|p IH|ps IH|ps IH] using pred_ind'; intros U f H; cbn [collect_filters] in H.
  1-4: destruct (is_filter _ _); [destruct H as [<-|[]]; cbn; auto|destruct H].
  - destruct (is_filter _ _); [destruct H as [<-|[]]; cbn; auto|destruct H].
  - apply in_flat_map in H as (c & Hc & H). rewrite Forall_forall in IH. destruct (IH c Hc) with (f := f) as [A B]; auto.
    + intros qs Hq. apply U. cbn. apply in_flat_map. eauto.
    + split; [|exact B]. cbn. apply in_flat_map. eauto.
  - destruct (U ps (or_introl eq_refl)) as [L [N|N]].
    + rewrite filter_all in H by (intros c Hc; unfold is_filter; rewrite N; auto). destruct ps as [|a [|b r]]; cbn in L; try lia.
      destruct H as [<-|[]]. cbn. auto.
    + rewrite filter_none in H by (intros c Hc; unfold is_filter; rewrite N; auto). destruct H.
Qed.
Lemma collect_joins_conj p : unmixed p -> forall f, In f (collect_joins xcols p) -> In f (conjuncts p) /\ conjuncts f = [f].
Proof.
  induction p as [op a b|a lo hi|a vs|op a|p IH|ps IH|ps IH] using pred_ind'; intros U f H; cbn [collect_joins] in H.
  1-4: destruct (is_join _ _); [destruct H as [<-|[]]; cbn; auto|destruct H].
  - destruct (is_join _ _); [destruct H as [<-|[]]; cbn; auto|destruct H].
  - apply in_flat_map in H as (c & Hc & H). rewrite Forall_forall in IH. destruct (IH c Hc) with (f := f) as [A B]; auto.
    + intros qs Hq. apply U. cbn. apply in_flat_map. eauto.
    + split; [|exact B]. cbn. apply in_flat_map. eauto.
  - destruct (U ps (or_introl eq_refl)) as [L [N|N]].
    + rewrite filter_none in H by (intros c Hc; rewrite N; auto). destruct H.
    + rewrite filter_all in H by (intros c Hc; rewrite N; auto). destruct ps as [|a [|b r]]; cbn in L; try lia.
      destruct H as [<-|[]]. cbn. auto.
Qed.

(** the values of the join map are conjunctions of joins *)
Definition from_js (js : list prd) (x : prd) : Prop := forall d, In d (conjuncts x) -> exists j, In j js /\ In d (conjuncts j).
Lemma dget_set {K A} {EK : EqD K} (d : dict K A) k v k' : dget (dset d k v) k' = if eqd k' k then Some v else dget d k'.
Proof. destruct (eqd k' k) as [->|N]; [apply dset_same|apply dset_other; congruence]. Qed.
Lemma group_joins_from t js0 js : incl js js0 -> forall acc g, (forall k l, dget acc k = Some l -> incl l js0) -> dwf acc ->
  group_joins xcols t js acc = Ok g -> (forall k l, dget g k = Some l -> incl l js0) /\ dwf g.
Proof.
  induction js as [|j js IH]; intros Hj acc g Ha Hw H; cbn [group_joins] in H; [injection H as <-; auto|].
  assert (Hj' : incl js js0) by (intros y Hy; apply Hj; right; exact Hy).
  destruct (contains_table xcols j t); [|exact (IH Hj' acc g Ha Hw H)].
  destruct (join_partners_of xcols j t) as [cs|]; cbn [rbind] in H; [|discriminate].
  refine (IH Hj' _ g _ _ H).
  - intros k l. rewrite dget_set. destruct (eqd k _) as [->|N]; [|apply Ha]. intros X. injection X as <-. intros y Hy. apply in_app_iff in Hy as [Hy|[<-|[]]].
    + destruct (dget acc _) as [l'|] eqn:El; [exact (Ha _ _ El y Hy)|destruct Hy].
    + apply Hj. left. reflexivity.
  - apply dwf_dset. exact Hw.
Qed.

Lemma rmapM_In {A B} (f : A -> res B) l l' y : rmapM f l = Ok l' -> In y l' -> exists x, In x l /\ f x = Ok y.
Proof.
  revert l'. induction l as [|x l IH]; intros l' H Hy; cbn in H; [injection H as <-; destruct Hy|].
  destruct (f x) eqn:E; cbn in H; [|discriminate]. destruct (rmapM f l) eqn:El; cbn in H; [|discriminate]. injection H as <-.
  destruct Hy as [<-|Hy]; [exists x; cbn; auto|]. destruct (IH _ eq_refl Hy) as (z & Hz & E'). exists z. cbn. auto.
Qed.
Lemma joins_for_from js t l : joins_for xcols js t = Ok l -> Forall (from_js js) l.
Proof.
  unfold joins_for. destruct (group_joins xcols t js []) as [g|] eqn:G; cbn [rbind]; [|discriminate]. intros H.
  assert (W0 : dwf (@nil (list nat * list prd))) by constructor.
  destruct (group_joins_from t js js (incl_refl _) [] g ltac:(intros k l0 X; discriminate X) W0 G) as [A W].
  apply Forall_forall. intros y Hy. destruct (rmapM_In _ _ _ _ H Hy) as (x & Hx & E).
  unfold dvalues in Hx. apply in_map_iff in Hx as ([k v] & <- & Hx). apply In_dget in Hx; [|exact W]. apply A in Hx.
  intros d Hd. cbn in E. destruct v as [|p [|p' v]]; cbn in E; try discriminate; injection E as <-.
  - exists p. split; [apply Hx; left; reflexivity|exact Hd].
  - change (In d (flat_map conjuncts (p :: p' :: v))) in Hd. apply in_flat_map in Hd as (c & Hc & Hd). exists c. split; [apply Hx; exact Hc|exact Hd].
Qed.
Lemma map_add_from js t jps : Forall (from_js js) jps -> forall m m', (forall k j, dget m k = Some j -> from_js js j) ->
  map_add xcols t jps m = Ok m' -> forall k j, dget m' k = Some j -> from_js js j.
Proof.
  induction 1 as [|j jps Hj _ IH]; intros m m' Hm H; cbn [map_add] in H; [injection H as <-; exact Hm|].
  destruct (join_partners_of xcols j t) as [cs|]; cbn [rbind] in H; [|discriminate]. refine (IH _ _ _ H).
  intros k i. destruct (dmem m _); [apply Hm|]. rewrite dget_set. destruct (eqd k _); [intros X; injection X as <-; exact Hj|apply Hm].
Qed.
Lemma init_map_from js ts : forall m m', (forall k j, dget m k = Some j -> from_js js j) ->
  init_map xcols js ts m = Ok m' -> forall k j, dget m' k = Some j -> from_js js j.
Proof.
  induction ts as [|t ts IH]; intros m m' Hm H; cbn [init_map] in H; [injection H as <-; exact Hm|].
  destruct (joins_for xcols js t) as [l|] eqn:El; cbn [rbind] in H; [|discriminate].
  destruct (map_add xcols t l m) as [m1|] eqn:E1; cbn [rbind] in H; [|discriminate].
  refine (IH _ _ _ H). exact (map_add_from js t l (joins_for_from _ _ _ El) m m1 Hm E1).
Qed.

Lemma sub_preds_conj ord ts p sp : (forall l x, In x (ord l) -> In x l) -> unmixed p -> sub_preds ord ts (Some p) = Ok sp ->
  forall x d, In x sp -> In d (conjuncts x) -> In d (conjuncts p).
Proof.
  intros O U H x d Hx Hd. cbn [sub_preds] in H. unfold query_predicates in H.
  destruct (init_map _ _ _ _) as [m|] eqn:M; cbn [rbind] in H; [|discriminate]. injection H as <-.
  apply in_app_iff in Hx as [Hx|Hx].
  - apply in_flat_map in Hx as (t & Ht & Hx).
    assert (Hd' : In d (oconj (and_opt (filters_for xcols (ord (collect_filters xcols p)) t)))).
    { apply In_olist in Hx. rewrite Hx. exact Hd. }
    rewrite and_opt_conj in Hd'. apply in_flat_map in Hd' as (f & Hf & Hd'). unfold filters_for in Hf. apply filter_In in Hf as [Hf _]. apply O in Hf.
    destruct (collect_filters_conj p U f Hf) as [A B]. rewrite B in Hd'. destruct Hd' as [<-|[]]. exact A.
  - assert (Hd' : In d (oconj (and_opt (ord (map_joins_between m ts ts))))) by (apply In_olist in Hx; rewrite Hx; exact Hd).
    rewrite and_opt_conj in Hd'. apply in_flat_map in Hd' as (j & Hj & Hd'). apply O in Hj.
    assert (F : from_js (ord (collect_joins xcols p)) j).
    { unfold map_joins_between in Hj. apply in_flat_map in Hj as (a & _ & Hj). apply in_flat_map in Hj as (b & _ & Hj).
      destruct (dget m _) as [j'|] eqn:E; [|destruct Hj]. destruct Hj as [<-|[]]. exact (init_map_from _ _ [] m ltac:(intros k j X; discriminate X) M _ _ E). }
    destruct (F d Hd') as (i & Hi & Hdi). apply O in Hi. destruct (collect_joins_conj p U i Hi) as [A B]. rewrite B in Hdi. destruct Hdi as [<-|[]]. exact A.
Qed.

(** ... of at least one join *)
Lemma joins_for_ne js t l : (forall j, In j js -> conjuncts j <> []) -> joins_for xcols js t = Ok l -> forall j, In j l -> conjuncts j <> [].
Proof.
  intros Hn. unfold joins_for. destruct (group_joins xcols t js []) as [g|] eqn:G; cbn [rbind]; [|discriminate]. intros H j Hj.
  assert (W0 : dwf (@nil (list nat * list prd))) by constructor.
  destruct (group_joins_from t js js (incl_refl _) [] g ltac:(intros k l0 X; discriminate X) W0 G) as [A W].
  destruct (rmapM_In _ _ _ _ H Hj) as (x & Hx & E).
  unfold dvalues in Hx. apply in_map_iff in Hx as ([k v] & <- & Hx). apply In_dget in Hx; [|exact W]. apply A in Hx.
  cbn in E. destruct v as [|p [|p' v]]; cbn in E; try discriminate; injection E as <-.
  - apply Hn, Hx. left. reflexivity.
  - cbn. intros X. apply app_eq_nil in X as [X _]. revert X. apply Hn, Hx. left. reflexivity.
Qed.
Lemma map_add_ne t jps : (forall j, In j jps -> conjuncts j <> []) -> forall m m', (forall k j, dget m k = Some j -> conjuncts j <> []) ->
  map_add xcols t jps m = Ok m' -> forall k j, dget m' k = Some j -> conjuncts j <> [].
Proof.
  induction jps as [|j jps IH]; intros Hj m m' Hm H; cbn [map_add] in H; [injection H as <-; exact Hm|].
  destruct (join_partners_of xcols j t) as [cs|]; cbn [rbind] in H; [|discriminate]. refine (IH _ _ _ _ H).
  - intros i Hi. apply Hj. right. exact Hi.
  - intros k i. destruct (dmem m _); [apply Hm|]. rewrite dget_set. destruct (eqd k _); [intros X; injection X as <-; apply Hj; left; reflexivity|apply Hm].
Qed.
Lemma init_map_ne js ts : (forall j, In j js -> conjuncts j <> []) -> forall m m', init_map xcols js ts m = Ok m' ->
  (forall k j, dget m k = Some j -> conjuncts j <> []) -> forall k j, dget m' k = Some j -> conjuncts j <> [].
Proof.
  intros Hn. induction ts as [|t ts IH]; intros m m' H Hm; cbn [init_map] in H; [injection H as <-; exact Hm|].
  destruct (joins_for xcols js t) as [l|] eqn:El; cbn [rbind] in H; [|discriminate].
  destruct (map_add xcols t l m) as [m1|] eqn:E1; cbn [rbind] in H; [|discriminate].
  refine (IH _ _ H _). exact (map_add_ne t l (joins_for_ne js t l Hn El) m m1 Hm E1).
Qed.
