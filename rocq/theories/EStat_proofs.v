(** Lemmas for C266-C270. *)
From Coq Require Import List Bool Arith ZArith QArith Lia Sorting.Sorted Sorting.Permutation.
From Verif Require Import PyBase EStat_model EStat_spec.
Import ListNotations.
Local Open Scope nat_scope.

(** ** sorting *)
Lemma insert_perm {A} (leb : A -> A -> bool) x l : Permutation (insert leb x l) (x :: l).
Proof.
  induction l as [|y l IH]; cbn; [reflexivity|]. destruct (leb x y); [reflexivity|]. etransitivity; [apply perm_skip, IH|]. apply perm_swap.
Qed.
Lemma sort_perm {A} (leb : A -> A -> bool) l : Permutation (sort leb l) l.
Proof. induction l as [|x l IH]; cbn; [reflexivity|]. etransitivity; [apply insert_perm|]. apply perm_skip. exact IH. Qed.
Lemma insert_sorted {A} (leb : A -> A -> bool) (R : A -> A -> Prop) (P : A -> Prop) x l :
  (forall a b c, P a -> P b -> P c -> R a b -> R b c -> R a c) ->
  (forall a b, P a -> P b -> leb a b = true -> R a b) -> (forall a b, P a -> P b -> leb a b = false -> R b a) ->
  P x -> Forall P l -> StronglySorted R l -> StronglySorted R (insert leb x l).
Proof.
  intros T H1 H2 X F S0. induction S0 as [|y l S0 IH G]; cbn; [repeat constructor|].
  apply Forall_cons_iff in F as [Y F]. destruct (leb x y) eqn:E.
  - constructor; [constructor; assumption|]. constructor; [apply H1; assumption|]. rewrite Forall_forall in *. intros z Z. apply (T x y z); auto.
  - constructor; [apply IH; exact F|]. rewrite Forall_forall in *. intros z Z. apply (Permutation_in _ (insert_perm leb x l)) in Z as [<- | Z]; [apply H2; assumption | apply G; exact Z].
Qed.
Lemma sort_sorted {A} (leb : A -> A -> bool) (R : A -> A -> Prop) (P : A -> Prop) l :
  (forall a b c, P a -> P b -> P c -> R a b -> R b c -> R a c) ->
  (forall a b, P a -> P b -> leb a b = true -> R a b) -> (forall a b, P a -> P b -> leb a b = false -> R b a) ->
  Forall P l -> StronglySorted R (sort leb l).
Proof.
  intros T H1 H2 F. induction F as [|x l X F IH]; cbn; [constructor|]. apply (insert_sorted leb R P); try assumption.
  rewrite Forall_forall in *. intros y Y. apply F. apply (Permutation_in _ (sort_perm leb l)). exact Y.
Qed.
(** A list sorted by an antisymmetric relation is determined by its elements. *)
Lemma sorted_unique {A} (R : A -> A -> Prop) l m : (forall a b, In a l -> In b l -> R a b -> R b a -> a = b) ->
  StronglySorted R l -> StronglySorted R m -> Permutation l m -> l = m.
Proof.
  intros AS S1. revert m. induction S1 as [|x l S1 IH F]; intros m S2 P.
  - apply Permutation_nil in P. congruence.
  - destruct m as [|y m]; [apply Permutation_sym, Permutation_nil in P; discriminate|].
    inversion S2 as [|? ? S2' F2]; subst. rewrite Forall_forall in F, F2.
    assert (E : x = y).
    { destruct (Permutation_in x P (or_introl eq_refl)) as [E|E]; [congruence|].
      destruct (Permutation_in y (Permutation_sym P) (or_introl eq_refl)) as [E'|E']; [congruence|].
      apply AS; [left; reflexivity | right; exact E' | apply F; exact E' | apply F2; exact E]. }
    subst y. f_equal. apply IH; [intros a b Ha Hb; apply AS; right; assumption | exact S2' | apply Permutation_cons_inv with x; exact P].
Qed.
Lemma sorted_map {A B} (f : A -> B) (R : B -> B -> Prop) l : StronglySorted (fun a b => R (f a) (f b)) l -> StronglySorted R (map f l).
Proof. induction 1 as [|x l S0 IH F]; cbn; constructor; [exact IH|]. rewrite Forall_map. exact F. Qed.
Lemma sorted_firstn {A} (R : A -> A -> Prop) l k : StronglySorted R l -> StronglySorted R (firstn k l).
Proof.
  intros S0. revert k. induction S0 as [|x l S0 IH F]; intros [|k]; cbn; try constructor; [apply IH|].
  rewrite Forall_forall in *. intros y Y. apply F. rewrite <- (firstn_skipn k l). apply in_or_app. left. exact Y.
Qed.

(** ** the answers of the database *)
Lemma vcount_occ v l : vcount v l = occurrences l v.
Proof.
  unfold vcount, occurrences. induction l as [|x l IH]; cbn; [reflexivity|].
  destruct (deqb v x) eqn:E; destruct (v_dec x v) as [D|D]; cbn; try (f_equal; exact IH); try exact IH.
  - apply deqb_true in E. congruence.
  - apply deqb_false in E. congruence.
Qed.
Lemma nonnull_In l x : In x (nonnull l) <-> In (Some x) l.
Proof.
  unfold nonnull. rewrite in_flat_map. split.
  - intros ([y|] & H & I0); cbn in I0; [|contradiction]. destruct I0 as [<-|[]]. exact H.
  - intros H. exists (Some x). split; [exact H | left; reflexivity].
Qed.
Lemma groups_fst l : map fst (groups l) = dedup l.
Proof. unfold groups. rewrite map_map. cbn. apply map_id. Qed.
Lemma groups_tally l : tally l (groups l).
Proof.
  split; [rewrite groups_fst; apply dedup_NoDup|]. intros v f. unfold groups. rewrite in_map_iff. split.
  - intros (x & E & H). injection E as <- <-. rewrite dedup_In in H. split; [exact H | apply vcount_occ].
  - intros [H ->]. exists v. split; [f_equal; apply vcount_occ | apply dedup_In; exact H].
Qed.
Lemma tally_perm l m m' : tally l m -> Permutation m m' -> tally l m'.
Proof.
  intros [N H] P. split; [eapply Permutation_NoDup; [apply Permutation_map; exact P | exact N]|].
  intros v f. rewrite <- H. split; intros I0; [apply (Permutation_in _ (Permutation_sym P)) | apply (Permutation_in _ P)]; exact I0.
Qed.
Lemma fold_min l x : In (fold_left Z.min l x) (x :: l) /\ forall y, In y (x :: l) -> (fold_left Z.min l x <= y)%Z.
Proof.
  revert x. induction l as [|a l IH]; intros x; cbn [fold_left]; [split; [left; reflexivity | intros y [<-|[]]; lia]|].
  destruct (IH (Z.min x a)) as [I0 L]. split.
  - destruct I0 as [E|I0]; [|right; right; exact I0]. rewrite <- E. destruct (Z.min_spec x a) as [[_ ->]|[_ ->]]; [left | right; left]; reflexivity.
  - intros y [<-|[<-|Y]]; [| |apply L; right; exact Y]; specialize (L _ (or_introl eq_refl)); lia.
Qed.
Lemma fold_max l x : In (fold_left Z.max l x) (x :: l) /\ forall y, In y (x :: l) -> (y <= fold_left Z.max l x)%Z.
Proof.
  revert x. induction l as [|a l IH]; intros x; cbn [fold_left]; [split; [left; reflexivity | intros y [<-|[]]; lia]|].
  destruct (IH (Z.max x a)) as [I0 L]. split.
  - destruct I0 as [E|I0]; [|right; right; exact I0]. rewrite <- E. destruct (Z.max_spec x a) as [[_ ->]|[_ ->]]; [right; left | left]; reflexivity.
  - intros y [<-|[<-|Y]]; [| |apply L; right; exact Y]; specialize (L _ (or_introl eq_refl)); lia.
Qed.
Lemma least l : is_least l (fold_opt Z.min (nonnull l)).
Proof.
  assert (N := nonnull_In l). destruct (nonnull l) as [|x r]; cbn [fold_opt is_least].
  - intros x H. apply N in H. exact H.
  - destruct (fold_min r x) as [I0 L]. split; [apply N; exact I0 | intros y Y; apply L; apply N; exact Y].
Qed.
Lemma greatest l : is_greatest l (fold_opt Z.max (nonnull l)).
Proof.
  assert (N := nonnull_In l). destruct (nonnull l) as [|x r]; cbn [fold_opt is_greatest].
  - intros x H. apply N in H. exact H.
  - destruct (fold_max r x) as [I0 L]. split; [apply N; exact I0 | intros y Y; apply L; apply N; exact Y].
Qed.
Lemma by_count_desc l : descending (sort by_count l).
Proof.
  apply (sort_sorted by_count _ (fun _ => True)).
  - intros; lia.
  - intros a b _ _ H. unfold by_count in H. apply orb_true_iff in H as [H|H]; [apply Nat.ltb_lt in H; lia|]. apply andb_true_iff in H as [H _]. apply Nat.eqb_eq in H. lia.
  - intros a b _ _ H. unfold by_count in H. apply orb_false_iff in H as [H _]. apply Nat.ltb_ge in H. exact H.
  - apply Forall_forall. trivial.
Qed.
Lemma mcv_desc_desc l : descending (sort mcv_desc l).
Proof.
  apply (sort_sorted mcv_desc _ (fun _ => True)).
  - intros; lia.
  - intros a b _ _ H. unfold mcv_desc in H. apply orb_true_iff in H as [H|H]; [apply Nat.ltb_lt in H; lia|]. apply andb_true_iff in H as [H _]. apply Nat.eqb_eq in H. lia.
  - intros a b _ _ H. unfold mcv_desc in H. apply orb_false_iff in H as [H _]. apply Nat.ltb_ge in H. exact H.
  - apply Forall_forall. trivial.
Qed.
Lemma null_tie_spec m : null_tie m = true <-> exists f x, In (None, f) m /\ In (Some x, f) m.
Proof.
  unfold null_tie. rewrite existsb_exists. split.
  - intros ([[x|] f] & H & E); cbn in E; [discriminate|]. apply existsb_exists in E as ([[y|] f'] & H' & E); cbn in E; [|discriminate].
    apply Nat.eqb_eq in E as <-. exists f, y. split; assumption.
  - intros (f & x & H & H'). exists (None, f). split; [exact H|]. cbn. apply existsb_exists. exists (Some x, f). split; [exact H' | apply Nat.eqb_refl].
Qed.
Lemma tally_no_tie l m : tally l m -> null_tie m = false <-> no_tie l.
Proof.
  intros [_ T]. destruct (null_tie m) eqn:E.
  - apply null_tie_spec in E as (f & x & H & H'). apply T in H as [H E1]. apply T in H' as [H' E2]. split; [discriminate|]. intros N. exfalso. apply (N x H H'). congruence.
  - split; [|reflexivity]. intros _ x H H' E'. assert (B : null_tie m = true); [|congruence]. apply null_tie_spec. exists (occurrences l None), x.
    split; apply T; split; try assumption; [reflexivity]. 
Qed.

(** ** histograms *)
Definition value_lt (a b : value) : Prop := le_value a b = true /\ a <> b.
Lemma le_value_upto a b : le_value a b = upto b a.
Proof. destruct a, b; reflexivity. Qed.
Lemma le_value_trans a b c : le_value a b = true -> le_value b c = true -> le_value a c = true.
Proof. destruct a, b, c; cbn; try discriminate; try reflexivity; rewrite !Z.leb_le; lia. Qed.
Lemma le_value_total a b : le_value a b = false -> le_value b a = true.
Proof. destruct a, b; cbn; try discriminate; try reflexivity. rewrite Z.leb_gt, Z.leb_le. lia. Qed.
Lemma le_value_antisym a b : le_value a b = true -> le_value b a = true -> a = b.
Proof. destruct a, b; cbn; try discriminate; try reflexivity. rewrite !Z.leb_le. intros. f_equal. lia. Qed.
Lemma by_value_sorted l : StronglySorted (fun a b => by_value a b = true) (sort by_value l).
Proof.
  apply (sort_sorted by_value _ (fun _ => True)).
  - intros a b c _ _ _. apply le_value_trans.
  - trivial.
  - intros a b _ _. apply le_value_total.
  - apply Forall_forall. trivial.
Qed.
Lemma strict_sorted (l : list (value * nat)) : NoDup (map fst l) -> StronglySorted (fun a b => by_value a b = true) l -> StronglySorted (fun a b => value_lt (fst a) (fst b)) l.
Proof.
  induction 2 as [|x l S0 IH F]; constructor; cbn in H; inversion H as [|? ? NI ND]; subst; [apply IH; exact ND|].
  rewrite Forall_forall in *. intros y Y. split; [apply F; exact Y|]. intros E. apply NI. rewrite E. apply in_map. exact Y.
Qed.
Definition weight (b : value) (l : list (value * nat)) : nat := total (map snd (filter (fun e => upto b (fst e)) l)).
Lemma weight_cons b e l : weight b (e :: l) = (if upto b (fst e) then snd e else 0) + weight b l.
Proof. unfold weight. cbn [filter]. destruct (upto b (fst e)); reflexivity. Qed.
Lemma weight_none b l : (forall e, In e l -> upto b (fst e) = false) -> weight b l = 0.
Proof. induction l as [|e l IH]; intros H; [reflexivity|]. rewrite weight_cons, H by (left; reflexivity). apply IH. intros x X. apply H. right. exact X. Qed.
Lemma infer_spec size l : forall cum bs ks, StronglySorted (fun a b => value_lt (fst a) (fst b)) l -> infer_loop size cum l = (bs, ks) ->
  List.length bs = List.length ks /\ forall i b, nth_error bs i = Some b -> In b (map fst l) /\ total (firstn (S i) ks) = cum + weight b l.
Proof.
  induction l as [|[v f] l IH]; intros cum bs ks S0 E; cbn [infer_loop] in E.
  - injection E as <- <-. split; [reflexivity|]. intros [|i] b H; discriminate.
  - inversion S0 as [|? ? S1 F]; subst. rewrite Forall_forall in F. cbn [fst] in F.
    assert (U : forall b, In b (map fst l) -> upto b v = true).
    { intros b B. apply in_map_iff in B as (e & <- & B). destruct (F _ B) as [L _]. rewrite <- le_value_upto. exact L. }
    destruct (cum + f <? size) eqn:C.
    + destruct (IH _ _ _ S1 E) as [LE H]. split; [exact LE|]. intros i b B. destruct (H i b B) as [I0 W]. split; [right; exact I0|].
      rewrite W, weight_cons. cbn [fst snd]. rewrite (U b I0). lia.
    + destruct (infer_loop size 0 l) as [bs' ks'] eqn:E'. injection E as <- <-. destruct (IH _ _ _ S1 E') as [LE H]. split; [cbn; f_equal; exact LE|].
      intros [|i] b B; cbn [nth_error] in B.
      * injection B as <-. split; [left; reflexivity|]. rewrite weight_cons. cbn [fst snd]. rewrite (weight_none v l).
        -- rewrite <- le_value_upto. replace (le_value v v) with true; [destruct ks'; cbn; lia|]. destruct v; cbn; [symmetry; apply Z.leb_refl | reflexivity].
        -- intros e X. destruct (F _ X) as [L N]. rewrite <- le_value_upto. destruct (le_value (fst e) v) eqn:Y; [|reflexivity]. exfalso. apply N. apply le_value_antisym; assumption.
      * destruct (H i b B) as [I0 W]. split; [right; exact I0|]. rewrite weight_cons. cbn [fst snd]. rewrite (U b I0).
        change (total (firstn (S (S i)) (cum + f :: ks'))) with (cum + f + total (firstn (S i) ks')). lia.
Qed.
(** Weights of the groups are numbers of rows. *)
Lemma weight_app b l m : weight b (l ++ m) = weight b l + weight b m.
Proof. induction l as [|e l IH]; [reflexivity|]. cbn [app]. rewrite !weight_cons, IH. lia. Qed.
Lemma weight_perm b l m : Permutation l m -> weight b l = weight b m.
Proof. induction 1; rewrite ?weight_cons; try lia. Qed.
Lemma weight_counts b (d l : list value) : NoDup d -> (forall v, In v l -> In v d) ->
  weight b (map (fun v => (v, vcount v l)) d) = rows_upto b l.
Proof.
  intros N. induction l as [|x l IH]; intros H.
  - unfold rows_upto. cbn [filter List.length]. clear. induction d as [|v d IH]; [reflexivity|]. cbn [map]. rewrite weight_cons. cbn [fst snd]. destruct (upto b v); cbn; exact IH.
  - unfold rows_upto in *. cbn [filter]. specialize (IH (fun v V => H v (or_intror V))).
    assert (X : In x d) by (apply H; left; reflexivity). apply in_split in X as (d1 & d2 & ->).
    assert (N1 : ~ In x (d1 ++ d2)) by (apply NoDup_remove_2; exact N).
    assert (EQ : forall d', (forall v, In v d' -> v <> x) -> map (fun v => (v, vcount v (x :: l))) d' = map (fun v => (v, vcount v l)) d').
    { intros d' D. apply map_ext_in. intros v V. f_equal. unfold vcount. cbn [filter]. destruct (deqb v x) eqn:E; [|reflexivity]. apply deqb_true in E. exfalso. apply (D v V E). }
    rewrite map_app, weight_app in *. cbn [map] in *. rewrite weight_cons in *. cbn [fst snd] in *.
    rewrite (EQ d1) by (intros v V ->; apply N1, in_or_app; left; exact V). rewrite (EQ d2) by (intros v V ->; apply N1, in_or_app; right; exact V).
    assert (C : vcount x (x :: l) = S (vcount x l)) by (unfold vcount; cbn [filter]; rewrite deqb_refl; reflexivity).
    rewrite C. destruct (upto b x); cbn [List.length]; lia.
Qed.
Lemma weight_rows b l : weight b (sort by_value (groups l)) = rows_upto b l.
Proof.
  rewrite (weight_perm _ _ _ (sort_perm by_value (groups l))). unfold groups. apply weight_counts; [apply dedup_NoDup | intros v V; apply dedup_In; exact V].
Qed.
Lemma total_all (l : list (value * nat)) : weight None l = total (map snd l).
Proof. induction l as [|e l IH]; [reflexivity|]. rewrite weight_cons, IH. reflexivity. Qed.
Lemma rows_upto_None l : rows_upto None l = List.length l.
Proof. unfold rows_upto. induction l as [|x l IH]; cbn; [reflexivity | f_equal; exact IH]. Qed.
(** At least one bucket is found if the bucket size is not above the total. *)
Lemma infer_nonempty size l : forall cum, l <> [] -> size <= cum + total (map snd l) -> fst (infer_loop size cum l) <> [].
Proof.
  induction l as [|[v f] l IH]; intros cum N H; [congruence|]. cbn [infer_loop]. destruct (cum + f <? size) eqn:C.
  - change (total (map snd ((v, f) :: l))) with (f + total (map snd l)) in H. destruct l as [|e l].
    + apply Nat.ltb_lt in C. cbn in H. lia.
    + apply IH; [discriminate|]. lia.
  - destruct (infer_loop size 0 l). discriminate.
Qed.
