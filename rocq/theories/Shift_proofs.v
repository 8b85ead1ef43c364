From Coq Require Import String List Bool Arith ZArith QArith Qround Lia Lqa Permutation.
From Verif Require Import PyBase Shift_model Shift_spec.
Import ListNotations.
Open Scope nat_scope.

(** *** tables *)
Lemma is_key_true k e : is_key k e = true <-> fst e = k.
Proof.
  unfold is_key. destruct k as [a b], e as [[a' b'] t]. cbn. rewrite andb_true_iff, !String.eqb_eq. split; [intros [-> ->]; reflexivity|intros H; injection H as -> ->; auto].
Qed.
Lemma is_key_fst k e t : is_key k (fst e, t) = is_key k e.
Proof. reflexivity. Qed.
Lemma find_set_same d k t : find_table (set_table d k t) k = Some t.
Proof.
  assert (K : is_key k (k, t) = true) by (apply is_key_true; reflexivity).
  induction d as [|e d IH]; cbn [set_table find_table]; [rewrite K; reflexivity|].
  destruct (is_key k e) eqn:E; cbn [find_table]; [rewrite is_key_fst, E; reflexivity|rewrite E; exact IH].
Qed.
Lemma find_set_other d k k' t : k' <> k -> find_table (set_table d k t) k' = find_table d k'.
Proof.
  intros N. induction d as [|e d IH]; cbn [set_table find_table].
  - destruct (is_key k' (k, t)) eqn:E; [|reflexivity]. apply is_key_true in E. cbn in E. congruence.
  - destruct (is_key k e) eqn:E; cbn [find_table].
    + rewrite is_key_fst. destruct (is_key k' e) eqn:E'; [|reflexivity]. apply is_key_true in E, E'. congruence.
    + rewrite IH. reflexivity.
Qed.
Lemma replaced_intro d k t rs : find_table d k = Some t -> rows_replaced d k rs (set_table d k (with_rows t rs)).
Proof. intros H. split; [intros k' N; apply find_set_other; exact N|]. exists t. split; [exact H|]. apply find_set_same. Qed.

(** *** splitting *)
Lemma splits_filter (f : row -> bool) rs : splits rs (filter f rs) (filter (fun r => negb (f r)) rs).
Proof. induction rs as [|r rs IH]; cbn; [constructor|]. destruct (f r); cbn; constructor; exact IH. Qed.
Lemma splits_perm rs g k : splits rs g k -> Permutation rs (g ++ k).
Proof. induction 1; cbn; [constructor|constructor; assumption|]. etransitivity; [apply perm_skip; exact IHsplits|]. apply Permutation_middle. Qed.

Lemma null_eqb_true a b : null_eqb a b = true <-> exists x, a = Some x /\ b = Some x.
Proof.
  destruct a as [x|], b as [y|]; cbn; split; try discriminate; try (intros (z & A & B); discriminate).
  - intros H. apply Nat.eqb_eq in H. subst. eauto.
  - intros (z & A & B). injection A as ->. injection B as ->. apply Nat.eqb_refl.
Qed.
Lemma keyed_inj c rs r r' : keyed c rs -> In r rs -> In r' rs -> get r c = get r' c -> r = r'.
Proof.
  intros [N _]. induction rs as [|x rs IH]; intros A B E; [destruct A|]. cbn in N. inversion N as [|? ? N1 N2]; subst.
  destruct A as [->|A], B as [->|B]; auto; exfalso; apply N1; [rewrite E|rewrite <- E]; apply (in_map (fun r => get r c)); assumption.
Qed.
Lemma keyed_nodup c rs : keyed c rs -> NoDup rs.
Proof. intros [N _]. eapply NoDup_map_inv. exact N. Qed.
Lemma keyed_perm c rs rs' : Permutation rs rs' -> keyed c rs -> keyed c rs'.
Proof.
  intros P [A B]. split; [eapply Permutation_NoDup; [apply Permutation_map; exact P|exact A]|]. rewrite Forall_forall in *. intros r Hr. apply B. eapply Permutation_in; [symmetry; exact P|exact Hr].
Qed.

(** deleting by the keys of the first [n] rows of a permutation deletes exactly these *)
Lemma delete_prefix c n rs ps : keyed c rs -> Permutation ps rs ->
  exists gone, splits rs gone (filter (fun r => negb (existsb (fun s => null_eqb s (get r c)) (map (fun r => get r c) (firstn n ps)))) rs)
    /\ Permutation gone (firstn n ps) /\ List.length gone = Nat.min n (List.length rs)
    /\ Permutation (filter (fun r => negb (existsb (fun s => null_eqb s (get r c)) (map (fun r => get r c) (firstn n ps)))) rs) (skipn n ps).
Proof.
  intros K P. set (f := fun r => existsb (fun s => null_eqb s (get r c)) (map (fun r => get r c) (firstn n ps))).
  assert (F : forall r, In r rs -> (f r = true <-> In r (firstn n ps))).
  { intros r Hr. unfold f. rewrite existsb_exists. split.
    - intros (s & Hs & E). apply in_map_iff in Hs as (r' & <- & Hr'). apply null_eqb_true in E as (x & E1 & E2).
      assert (r' = r); [|subst; exact Hr']. apply (keyed_inj c rs); [exact K| |exact Hr|congruence]. eapply Permutation_in; [exact P|]. rewrite <- (firstn_skipn n ps). apply in_or_app. left. exact Hr'.
    - intros H. exists (get r c). split; [apply (in_map (fun r => get r c)); exact H|]. destruct K as [_ K]. rewrite Forall_forall in K. specialize (K r Hr). apply null_eqb_true. destruct (get r c) as [x|]; [eauto|congruence]. }
  assert (ND : NoDup ps) by (eapply Permutation_NoDup; [symmetry; exact P|eapply keyed_nodup; exact K]).
  assert (NR : NoDup rs) by (eapply keyed_nodup; exact K).
  assert (Sub : forall r, In r (firstn n ps) -> In r rs) by (intros r Hr; eapply Permutation_in; [exact P|]; rewrite <- (firstn_skipn n ps); apply in_or_app; left; exact Hr).
  assert (PG : Permutation (filter f rs) (firstn n ps)).
  { apply NoDup_Permutation; [apply NoDup_filter; exact NR| |].
    - rewrite <- (firstn_skipn n ps) in ND. clear - ND. induction (firstn n ps) as [|x l IH]; [constructor|]. cbn in ND. inversion ND; subst. constructor; [intros H; apply H1; apply in_or_app; left; exact H|apply IH; assumption].
    - intros r. rewrite filter_In. split; [intros [A B]; apply F; assumption|]. intros H. split; [apply Sub; exact H|]. apply F; [apply Sub; exact H|exact H]. }
  exists (filter f rs). fold f. split; [apply splits_filter|]. split; [exact PG|]. split.
  - rewrite (Permutation_length PG), firstn_length, (Permutation_length P). reflexivity.
  - apply (Permutation_app_inv_l (firstn n ps)). rewrite firstn_skipn. etransitivity; [|symmetry; exact P]. etransitivity; [apply Permutation_app_tail; symmetry; exact PG|]. symmetry. apply splits_perm. apply (splits_filter f).
Qed.

(** *** the number of rows *)
Lemma pyround_near q : (inject_Z (pyround q) - (1 # 2) <= q)%Q /\ (q <= inject_Z (pyround q) + (1 # 2))%Q.
Proof.
  unfold pyround. pose proof (Qfloor_le q) as A. pose proof (Qlt_floor q) as B. rewrite inject_Z_plus in B. change (inject_Z 1) with 1%Q in B.
  destruct (Qcompare (q - inject_Z (Qfloor q)) (1 # 2)) eqn:E.
  - apply Qeq_alt in E. destruct (Z.even (Qfloor q)); [split; lra|]. rewrite inject_Z_plus. change (inject_Z 1) with 1%Q. split; lra.
  - apply Qlt_alt in E. split; lra.
  - apply Qgt_alt in E. rewrite inject_Z_plus. change (inject_Z 1) with 1%Q. split; lra.
Qed.
Lemma pyround_nonneg q : (0 <= q)%Q -> (0 <= pyround q)%Z.
Proof.
  intros H. assert (F : (0 <= Qfloor q)%Z) by (change 0%Z with (Qfloor 0); apply Qfloor_resp_le; exact H).
  unfold pyround. destruct (Qcompare _ _); [destruct (Z.even _)| |]; lia.
Qed.
Lemma row_cnt d n t n_rows row_pct cnt : find_table d (plain n) = Some t -> determine_row_cnt d n n_rows row_pct = Ok cnt ->
  asks_for n_rows row_pct (List.length (t_rows t)) (Z.to_nat cnt).
Proof.
  intros F H. unfold determine_row_cnt in H. destruct n_rows as [k|], row_pct as [p|]; try discriminate.
  - destruct (Z.ltb 0 k) eqn:E; [|discriminate]. injection H as <-. apply Z.ltb_lt in E. left. split; [f_equal; lia|]. split; [reflexivity|lia].
  - right. exists p. destruct (Qcompare 0 p) eqn:E1; try discriminate. destruct (Qcompare p 1) eqn:E2; try discriminate. rewrite F in H. injection H as <-.
    apply Qlt_alt in E1, E2. split; [reflexivity|]. split; [reflexivity|]. split; [exact E1|]. split; [exact E2|].
    set (q := (p * inject_Z (Z.of_nat (List.length (t_rows t))))%Q).
    assert (Q0 : (0 <= q)%Q).
    { unfold q. apply Qmult_le_0_compat; [apply Qlt_le_weak; exact E1|]. change 0%Q with (inject_Z 0). rewrite <- Zle_Qle. lia. }
    rewrite Z2Nat.id by (apply pyround_nonneg; exact Q0). apply pyround_near.
Qed.

(** *** sorting *)
Section Sort.
  Context (le : row -> row -> bool) (tot : forall a b, le a b = true \/ le b a = true) (tr : forall a b c, le a b = true -> le b c = true -> le a c = true).
  Inductive sorted : list row -> Prop := so_nil : sorted [] | so_cons r l : Forall (fun x => le r x = true) l -> sorted l -> sorted (r :: l).
  Lemma insert_perm r l : Permutation (insert le r l) (r :: l).
  Proof. induction l as [|x l IH]; cbn; [reflexivity|]. destruct (le r x); [reflexivity|]. rewrite IH. apply perm_swap. Qed.
  Lemma sort_perm l : Permutation (sort le l) l.
  Proof. unfold sort. induction l as [|x l IH]; cbn; [reflexivity|]. rewrite insert_perm. constructor. exact IH. Qed.
  Lemma insert_sorted r l : sorted l -> sorted (insert le r l).
  Proof.
    induction 1 as [|x l F S IH]; cbn; [repeat constructor|]. destruct (le r x) eqn:E.
    - constructor; [|constructor; assumption]. constructor; [exact E|]. eapply Forall_impl; [|exact F]. intros y Hy. cbn in Hy. eapply tr; eassumption.
    - constructor; [|exact IH]. rewrite Forall_forall in *. intros y Hy. eapply Permutation_in in Hy; [|apply insert_perm]. destruct Hy as [<-|Hy]; [destruct (tot r x); congruence|auto].
  Qed.
  Lemma sort_sorted l : sorted (sort le l).
  Proof. unfold sort. induction l; cbn; [constructor|]. apply insert_sorted. assumption. Qed.
  Lemma sorted_split n l : sorted l -> forall a b, In a (firstn n l) -> In b (skipn n l) -> le a b = true.
  Proof.
    intros S. revert n. induction S as [|x l F S IH]; intros n a b A B; [destruct n; destruct A|]. destruct n as [|n]; [destruct A|]. cbn in A, B. destruct A as [->|A].
    - rewrite Forall_forall in F. apply F. rewrite <- (firstn_skipn n l). apply in_or_app. right. exact B.
    - eapply IH; eassumption.
  Qed.
End Sort.

Lemma null_leb_total nf asc a b : null_leb nf asc a b = true \/ null_leb nf asc b a = true.
Proof. destruct a as [x|], b as [y|]; cbn; auto; [|destruct nf; auto|destruct nf; auto]. destruct asc; rewrite !Nat.leb_le; lia. Qed.
Lemma null_leb_trans nf asc a b c : null_leb nf asc a b = true -> null_leb nf asc b c = true -> null_leb nf asc a c = true.
Proof. destruct a as [x|], b as [y|], c as [z|]; cbn; auto; destruct nf, asc; cbn; rewrite ?Nat.leb_le; try lia; try discriminate; auto. Qed.
Lemma row_leb_total c k asc nf a b : row_leb c k asc nf a b = true \/ row_leb c k asc nf b a = true.
Proof.
  unfold row_leb. destruct (null_leb nf asc (get a c) (get b c)) eqn:E1, (null_leb nf asc (get b c) (get a c)) eqn:E2; auto.
  - apply null_leb_total.
  - destruct (null_leb_total nf asc (get a c) (get b c)); congruence.
Qed.
Lemma row_leb_trans c k asc nf a b d : row_leb c k asc nf a b = true -> row_leb c k asc nf b d = true -> row_leb c k asc nf a d = true.
Proof.
  unfold row_leb. intros A B.
  destruct (null_leb nf asc (get a c) (get b c)) eqn:E1; [|discriminate]. destruct (null_leb nf asc (get b c) (get d c)) eqn:E2; [|discriminate].
  rewrite (null_leb_trans _ _ _ _ _ E1 E2). destruct (null_leb nf asc (get d c) (get a c)) eqn:E3; [|reflexivity].
  rewrite (null_leb_trans _ _ _ _ _ E2 E3) in A. rewrite (null_leb_trans _ _ _ _ _ E3 E1) in B. eapply null_leb_trans; eassumption.
Qed.
Lemma null_leb_before nf asc a b : null_leb nf asc a b = true -> a = b \/ comes_before asc nf a b.
Proof.
  destruct a as [x|], b as [y|]; cbn; intros H; auto.
  - destruct asc; apply Nat.leb_le in H; (destruct (Nat.eq_dec x y) as [->|N]; [auto|right]); [apply cb_asc|apply cb_desc]; auto; lia.
  - right. apply cb_last. destruct nf; [discriminate|reflexivity].
  - right. apply cb_first. exact H.
Qed.
Lemma row_leb_before c k asc nf a b : row_leb c k asc nf a b = true ->
  comes_before asc nf (get a c) (get b c) \/ (get a c = get b c /\ (get a k = get b k \/ comes_before true false (get a k) (get b k))).
Proof.
  unfold row_leb. destruct (null_leb nf asc (get a c) (get b c)) eqn:E1; [|discriminate]. apply null_leb_before in E1 as [E1|E1]; [|auto].
  rewrite E1. destruct (null_leb nf asc (get b c) (get b c)) eqn:E2.
  - intros H. apply null_leb_before in H. auto.
  - destruct (null_leb_total nf asc (get b c) (get b c)); congruence.
Qed.
