From Coq Require Import List Bool Arith ZArith QArith Lia Lqa Sorting.Sorted Sorting.Permutation.
From Verif Require Import PyBase Stats_model Stats_spec.
Import ListNotations.
Local Open Scope nat_scope.

(** ** Most common values *)
Lemma mcv_geb_iff a b : mcv_geb a b = true <-> mcv_desc a b.
Proof. unfold mcv_geb, mcv_desc. rewrite orb_true_iff, andb_true_iff, Nat.ltb_lt, Nat.eqb_eq, Z.leb_le. tauto. Qed.
Lemma mcv_desc_trans a b c : mcv_desc a b -> mcv_desc b c -> mcv_desc a c.
Proof. unfold mcv_desc. lia. Qed.
Lemma mcv_desc_total a b : mcv_desc a b \/ mcv_desc b a.
Proof. unfold mcv_desc. lia. Qed.
Lemma mcv_insert_perm x l : Permutation (mcv_insert x l) (x :: l).
Proof.
  induction l as [|y l IH]; cbn; [reflexivity|]. destruct (mcv_geb x y); [reflexivity|]. rewrite IH. apply perm_swap.
Qed.
Lemma mcv_sort_perm l : Permutation (mcv_sort l) l.
Proof. induction l as [|x l IH]; cbn; [reflexivity|]. rewrite mcv_insert_perm. now constructor. Qed.
Lemma mcv_insert_sorted x l : StronglySorted mcv_desc l -> StronglySorted mcv_desc (mcv_insert x l).
Proof.
  induction 1 as [|y l Hl IH Hy]; cbn [mcv_insert]; [repeat constructor|]. destruct (mcv_geb x y) eqn:E.
  - apply mcv_geb_iff in E. constructor; [now constructor|]. constructor; [assumption|]. eapply Forall_impl; [|exact Hy]. intros z Hz. eapply mcv_desc_trans; eassumption.
  - constructor; [assumption|]. assert (Hyx : mcv_desc y x) by (destruct (mcv_desc_total x y) as [H|H]; [apply mcv_geb_iff in H; congruence|assumption]).
    apply Forall_forall. intros z Hz. apply (Permutation_in _ (mcv_insert_perm x l)) in Hz as [<-|Hz]; [assumption|]. rewrite Forall_forall in Hy. auto.
Qed.
Lemma mcv_sort_sorted l : StronglySorted mcv_desc (mcv_sort l).
Proof. induction l; cbn; [constructor|now apply mcv_insert_sorted]. Qed.
Lemma mcv_sort_id l : StronglySorted mcv_desc l -> mcv_sort l = l.
Proof.
  unfold mcv_sort. induction 1 as [|y l Hl IH Hy]; cbn; [reflexivity|]. rewrite IH. destruct l as [|z l]; [reflexivity|]. cbn. inversion Hy as [|? ? Hz]; subst. apply mcv_geb_iff in Hz. now rewrite Hz.
Qed.
Lemma sorted_firstn {A} (R : A -> A -> Prop) l : forall k, StronglySorted R l -> StronglySorted R (firstn k l).
Proof.
  induction l as [|x l IH]; intros [|k] H; cbn; try constructor; inversion H as [|? ? H1 H2]; subst; auto. apply Forall_forall. intros y Hy. rewrite Forall_forall in H2. apply H2. rewrite <- (firstn_skipn k l). apply in_or_app. now left.
Qed.
Lemma sorted_skipn {A} (R : A -> A -> Prop) l : forall k, StronglySorted R l -> StronglySorted R (skipn k l).
Proof. induction l as [|x l IH]; intros [|k] H; cbn; auto. inversion H; subst. auto. Qed.
Lemma last_min l x : StronglySorted mcv_desc l -> In x l -> snd (last l (0%Z, 0)) <= snd x.
Proof.
  induction 1 as [|y l Hl IH Hy]; [contradiction|]. intros [->|Hx].
  - destruct l as [|z l]; [reflexivity|]. change (last (x :: z :: l) (0%Z, 0)) with (last (z :: l) (0%Z, 0)).
    assert (Hin : In (last (z :: l) (0%Z, 0)) (z :: l)) by (destruct (exists_last (l := z :: l)) as [l' [a ->]]; [discriminate|]; rewrite last_last; apply in_or_app; right; now left).
    rewrite Forall_forall in Hy. specialize (Hy _ Hin). unfold mcv_desc in Hy. lia.
  - destruct l as [|z l]; [destruct Hx|]. change (last (y :: z :: l) (0%Z, 0)) with (last (z :: l) (0%Z, 0)). auto.
Qed.
Lemma last_In {A} (l : list A) d : l <> [] -> In (last l d) l.
Proof. intros H. destruct (exists_last H) as [l' [a ->]]. rewrite last_last. apply in_or_app. right. now left. Qed.

(** ** bisect *)
Section Bisect.
  Context (a : list Z) (v : Z).
  Hypothesis Ha : StronglySorted Z.le a.
  Lemma sorted_nth i j : i <= j -> j < length a -> (nth i a 0 <= nth j a 0)%Z.
  Proof.
    clear v. revert i j. induction Ha as [|x l Hl IH Hx]; intros i j Hij Hj; cbn in Hj; [lia|]. destruct i as [|i], j as [|j]; cbn; try lia.
    - rewrite Forall_forall in Hx. apply Hx. apply nth_In. lia.
    - apply IH; [assumption|lia|lia].
  Qed.
  (** [k] is the position where the test [p] (true on a prefix) turns false. *)
  Definition splits (p : Z -> bool) (k : nat) : Prop := k <= length a /\ (forall i, i < k -> p (nth i a 0%Z) = true) /\ (forall i, k <= i -> i < length a -> p (nth i a 0%Z) = false).
  Lemma bisect_splits (right : bool) n : forall lo hi, hi - lo <= n -> lo <= hi -> hi <= length a ->
    let p : Z -> bool := if right then (fun x => negb (v <? x)%Z) else (fun x => (x <? v)%Z) in
    (forall i, i < lo -> p (nth i a 0%Z) = true) -> (forall i, hi <= i -> i < length a -> p (nth i a 0%Z) = false) -> splits p (bisect right a v n lo hi).
  Proof.
    induction n as [|n IH]; intros lo hi Hn Hlh Hhi p Hl Hh; cbn [bisect].
    - assert (lo = hi) by lia. subst. split; [assumption|]. split; assumption.
    - destruct (Nat.ltb_spec lo hi) as [Hlt|Hge]; [|assert (lo = hi) by lia; subst; split; [assumption|split; assumption]].
      set (mid := (lo + hi) / 2). assert (Hm : lo <= mid < hi) by (unfold mid; split; [apply Nat.div_le_lower_bound; lia|apply Nat.div_lt_upper_bound; lia]).
      assert (Hmono : forall i j, i <= j -> j < length a -> p (nth j a 0%Z) = true -> p (nth i a 0%Z) = true).
      { intros i j Hij Hj. pose proof (sorted_nth i j Hij Hj). unfold p. destruct right; rewrite ?negb_true_iff, ?Z.ltb_ge, ?Z.ltb_lt; lia. }
      assert (Hp : (if right then if (v <? nth mid a 0)%Z then bisect right a v n lo mid else bisect right a v n (S mid) hi
             else if (nth mid a 0 <? v)%Z then bisect right a v n (S mid) hi else bisect right a v n lo mid)
             = if p (nth mid a 0%Z) then bisect right a v n (S mid) hi else bisect right a v n lo mid).
      { unfold p. destruct right; [destruct (v <? nth mid a 0)%Z; reflexivity|reflexivity]. }
      rewrite Hp. destruct (p (nth mid a 0%Z)) eqn:E; apply IH; try lia; try assumption.
      + intros i Hi. apply (Hmono i mid); [lia|lia|assumption].
      + intros i Hi Hi'. destruct (p (nth i a 0%Z)) eqn:F; [|exact F]. rewrite (Hmono mid i Hi Hi' F) in E. discriminate.
  Qed.
  Lemma bisect_right_splits : splits (fun x => negb (v <? x)%Z) (bisect_right a v).
  Proof. apply (bisect_splits true); try lia. Qed.
  Lemma bisect_left_splits : splits (fun x => (x <? v)%Z) (bisect_left a v).
  Proof. apply (bisect_splits false); try lia. Qed.
End Bisect.
Lemma splits_mono a (p q : Z -> bool) k m : splits a p k -> splits a q m -> (forall x, p x = true -> q x = true) -> k <= m.
Proof.
  intros (Hk & Hk1 & Hk2) (Hm & Hm1 & Hm2) Hpq. destruct (Nat.le_gt_cases k m) as [|H]; [assumption|]. exfalso.
  specialize (Hk1 m H). specialize (Hm2 m (Nat.le_refl _)). apply Hpq in Hk1. rewrite Hm2 in Hk1; [discriminate|lia].
Qed.

(** ** Counting *)
Lemma count_le_mono v w col : (v <= w)%Z -> count_le v col <= count_le w col.
Proof.
  intros H. unfold count_le. induction col as [|x col IH]; cbn; [lia|]. destruct (Z.leb_spec x v), (Z.leb_spec x w); cbn; lia.
Qed.
Lemma count_split v col : count_le v col + count_gt v col = length col.
Proof. unfold count_le, count_gt. induction col as [|x col IH]; cbn; [reflexivity|]. destruct (Z.leb_spec x v), (Z.ltb_spec v x); cbn; lia. Qed.
Lemma count_le_len v col : count_le v col <= length col.
Proof. pose proof (count_split v col). lia. Qed.
Lemma count_le_app v a b : count_le v (a ++ b) = count_le v a + count_le v b.
Proof. unfold count_le. now rewrite filter_app, app_length. Qed.
Lemma count_le_repeat v x n : count_le v (repeat x n) = if (x <=? v)%Z then n else 0.
Proof. unfold count_le. induction n; cbn; [now destruct (x <=? v)%Z|]. destruct (x <=? v)%Z eqn:E; cbn; rewrite IHn; reflexivity. Qed.
Lemma count_le_all v l : (forall x, In x l -> (x <= v)%Z) -> count_le v l = length l.
Proof. intros H. unfold count_le. induction l as [|x l IH]; cbn; [reflexivity|]. rewrite (proj2 (Z.leb_le x v)) by (apply H; now left). cbn. rewrite IH; [reflexivity|]. intros y Hy. apply H. now right. Qed.
Lemma count_le_none v l : (forall x, In x l -> (v < x)%Z) -> count_le v l = 0.
Proof. intros H. unfold count_le. induction l as [|x l IH]; cbn; [reflexivity|]. rewrite (proj2 (Z.leb_gt x v)) by (apply H; now left). apply IH. intros y Hy. apply H. now right. Qed.
Lemma nsum_app a b : nsum (a ++ b) = nsum a + nsum b.
Proof. unfold nsum. induction a; cbn; lia. Qed.
Lemma nsum_repeat f n : nsum (repeat f n) = n * f.
Proof. induction n; cbn; [reflexivity|]. unfold nsum in *. lia. Qed.
Lemma nsum_firstn k l : nsum (firstn k l) <= nsum l.
Proof. rewrite <- (firstn_skipn k l) at 2. rewrite nsum_app. lia. Qed.
Lemma sorted_lt_le l : StronglySorted Z.lt l -> StronglySorted Z.le l.
Proof. induction 1; constructor; auto. eapply Forall_impl; [|eassumption]. intros; lia. Qed.

(** ** Inferring bounds *)
Lemma expand_In x l : In x (expand l) -> exists f, In (x, f) l.
Proof. unfold expand. rewrite in_flat_map. intros [[y f] [Hin H]]. apply repeat_spec in H. cbn in H. subst. eauto. Qed.
Lemma infer_In size l : forall cum bs ks v, infer_loop size cum l = (bs, ks) -> In v bs -> exists f, In (v, f) l.
Proof.
  induction l as [|[w f] l IH]; intros cum bs ks v; cbn [infer_loop]; [intros [= <- <-] []|]. destruct (cum + f <? size).
  - intros H Hin. destruct (IH _ _ _ _ H Hin) as [g Hg]. exists g. now right.
  - destruct (infer_loop size 0 l) as [bs' ks'] eqn:E. intros [= <- <-] [->|Hin]; [exists f; now left|]. destruct (IH _ _ _ _ E Hin) as [g Hg]. exists g. now right.
Qed.
Lemma infer_ok size l : StronglySorted Z.lt (map fst l) -> forall cum bs ks, infer_loop size cum l = (bs, ks) ->
  StronglySorted Z.lt bs /\ length bs = length ks /\ (forall k, In k ks -> size <= k) /\
  (forall i, i < length bs -> cum + count_le (nth i bs 0%Z) (expand l) = nsum (firstn (S i) ks)) /\
  exists d, cum + length (expand l) = nsum ks + d /\ (d < size \/ d = 0 \/ (bs = [] /\ d = cum)).
Proof.
  induction l as [|[w f] l IH]; intros Hs cum bs ks; cbn [infer_loop].
  - intros [= <- <-]. cbn. repeat split; try constructor; try contradiction; try lia. exists cum. split; [lia|]. right. right. auto.
  - inversion Hs as [|? ? Hs1 Hs2]; subst. assert (Hlt : forall x, In x (expand l) -> (w < x)%Z).
    { intros x Hx. apply expand_In in Hx as [g Hg]. rewrite Forall_forall in Hs2. apply Hs2. apply in_map_iff. exists (x, g). auto. }
    assert (Hexp : forall x, count_le x (expand ((w, f) :: l)) = (if (w <=? x)%Z then f else 0) + count_le x (expand l)).
    { intros x. unfold expand. cbn [flat_map]. rewrite count_le_app. cbn [fst snd]. now rewrite count_le_repeat. }
    assert (Hlen : length (expand ((w, f) :: l)) = f + length (expand l)) by (unfold expand; cbn [flat_map]; rewrite app_length, repeat_length; reflexivity).
    destruct (Nat.ltb_spec (cum + f) size) as [Hc|Hc].
    + intros H. destruct (IH Hs1 _ _ _ H) as (H1 & H2 & H3 & H4 & d & H5 & H6). repeat (split; [assumption|]). split.
      * intros i Hi. rewrite Hexp. specialize (H4 i Hi). assert (Hin : In (nth i bs 0%Z) bs) by now apply nth_In. destruct (infer_In _ _ _ _ _ _ H Hin) as [g Hg].
        assert (Hw : (w < nth i bs 0)%Z) by (rewrite Forall_forall in Hs2; apply Hs2; apply in_map_iff; exists (nth i bs 0%Z, g); auto).
        destruct (Z.leb_spec w (nth i bs 0%Z)); lia.
      * exists d. rewrite Hlen. split; [lia|]. destruct H6 as [H6|[H6|[H6 H7]]]; auto. left. lia.
    + destruct (infer_loop size 0 l) as [bs' ks'] eqn:E. intros [= <- <-]. destruct (IH Hs1 _ _ _ E) as (H1 & H2 & H3 & H4 & d & H5 & H6).
      split; [|split; [|split; [|split]]].
      * constructor; [assumption|]. apply Forall_forall. intros x Hx. destruct (infer_In _ _ _ _ _ _ E Hx) as [g Hg]. rewrite Forall_forall in Hs2. apply Hs2. apply in_map_iff. exists (x, g). auto.
      * cbn. now f_equal.
      * intros k [<-|Hk]; [assumption|auto].
      * intros i Hi. rewrite Hexp. destruct i as [|i]; cbn [nth].
        -- rewrite Z.leb_refl. rewrite count_le_none by assumption. cbn. lia.
        -- cbn in Hi. assert (Hi' : i < length bs') by lia. specialize (H4 i Hi'). assert (Hin : In (nth i bs' 0%Z) bs') by now apply nth_In. destruct (infer_In _ _ _ _ _ _ E Hin) as [g Hg].
           assert (Hw : (w < nth i bs' 0)%Z) by (rewrite Forall_forall in Hs2; apply Hs2; apply in_map_iff; exists (nth i bs' 0%Z, g); auto).
           destruct (Z.leb_spec w (nth i bs' 0%Z)); [|lia]. change (nsum (firstn (S (S i)) ((cum + f) :: ks'))) with ((cum + f) + nsum (firstn (S i) ks')). lia.
      * exists d. rewrite Hlen. change (nsum ((cum + f) :: ks')) with ((cum + f) + nsum ks'). split; [lia|]. destruct H6 as [H6|[H6|[_ H6]]]; auto.
Qed.

(** ** Fractions *)
Lemma qn_le a b : (qn a <= qn b)%Q <-> a <= b.
Proof. unfold qn, Qle. cbn. lia. Qed.
Lemma qn_add a b : (qn (a + b) == qn a + qn b)%Q.
Proof. unfold qn. rewrite Nat2Z.inj_add, inject_Z_plus. reflexivity. Qed.
Lemma qn_mul a b : (qn (a * b) == qn a * qn b)%Q.
Proof. unfold qn. rewrite Nat2Z.inj_mul, inject_Z_mult. reflexivity. Qed.
Lemma qn_nonneg a : (0 <= qn a)%Q.
Proof. unfold qn, Qle. cbn. lia. Qed.
Lemma frac_ok v lo hi : (lo <= v < hi)%Z -> exists f, frac v lo hi = Ok f /\ (0 <= f < 1)%Q /\ (f * inject_Z (hi - lo) == inject_Z (v - lo))%Q.
Proof.
  intros H. unfold frac. destruct (Z.eqb_spec (hi - lo) 0); [lia|]. exists (inject_Z (v - lo) / inject_Z (hi - lo))%Q. split; [reflexivity|].
  assert (Hp : (0 < inject_Z (hi - lo))%Q) by (unfold Qlt; cbn; lia). split; [split|].
  - apply Qle_shift_div_l; [assumption|]. rewrite Qmult_0_l. unfold Qle; cbn; lia.
  - apply Qlt_shift_div_r; [assumption|]. rewrite Qmult_1_l. unfold Qlt; cbn; lia.
  - field. intros E. rewrite E in Hp. apply Qlt_irrefl in Hp. assumption.
Qed.

(** ** Estimates *)
Definition well_made (h : hist) : Prop :=
  h_bounds h <> [] /\ StronglySorted Z.lt (h_bounds h) /\ length (h_bounds h) = length (h_freqs h) /\ h_rows h = nsum (h_freqs h) /\ h_avg h = h_rows h / length (h_bounds h).
Lemma mk_hist_well bounds freqs lower i h : mk_hist bounds freqs lower i = Ok h -> StronglySorted Z.lt bounds ->
  well_made h /\ h_bounds h = bounds /\ h_freqs h = freqs /\ h_interp h = i /\ h_lower h = lower.
Proof.
  unfold mk_hist. destruct bounds as [|b bs]; [discriminate|]. destruct (Nat.eqb_spec (length (b :: bs)) (length freqs)) as [E|E]; [|discriminate].
  intros [= <-] Hs. repeat split; try assumption. discriminate.
Qed.
Lemma avg_le h k : well_made h -> k <= length (h_bounds h) -> k * h_avg h <= h_rows h.
Proof.
  intros (Hn & _ & _ & _ & ->) Hk. assert (Hl : length (h_bounds h) <> 0) by (destruct (h_bounds h); [contradiction|discriminate]).
  pose proof (Nat.mul_div_le (h_rows h) (length (h_bounds h)) Hl). nia.
Qed.
Lemma below_cases h v : well_made h -> let u := bisect_right (h_bounds h) v in
  exists q, h_below h v = Ok q /\ (u = 0 -> q = 0%Q) /\ (u = length (h_bounds h) -> q = qn (h_rows h)) /\
  (0 < u < length (h_bounds h) -> (nth (u - 1) (h_bounds h) 0 <= v < nth u (h_bounds h) 0)%Z /\
     match h_interp h with Bound => q = qn (u * h_avg h) | ApproxUni => exists f, (0 <= f < 1)%Q /\ frac v (nth (u - 1) (h_bounds h) 0%Z) (nth u (h_bounds h) 0%Z) = Ok f /\ q = ((qn (u - 1) + f) * qn (h_avg h))%Q end).
Proof.
  intros (Hn & Hs & _) u. unfold h_below. fold u. destruct (bisect_right_splits _ v (sorted_lt_le _ Hs)) as (Hu & Hu1 & Hu2). fold u in Hu, Hu1, Hu2.
  assert (Hl : length (h_bounds h) <> 0) by (destruct (h_bounds h); [contradiction|discriminate]).
  destruct (Nat.eqb_spec u 0) as [E|E]; [exists 0%Q; split; [reflexivity|]; split; [reflexivity|]; split; intros; lia|].
  destruct (Nat.eqb_spec u (length (h_bounds h))) as [F|F]; [eexists; split; [reflexivity|]; split; [intros; lia|]; split; [reflexivity|intros; lia]|].
  assert (Hv : (nth (u - 1) (h_bounds h) 0 <= v < nth u (h_bounds h) 0)%Z).
  { specialize (Hu1 (u - 1) ltac:(lia)). specialize (Hu2 u ltac:(lia) ltac:(lia)). apply negb_true_iff in Hu1. apply negb_false_iff in Hu2. rewrite Z.ltb_ge in Hu1. rewrite Z.ltb_lt in Hu2. lia. }
  destruct (h_interp h).
  - eexists. split; [reflexivity|]. split; [intros; lia|]. split; [intros; lia|]. auto.
  - destruct (frac_ok v _ _ Hv) as (f & Hf & Hr & _). rewrite Hf. eexists. split; [reflexivity|]. split; [intros; lia|]. split; [intros; lia|]. intros _. split; [assumption|]. exists f. auto.
Qed.
Lemma below_range h v q : well_made h -> h_below h v = Ok q -> (0 <= q <= qn (h_rows h))%Q.
Proof.
  intros Hw H. destruct (below_cases h v Hw) as (q' & Hq & H0 & Hn & Hm). rewrite H in Hq. injection Hq as <-. set (u := bisect_right (h_bounds h) v) in *.
  assert (Hu : u <= length (h_bounds h)) by (destruct Hw as (_ & Hs & _); apply (bisect_right_splits _ v (sorted_lt_le _ Hs))).
  destruct (Nat.eq_dec u 0) as [E|E]; [rewrite (H0 E); split; [lra|apply qn_nonneg]|].
  destruct (Nat.eq_dec u (length (h_bounds h))) as [F|F]; [rewrite (Hn F); split; [apply qn_nonneg|lra]|].
  destruct (Hm ltac:(lia)) as [_ Hi]. destruct (h_interp h).
  - subst q. split; [apply qn_nonneg|]. apply qn_le. now apply avg_le.
  - destruct Hi as (f & Hf & _ & ->). pose proof (qn_nonneg (h_avg h)). pose proof (qn_nonneg (u - 1)). split; [apply Qmult_le_0_compat; lra|].
    apply Qle_trans with (qn (u * h_avg h)); [|apply qn_le; now apply avg_le]. rewrite qn_mul. apply Qmult_le_compat_r; [|assumption].
    assert (Hq1 : (qn u == qn (u - 1) + qn 1)%Q) by (rewrite <- qn_add; replace (u - 1 + 1) with u by lia; reflexivity). rewrite Hq1. change (qn 1) with 1%Q. lra.
Qed.
Lemma below_mono h v w p q : well_made h -> (v <= w)%Z -> h_below h v = Ok p -> h_below h w = Ok q -> (p <= q)%Q.
Proof.
  intros Hw Hvw Hp Hq. pose proof (below_range h v p Hw Hp) as Rp. pose proof (below_range h w q Hw Hq) as Rq.
  destruct (below_cases h v Hw) as (p' & Hp' & P0 & Pn & Pm). rewrite Hp in Hp'. injection Hp' as <-.
  destruct (below_cases h w Hw) as (q' & Hq' & Q0 & Qn & Qm). rewrite Hq in Hq'. injection Hq' as <-.
  set (u := bisect_right (h_bounds h) v) in *. set (t := bisect_right (h_bounds h) w) in *.
  destruct Hw as (Hne & Hs & Hw'). assert (Hut : u <= t).
  { eapply splits_mono; [apply (bisect_right_splits _ v (sorted_lt_le _ Hs))|apply (bisect_right_splits _ w (sorted_lt_le _ Hs))|]. intros x. rewrite !negb_true_iff, !Z.ltb_ge. lia. }
  assert (Ht : t <= length (h_bounds h)) by (apply (bisect_right_splits _ w (sorted_lt_le _ Hs))).
  destruct (Nat.eq_dec u 0) as [E|E]; [rewrite (P0 E); lra|].
  destruct (Nat.eq_dec t (length (h_bounds h))) as [F|F]; [rewrite (Qn F); lra|].
  destruct (Pm ltac:(lia)) as [Hv Pi]. destruct (Qm ltac:(lia)) as [Hw2 Qi]. destruct (h_interp h).
  - subst p q. apply qn_le. nia.
  - destruct Pi as (f & Hf & Ef & ->). destruct Qi as (g & Hg & Eg & ->). apply Qmult_le_compat_r; [|apply qn_nonneg].
    destruct (Nat.eq_dec u t) as [Eut|Eut].
    + rewrite <- Eut in *. apply Qplus_le_r. unfold frac in Ef, Eg. set (d := (nth u (h_bounds h) 0 - nth (u - 1) (h_bounds h) 0)%Z) in *. destruct (Z.eqb_spec d 0) as [D|D]; [discriminate|].
      injection Ef as <-. injection Eg as <-. apply Qmult_le_compat_r; [unfold Qle; cbn; lia|]. apply Qinv_le_0_compat. unfold Qle; cbn. lia.
    + assert (Hq1 : (qn (u - 1) + 1 <= qn (t - 1))%Q) by (change 1%Q with (qn 1); rewrite <- qn_add; apply qn_le; lia). lra.
Qed.
Lemma above_bound_range h v : well_made h -> h_interp h = Bound -> exists q, h_above h v = Ok q /\ (0 <= q <= qn (h_rows h))%Q.
Proof.
  intros Hw Hi. unfold h_above. rewrite Hi. set (l := bisect_left (h_bounds h) v). pose proof Hw as (_ & Hs & _).
  assert (Hl : l <= length (h_bounds h)) by (apply (bisect_left_splits _ v (sorted_lt_le _ Hs))).
  destruct (l =? 0); [eexists; split; [reflexivity|]; split; [apply qn_nonneg|lra]|]. destruct (l =? length (h_bounds h)); [eexists; split; [reflexivity|]; split; [lra|apply qn_nonneg]|].
  eexists. split; [reflexivity|]. split; [apply qn_nonneg|]. apply qn_le. now apply avg_le.
Qed.
Lemma describes_last bounds freqs col : describes bounds freqs col -> bounds <> [] -> forall v, (nth (length bounds - 1) bounds 0 <= v)%Z -> count_le v col = length col.
Proof.
  intros (_ & Hl & Hc & Hi) Hn v Hv. assert (Hlb : length bounds <> 0) by (destruct bounds; [contradiction|discriminate]).
  specialize (Hi (length bounds - 1) ltac:(lia)). replace (S (length bounds - 1)) with (length bounds) in Hi by lia. rewrite Hl, firstn_all in Hi.
  pose proof (count_le_mono _ _ col Hv). rewrite Hl in H. pose proof (count_le_len v col). lia.
Qed.
(** Equi-depth histograms: the "bound" estimate is exact at the bounds and too small by at most one bucket elsewhere. *)
Lemma below_equidepth h col f v q : well_made h -> h_interp h = Bound -> describes (h_bounds h) (h_freqs h) col -> (forall k, In k (h_freqs h) -> k = f) -> h_below h v = Ok q ->
  (q <= qn (count_le v col) <= q + qn f)%Q /\ (In v (h_bounds h) -> (q == qn (count_le v col))%Q).
Proof.
  intros Hw Hb Hd Hf Hq. pose proof Hw as (Hne & Hs & Hlen & Hrows & Havg). destruct (below_cases h v Hw) as (q' & Hq' & H0 & Hn & Hm). rewrite Hq in Hq'. injection Hq' as <-. rewrite Hb in Hm.
  destruct (bisect_right_splits _ v (sorted_lt_le _ Hs)) as (Hu & Hu1 & Hu2). set (u := bisect_right (h_bounds h) v) in *.
  assert (Hfreqs : h_freqs h = repeat f (length (h_bounds h))).
  { rewrite Hlen. clear - Hf. induction (h_freqs h) as [|k l IH]; [reflexivity|]. cbn. rewrite (Hf k (or_introl eq_refl)). f_equal. apply IH. intros x Hx. apply Hf. now right. }
  assert (Hlb : length (h_bounds h) <> 0) by (destruct (h_bounds h); [contradiction|discriminate]).
  assert (Hsum : h_rows h = length (h_bounds h) * f) by (rewrite Hrows, Hfreqs, nsum_repeat; reflexivity).
  assert (Hav : h_avg h = f) by (rewrite Havg, Hsum, Nat.mul_comm; apply Nat.div_mul; assumption).
  pose proof Hd as (_ & _ & Hcol & Hcnt).
  assert (Hcnt' : forall i, i < length (h_bounds h) -> count_le (nth i (h_bounds h) 0%Z) col = S i * f).
  { intros i Hi. rewrite Hcnt by assumption. rewrite Hfreqs. 
    assert (Hfr : forall n m, m <= n -> firstn m (repeat f n) = repeat f m) by (clear; induction n; intros [|m] H; cbn; try reflexivity; try lia; f_equal; apply IHn; lia).
    rewrite Hfr by lia. apply nsum_repeat. }
  assert (Hnat : (u * f <= count_le v col <= u * f + f) /\ (In v (h_bounds h) -> u * f = count_le v col)).
  { split; [split|].
    - destruct u as [|k]; [lia|]. rewrite <- Hcnt' by lia. apply count_le_mono. specialize (Hu1 k ltac:(lia)). apply negb_true_iff in Hu1. apply Z.ltb_ge in Hu1. lia.
    - destruct (Nat.eq_dec u (length (h_bounds h))) as [F|F].
      + pose proof (count_le_len v col). rewrite Hcol, <- Hrows, Hsum, <- F in H. lia.
      + replace (u * f + f) with (S u * f) by lia. rewrite <- Hcnt' by lia. apply count_le_mono. specialize (Hu2 u ltac:(lia) ltac:(lia)). apply negb_false_iff in Hu2. apply Z.ltb_lt in Hu2. lia.
    - intros Hin. apply (In_nth _ _ 0%Z) in Hin as [i [Hi Hin]]. subst v.
      assert (Hiu : i < u). { destruct (Nat.lt_ge_cases i u) as [|Hge]; [assumption|]. specialize (Hu2 i Hge Hi). rewrite Z.ltb_irrefl in Hu2. discriminate. }
      assert (Hui : u = S i).
      { destruct (Nat.eq_dec u (S i)) as [|Hne']; [assumption|]. exfalso. specialize (Hu1 (S i) ltac:(lia)). apply negb_true_iff in Hu1. apply Z.ltb_ge in Hu1.
        assert (Hlt : forall l a b, StronglySorted Z.lt l -> a < b -> b < length l -> (nth a l 0 < nth b l 0)%Z).
        { clear. induction l as [|x l IH]; intros a b Hs Hab Hb; cbn in Hb; [lia|]. inversion Hs as [|? ? H1 H2]; subst. destruct a as [|a], b as [|b]; cbn; try lia; [|apply IH; [assumption|lia|lia]].
          rewrite Forall_forall in H2. apply H2. apply nth_In. lia. }
        specialize (Hlt _ i (S i) Hs ltac:(lia) ltac:(lia)). lia. }
      rewrite Hui, Hcnt' by assumption. reflexivity. }
  assert (Hqu : (q == qn (u * f))%Q).
  { destruct (Nat.eq_dec u 0) as [E|E]; [rewrite (H0 E), E; reflexivity|]. destruct (Nat.eq_dec u (length (h_bounds h))) as [F|F]; [rewrite (Hn F), F, Hsum; reflexivity|].
    destruct (Hm ltac:(lia)) as [_ ->]. rewrite Hav. reflexivity. }
  rewrite Hqu. rewrite <- qn_add. destruct Hnat as [[A B] C]. split; [split; apply qn_le; assumption|]. intros Hin. rewrite (C Hin). reflexivity.
Qed.

(** ** PostgreSQL histograms *)
Lemma same_run_ok prev bucket hs : forall k r, same_run prev bucket hs = (k, r) -> exists m, hs = repeat prev m ++ r /\ k = m * bucket /\ match r with x :: _ => x <> prev | [] => True end.
Proof.
  induction hs as [|h hs IH]; cbn; intros k r; [intros [= <- <-]; exists 0; auto|]. destruct (Z.eqb_spec h prev) as [->|E].
  - destruct (same_run prev bucket hs) as [k' r'] eqn:Er. intros [= <- <-]. destruct (IH _ _ eq_refl) as (m & -> & -> & Hr). exists (S m). cbn. auto.
  - intros [= <- <-]. exists 0. cbn. auto.
Qed.
Lemma sorted_app_r {A} (R : A -> A -> Prop) a b : StronglySorted R (a ++ b) -> StronglySorted R b.
Proof. induction a as [|x a IH]; cbn; [auto|]. intros H. inversion H; auto. Qed.
Lemma pg_loop_ok n : forall bucket lo hs ms, StronglySorted Z.le hs -> StronglySorted Z.lt (map fst ms) -> (forall v, In v hs -> ~ In v (map fst ms)) -> length hs + length ms < n ->
  exists lo' bk, pg_loop n bucket lo hs ms = Ok (lo', bk) /\ StronglySorted Z.lt (map fst bk) /\
    (forall v, In v (map fst bk) <-> In v hs \/ In v (map fst ms)) /\ nsum (map snd bk) = bucket * length hs + nsum (map snd ms).
Proof.
  induction n as [|n IH]; intros bucket lo hs ms Hh Hm Hd Hn; [lia|]. cbn [pg_loop].
  (* taking a bound of the histogram *)
  assert (Hhist : forall lo h hs', hs = h :: hs' -> (forall v, In v (map fst ms) -> (h < v)%Z) ->
    exists lo' bk, (let (k, r) := same_run h bucket hs' in rmap (fun x => (fst x, (h, bucket + k) :: snd x)) (pg_loop n bucket lo r ms)) = Ok (lo', bk) /\ StronglySorted Z.lt (map fst bk) /\
    (forall v, In v (map fst bk) <-> In v hs \/ In v (map fst ms)) /\ nsum (map snd bk) = bucket * length hs + nsum (map snd ms)).
  { clear lo. intros lo h hs' -> Hlt. destruct (same_run h bucket hs') as [k r] eqn:Er. destruct (same_run_ok _ _ _ _ _ Er) as (m & E1 & E2 & E3).
    assert (Hr : StronglySorted Z.le r) by (inversion Hh; subst; eapply sorted_app_r; eassumption).
    assert (Hrh : forall v, In v r -> (h < v)%Z).
    { inversion Hh as [|? ? Hs1 Hs2]; subst. rewrite Forall_forall in Hs2. apply sorted_app_r in Hs1. destruct r as [|x r]; [contradiction|].
      assert (Hx : (h < x)%Z) by (assert (h <= x)%Z by (apply Hs2; apply in_or_app; right; now left); lia). intros v [<-|Hv]; [assumption|].
      inversion Hs1 as [|? ? _ Hs3]; subst. rewrite Forall_forall in Hs3. specialize (Hs3 v Hv). lia. }
    destruct (IH bucket lo r ms) as (lo' & bk & Hb & S1 & S2 & S3); [assumption|assumption|intros v Hv; apply Hd; right; rewrite E1; apply in_or_app; now right| |].
    { cbn in Hn. rewrite E1, app_length in Hn. lia. }
    rewrite Hb. cbn [rmap rbind fst snd]. eexists _, _. split; [reflexivity|]. cbn [map fst snd]. split; [|split].
    - constructor; [assumption|]. apply Forall_forall. intros v Hv. apply S2 in Hv as [Hv|Hv]; auto.
    - intros v. cbn [In]. rewrite S2, E1, in_app_iff. split; [tauto|]. intros [[->|[Hv|Hv]]|Hv]; auto. apply repeat_spec in Hv. auto.
    - cbn [length]. rewrite E1, app_length, repeat_length, E2. change (nsum ((bucket + m * bucket) :: map snd bk)) with (bucket + m * bucket + nsum (map snd bk)). rewrite S3. lia. }
  assert (Hmcv : forall lo v f ms', ms = (v, f) :: ms' -> (forall w, In w hs -> (v < w)%Z) ->
    exists lo' bk, rmap (fun x => (fst x, (v, f) :: snd x)) (pg_loop n bucket lo hs ms') = Ok (lo', bk) /\ StronglySorted Z.lt (map fst bk) /\
    (forall v, In v (map fst bk) <-> In v hs \/ In v (map fst ms)) /\ nsum (map snd bk) = bucket * length hs + nsum (map snd ms)).
  { clear lo. intros lo v f ms' -> Hlt. cbn [map fst] in *. inversion Hm as [|? ? Hm1 Hm2]; subst. rewrite Forall_forall in Hm2.
    destruct (IH bucket lo hs ms') as (lo' & bk & Hb & S1 & S2 & S3); [assumption|assumption|intros w Hw Hin; apply (Hd w Hw); now right|cbn in Hn; lia|].
    rewrite Hb. cbn [rmap rbind fst snd]. eexists _, _. split; [reflexivity|]. cbn [map fst snd]. split; [|split].
    - constructor; [assumption|]. apply Forall_forall. intros w Hw. apply S2 in Hw as [Hw|Hw]; auto.
    - intros w. cbn [In]. rewrite S2. tauto.
    - change (nsum (f :: map snd bk)) with (f + nsum (map snd bk)). change (nsum (f :: map snd ms')) with (f + nsum (map snd ms')). lia. }
  destruct hs as [|h hs], ms as [|[v f] ms].
  - exists lo, []. split; [reflexivity|]. split; [constructor|]. split; [cbn; tauto|cbn; lia].
  - apply (Hmcv _ v f ms eq_refl). contradiction.
  - apply (Hhist _ h hs eq_refl). contradiction.
  - destruct (Z.ltb_spec h v) as [Hv|Hv].
    + apply (Hhist _ h hs eq_refl). cbn [map fst]. intros w [<-|Hw]; [assumption|]. inversion Hm as [|? ? _ Hm2]; subst. rewrite Forall_forall in Hm2. specialize (Hm2 w Hw). lia.
    + assert (Hne : h <> v) by (intros ->; apply (Hd v (or_introl eq_refl)); now left). destruct (Z.ltb_spec v h); [|lia].
      apply (Hmcv _ v f ms eq_refl). intros w [<-|Hw]; [assumption|]. inversion Hh as [|? ? _ Hs2]; subst. rewrite Forall_forall in Hs2. specialize (Hs2 w Hw). lia.
Qed.

Lemma pg_lo_keep n : forall b lo hs ms r, lo <> None -> pg_loop n b lo hs ms = Ok r -> fst r <> None.
Proof.
  induction n as [|n IH]; intros b lo hs ms r Hlo; cbn [pg_loop]; [discriminate|].
  assert (Hadd : forall p hs ms, rmap (fun r => (fst r, p :: snd r)) (pg_loop n b lo hs ms) = Ok r -> fst r <> None).
  { intros p hs' ms' E. destruct (pg_loop n b lo hs' ms') as [r'|] eqn:F; [|discriminate]. cbn in E. injection E as <-. cbn. eapply IH; eassumption. }
  destruct lo as [lo|]; [|contradiction]. destruct hs as [|h hs], ms as [|[v f] ms].
  - intros [= <-]. discriminate.
  - apply Hadd.
  - destruct (same_run h b hs) as [k s]. apply Hadd.
  - destruct (h <? v)%Z; [destruct (same_run h b hs) as [k s]; apply Hadd|]. destruct (v <? h)%Z; [apply Hadd|discriminate].
Qed.
Lemma pg_lo_first n b hs ms r : pg_loop n b None hs ms = Ok r -> hs <> [] -> pg_lower hs ms <> None -> fst r <> None.
Proof.
  intros E Hne Hl. destruct n as [|n]; [discriminate|]. cbn [pg_loop] in E.
  assert (Hadd : forall p hs' ms', rmap (fun r => (fst r, p :: snd r)) (pg_loop n b (pg_lower hs ms) hs' ms') = Ok r -> fst r <> None).
  { intros p hs' ms' E'. destruct (pg_loop n b (pg_lower hs ms) hs' ms') as [r'|] eqn:F; [|discriminate]. cbn in E'. injection E' as <-. cbn. eapply pg_lo_keep; eassumption. }
  destruct hs as [|h hs]; [contradiction|]. destruct ms as [|[v f] ms].
  - destruct (same_run h b hs) as [k s]. eapply Hadd, E.
  - destruct (h <? v)%Z; [destruct (same_run h b hs) as [k s]; eapply Hadd, E|]. destruct (v <? h)%Z; [eapply Hadd, E|discriminate].
Qed.
