(** C32, C33, C65: histograms and most common values. *)
From Coq Require Import List Bool Arith ZArith QArith Lia Lqa Sorting.Sorted Sorting.Permutation.
From Verif Require Import PyBase Stats_model Stats_spec Stats_proofs.
Import ListNotations.
Local Open Scope nat_scope.

(** * C33 *)
(** The list is the input in descending order of frequency (then value), each pair once. *)
Theorem C33_order : forall l, StronglySorted mcv_desc (mc_list (mk_mcvs l)) /\ Permutation (mc_list (mk_mcvs l)) l.
Proof. intros l. split; [apply mcv_sort_sorted|apply mcv_sort_perm]. Qed.
Print Assumptions C33_order.
Example C33_order_ex : mc_list (mk_mcvs [(1%Z, 5); (2%Z, 9); (3%Z, 5)]) = [(2%Z, 9); (3%Z, 5); (1%Z, 5)]. Proof. reflexivity. Qed.

(** top(k) and below(k) partition the list: the first [k] entries and the others, in order; nothing in top is rarer than anything in below. *)
Theorem C33_partition : forall l k,
  mc_list (mc_top (mk_mcvs l) k) ++ mc_list (mc_below (mk_mcvs l) k) = mc_list (mk_mcvs l) /\
  List.length (mc_list (mc_top (mk_mcvs l) k)) = Nat.min k (List.length l) /\
  (forall x y, In x (mc_list (mc_top (mk_mcvs l) k)) -> In y (mc_list (mc_below (mk_mcvs l) k)) -> snd y <= snd x).
Proof.
  intros l k. cbn [mc_top mc_below mk_mcvs mc_list]. pose proof (mcv_sort_sorted l) as Hs.
  rewrite (mcv_sort_id (firstn _ _)), (mcv_sort_id (skipn _ _)) by (apply sorted_firstn || apply sorted_skipn; assumption). split; [apply firstn_skipn|]. split.
  - rewrite firstn_length. f_equal. apply Permutation_length, mcv_sort_perm.
  - intros x y Hx Hy. rewrite <- (firstn_skipn k (mcv_sort l)) in Hs. revert Hs Hx Hy. generalize (firstn k (mcv_sort l)) (skipn k (mcv_sort l)). intros a b.
    induction a as [|z a IH]; [contradiction|]. cbn. intros Hs. inversion Hs as [|? ? H1 H2]; subst. intros [->|Hx] Hy; [|auto].
    rewrite Forall_forall in H2. specialize (H2 y (in_or_app _ _ _ (or_intror Hy))). unfold mcv_desc in H2. lia.
Qed.
Print Assumptions C33_partition.
Example C33_partition_ex : mc_list (mc_top (mk_mcvs [(1%Z, 5); (2%Z, 9); (3%Z, 5)]) 2) = [(2%Z, 9); (3%Z, 5)] /\ mc_list (mc_below (mk_mcvs [(1%Z, 5); (2%Z, 9); (3%Z, 5)]) 2) = [(1%Z, 5)].
Proof. split; reflexivity. Qed.

(** min_freq and max_freq are the smallest and largest frequency, 0 for the empty list. *)
Theorem C33_min_max : forall l, (l = [] -> mc_min (mk_mcvs l) = 0 /\ mc_max (mk_mcvs l) = 0) /\
  (l <> [] -> (exists v, In (v, mc_min (mk_mcvs l)) l) /\ (exists v, In (v, mc_max (mk_mcvs l)) l) /\ forall v f, In (v, f) l -> mc_min (mk_mcvs l) <= f <= mc_max (mk_mcvs l)).
Proof.
  intros l. split; [intros ->; auto|]. intros Hne. pose proof (mcv_sort_sorted l) as Hs. pose proof (mcv_sort_perm l) as Hp.
  assert (Hin : forall x, In x l <-> In x (mcv_sort l)) by (intros x; split; apply Permutation_in; [now symmetry|assumption]).
  assert (Hn : mcv_sort l <> []) by (intros E; rewrite E in Hp; apply Permutation_nil in Hp; contradiction).
  assert (Hmin : mc_min (mk_mcvs l) = snd (last (mcv_sort l) (0%Z, 0))) by (cbn; destruct (mcv_sort l); [contradiction|reflexivity]).
  rewrite Hmin. split; [|split].
  - exists (fst (last (mcv_sort l) (0%Z, 0))). apply Hin. rewrite <- surjective_pairing. now apply last_In.
  - cbn. destruct (mcv_sort l) as [|[v f] r]; [contradiction|]. exists v. apply Hin. now left.
  - intros v f Hvf. apply Hin in Hvf. split; [now apply (last_min (mcv_sort l) (v, f))|]. cbn. destruct (mcv_sort l) as [|y r]; [contradiction|].
    inversion Hs as [|? ? _ H2]; subst. destruct Hvf as [->|Hv]; [reflexivity|]. rewrite Forall_forall in H2. specialize (H2 _ Hv). unfold mcv_desc in H2. cbn in *. lia.
Qed.
Print Assumptions C33_min_max.
Example C33_min_max_ex : mc_min (mk_mcvs [(1%Z, 5); (2%Z, 9); (3%Z, 5)]) = 5 /\ mc_max (mk_mcvs [(1%Z, 5); (2%Z, 9); (3%Z, 5)]) = 9. Proof. split; reflexivity. Qed.

(** frequency_of: the stored frequency; for other values the default if given, else the minimum frequency if requested, else nothing.
    Membership, values() and frequencies() agree with the list. *)
Theorem C33_frequency : forall l, NoDup (map fst l) -> let m := mk_mcvs l in
  (forall v f d b, In (v, f) l -> mc_frequency_of m v d b = Some f /\ mc_contains m v = true) /\
  (forall v d b, ~ In v (map fst l) -> mc_contains m v = false /\
     mc_frequency_of m v d b = match d, b with Some d, _ => Some d | None, true => Some (mc_min m) | None, false => None end) /\
  combine (mc_values m) (mc_freqs m) = mc_list m /\ mc_values m = map fst (mc_list m) /\ mc_freqs m = map snd (mc_list m).
Proof.
  intros l Hnd m. pose proof (mcv_sort_perm l) as Hp.
  assert (Hnd' : NoDup (map fst (mcv_sort l))) by (eapply Permutation_NoDup; [|exact Hnd]; apply Permutation_map; now symmetry).
  assert (Hget : forall v, dget (mc_map m) v = lastval (mcv_sort l) v) by (intros v; apply dict_of_spec).
  assert (Hmap : mc_map m = mcv_sort l).
  { unfold m. cbn. unfold dict_of. clear - Hnd'. assert (G : forall (r acc : dict Z nat), NoDup (map fst (acc ++ r)) -> fold_left (fun d e => dset d (fst e) (snd e)) r acc = acc ++ r).
    { induction r as [|[k v] r IH]; intros acc Hn; cbn; [now rewrite app_nil_r|]. 
      assert (Hset : dset acc k v = acc ++ [(k, v)]).
      { rewrite map_app in Hn. cbn in Hn. apply NoDup_remove_2 in Hn. clear IH. induction acc as [|[k' v'] acc IHa]; cbn; [reflexivity|]. destruct (eqd k k') as [E|E]; [subst; exfalso; apply Hn; now left|].
        f_equal. apply IHa. intros H. apply Hn. now right. }
      rewrite Hset. rewrite IH by (rewrite <- app_assoc; exact Hn). now rewrite <- app_assoc. }
    apply (G _ []). exact Hnd'. }
  assert (Hwf : forall v f, In (v, f) (mcv_sort l) -> dget (mc_map m) v = Some f).
  { intros v f H. apply In_dget; rewrite Hmap; assumption. }
  split; [|split; [|split; [|split]]].
  - intros v f d b Hin. assert (Hg : dget (mc_map m) v = Some f) by (apply Hwf; eapply Permutation_in; [symmetry; exact Hp|assumption]).
    unfold mc_frequency_of, mc_contains, dmem. rewrite Hg. auto.
  - intros v d b Hin. assert (Hg : dget (mc_map m) v = None).
    { rewrite dget_None, Hmap. intros H. apply Hin. eapply Permutation_in; [apply Permutation_map; exact Hp|assumption]. }
    unfold mc_frequency_of, mc_contains, dmem. rewrite Hg. destruct d, b; auto.
  - unfold mc_values, mc_freqs. rewrite Hmap. unfold dkeys, dvalues. cbn. clear. induction (mcv_sort l) as [|[a b] r IH]; cbn; [reflexivity|now rewrite IH].
  - unfold mc_values. rewrite Hmap. reflexivity.
  - unfold mc_freqs. rewrite Hmap. reflexivity.
Qed.
Print Assumptions C33_frequency.
Example C33_frequency_ex : NoDup (map fst [(1%Z, 5); (2%Z, 9)]) /\ mc_frequency_of (mk_mcvs [(1%Z, 5); (2%Z, 9)]) 7 None true = Some 5.
Proof. split; [cbn; repeat constructor; cbn; intuition discriminate|reflexivity]. Qed.

(** * C32 *)
(** The estimates for smaller-or-equal values never fail, lie between 0 and the number of rows and grow with the value, with either interpolation. *)
Theorem C32_below_range : forall bounds freqs lower i h, mk_hist bounds freqs lower i = Ok h -> StronglySorted Z.lt bounds ->
  forall v, exists q, h_below h v = Ok q /\ (0 <= q <= qn (nsum freqs))%Q.
Proof.
  intros bounds freqs lower i h H Hs v. destruct (mk_hist_well _ _ _ _ _ H Hs) as (Hw & _ & E & _). destruct (below_cases h v Hw) as (q & Hq & _). exists q. split; [assumption|].
  pose proof (below_range h v q Hw Hq) as R. pose proof Hw as (_ & _ & _ & Hr & _). now rewrite <- E, <- Hr.
Qed.
Print Assumptions C32_below_range.
Theorem C32_below_monotone : forall bounds freqs lower i h, mk_hist bounds freqs lower i = Ok h -> StronglySorted Z.lt bounds ->
  forall v w p q, (v <= w)%Z -> h_below h v = Ok p -> h_below h w = Ok q -> (p <= q)%Q.
Proof. intros bounds freqs lower i h H Hs v w p q. destruct (mk_hist_well _ _ _ _ _ H Hs) as (Hw & _). now apply below_mono. Qed.
Print Assumptions C32_below_monotone.
Definition ex_hist (i : interpolation) : hist := mkhist [10; 20; 30]%Z [10; 10; 10] 30 0 10 i.
Example C32_below_ex : mk_hist [10; 20; 30]%Z [10; 10; 10] 0 ApproxUni = Ok (ex_hist ApproxUni) /\ StronglySorted Z.lt [10; 20; 30]%Z /\
  (exists q, h_below (ex_hist ApproxUni) 25 = Ok q /\ q == 15)%Q /\ h_below (ex_hist Bound) 25 = Ok 20%Q.
Proof. split; [reflexivity|]. split; [repeat constructor|]. split; [eexists; split; [reflexivity|reflexivity]|reflexivity]. Qed.

(** With "bound", the estimates for greater values lie between 0 and the number of rows. *)
Theorem C32_above_range_partial : forall bounds freqs lower h, mk_hist bounds freqs lower Bound = Ok h -> StronglySorted Z.lt bounds ->
  forall v, exists q, h_above h v = Ok q /\ (0 <= q <= qn (nsum freqs))%Q.
Proof.
  intros bounds freqs lower h H Hs v. destruct (mk_hist_well _ _ _ _ _ H Hs) as (Hw & _ & E & Hi & _). destruct (above_bound_range h v Hw Hi) as (q & Hq & R).
  exists q. split; [assumption|]. pose proof Hw as (_ & _ & _ & Hr & _). now rewrite <- E, <- Hr.
Qed.
Print Assumptions C32_above_range_partial.
(** With "approx-uni" they may exceed the number of rows (here 35 of 30, for a value in the second bucket: the true count is at most 20), or fail. *)
Theorem C32_above_range_refuted : ~ forall bounds freqs lower h, mk_hist bounds freqs lower ApproxUni = Ok h -> StronglySorted Z.lt bounds ->
  forall v, exists q, h_above h v = Ok q /\ (0 <= q <= qn (nsum freqs))%Q.
Proof.
  intros H. assert (Hs : StronglySorted Z.lt [10; 20; 30]%Z) by repeat constructor. destruct (H [10; 20; 30]%Z [10; 10; 10] 0%Z (ex_hist ApproxUni) eq_refl Hs 25%Z) as [q [Hq _]]. discriminate.
Qed.
Print Assumptions C32_above_range_refuted.
(** A value in the last bucket always fails with an IndexError. *)
Theorem C32_above_fails : forall bounds freqs lower h v, mk_hist bounds freqs lower ApproxUni = Ok h -> StronglySorted Z.lt bounds -> 2 <= List.length bounds ->
  (nth (List.length bounds - 2) bounds 0 < v <= nth (List.length bounds - 1) bounds 0)%Z -> h_above h v = Raise IndexError.
Proof.
  intros bounds freqs lower h v H Hs Hl Hv. destruct (mk_hist_well _ _ _ _ _ H Hs) as (Hw & Eb & _ & Ei & _). unfold h_above. rewrite Ei, Eb.
  destruct (bisect_left_splits bounds v (sorted_lt_le _ Hs)) as (Hu & Hu1 & Hu2). set (l := bisect_left bounds v) in *.
  assert (El : l = List.length bounds - 1).
  { destruct (Nat.lt_trichotomy l (List.length bounds - 1)) as [C|[C|C]]; [|assumption|].
    - specialize (Hu2 (List.length bounds - 2) ltac:(lia) ltac:(lia)). apply Z.ltb_ge in Hu2. lia.
    - specialize (Hu1 (List.length bounds - 1) C). apply Z.ltb_lt in Hu1. lia. }
  destruct (Nat.eqb_spec l 0); [lia|]. destruct (Nat.eqb_spec l (List.length bounds)); [lia|]. rewrite (proj2 (nth_error_None bounds (l + 1))) by lia. reflexivity.
Qed.
Print Assumptions C32_above_fails.

(** frequency_above grows with the value inside the bounds: it counts the wrong side. *)
Theorem C32_above_monotone_refuted : ~ forall bounds freqs lower h, mk_hist bounds freqs lower Bound = Ok h -> StronglySorted Z.lt bounds ->
  forall v w p q, (v <= w)%Z -> h_above h v = Ok p -> h_above h w = Ok q -> (q <= p)%Q.
Proof.
  intros H. assert (Hs : StronglySorted Z.lt [10; 20; 30]%Z) by repeat constructor. assert (Hle : (15 <= 25)%Z) by lia.
  specialize (H [10; 20; 30]%Z [10; 10; 10] 0%Z (ex_hist Bound) eq_refl Hs 15%Z 25%Z (qn 10) (qn 20) Hle eq_refl eq_refl). apply qn_le in H. lia.
Qed.
Print Assumptions C32_above_monotone_refuted.
(** What does hold: at or below the first bound the result is the number of rows, above the last it is zero, and between them it
    is the average bucket times the number of bounds that are smaller - the estimate for the values below. *)
Theorem C32_above_partial : forall bounds freqs lower h v, mk_hist bounds freqs lower Bound = Ok h -> StronglySorted Z.lt bounds ->
  ((v <= nth 0 bounds 0)%Z -> h_above h v = Ok (qn (nsum freqs))) /\
  ((last bounds 0 < v)%Z -> h_above h v = Ok 0%Q) /\
  (forall k, k + 1 < List.length bounds -> (nth k bounds 0 < v <= nth (k + 1) bounds 0)%Z -> h_above h v = Ok (qn ((k + 1) * (nsum freqs / List.length bounds)))).
Proof.
  intros bounds freqs lower h v H Hs. destruct (mk_hist_well _ _ _ _ _ H Hs) as (Hw & Eb & Ef & Ei & _). pose proof Hw as (Hne & _ & _ & Hr & Ha). unfold h_above. rewrite Ei, Ha, Hr, Ef, Eb in *.
  destruct (bisect_left_splits bounds v (sorted_lt_le _ Hs)) as (Hu & Hu1 & Hu2). set (l := bisect_left bounds v) in *.
  assert (Hl : List.length bounds <> 0) by (destruct bounds; [contradiction|discriminate]).
  split; [|split].
  - intros Hv. assert (El : l = 0). { destruct l as [|l']; [reflexivity|]. specialize (Hu1 0 ltac:(lia)). apply Z.ltb_lt in Hu1. lia. } rewrite El. reflexivity.
  - intros Hv. assert (Elast : last bounds 0%Z = nth (List.length bounds - 1) bounds 0%Z).
    { destruct (exists_last Hne) as [b' [a ->]]. rewrite last_last, app_length. cbn. replace (List.length b' + 1 - 1) with (List.length b') by lia. rewrite app_nth2, Nat.sub_diag by lia. reflexivity. }
    assert (El : l = List.length bounds). { destruct (Nat.eq_dec l (List.length bounds)) as [|C]; [assumption|]. specialize (Hu2 (List.length bounds - 1) ltac:(lia) ltac:(lia)). apply Z.ltb_ge in Hu2. lia. }
    rewrite El. destruct (Nat.eqb_spec (List.length bounds) 0); [lia|]. rewrite Nat.eqb_refl. reflexivity.
  - intros k Hk Hv. assert (El : l = k + 1).
    { destruct (Nat.lt_trichotomy l (k + 1)) as [C|[C|C]]; [|assumption|].
      - specialize (Hu2 k ltac:(lia) ltac:(lia)). apply Z.ltb_ge in Hu2. lia.
      - specialize (Hu1 (k + 1) C). apply Z.ltb_lt in Hu1. lia. }
    rewrite El. destruct (Nat.eqb_spec (k + 1) 0); [lia|]. destruct (Nat.eqb_spec (k + 1) (List.length bounds)); [lia|]. reflexivity.
Qed.
Print Assumptions C32_above_partial.

(** The "bound" estimates are not upper bounds: rows inside a bucket are not counted ... *)
Definition ex_col : list Z := repeat 10%Z 10 ++ repeat 14%Z 10 ++ repeat 30%Z 10.
Lemma ex_describes : describes [10; 20; 30]%Z [10; 10; 10] ex_col.
Proof. split; [repeat constructor|]. split; [reflexivity|]. split; [reflexivity|]. intros i Hi. destruct i as [|[|[|i]]]; [reflexivity|reflexivity|reflexivity|]. exfalso. change (S (S (S i)) < 3) in Hi. lia. Qed.
Theorem C32_below_bound_refuted : ~ forall bounds freqs lower h col v q, mk_hist bounds freqs lower Bound = Ok h -> describes bounds freqs col ->
  h_below h v = Ok q -> (qn (count_le v col) <= q)%Q.
Proof.
  intros H. pose proof ex_describes as Hd.
  specialize (H [10; 20; 30]%Z [10; 10; 10] 0%Z (ex_hist Bound) ex_col 15%Z (qn 10) eq_refl Hd eq_refl). apply qn_le in H. vm_compute in H. lia.
Qed.
Print Assumptions C32_below_bound_refuted.
(** ... and neither are those for greater values. *)
Theorem C32_above_bound_refuted : ~ forall bounds freqs lower h col v q, mk_hist bounds freqs lower Bound = Ok h -> describes bounds freqs col ->
  h_above h v = Ok q -> (qn (count_gt v col) <= q)%Q.
Proof.
  intros H. pose proof ex_describes as Hd.
  specialize (H [10; 20; 30]%Z [10; 10; 10] 0%Z (ex_hist Bound) ex_col 12%Z (qn 10) eq_refl Hd eq_refl). apply qn_le in H. vm_compute in H. lia.
Qed.
Print Assumptions C32_above_bound_refuted.
(** What does hold, for equi-depth histograms: the estimate is exact at the bounds and short by at most one bucket elsewhere. *)
Theorem C32_below_bound_partial : forall bounds freqs lower h col f v q, mk_hist bounds freqs lower Bound = Ok h -> describes bounds freqs col -> (forall k, In k freqs -> k = f) ->
  h_below h v = Ok q -> (q <= qn (count_le v col) <= q + qn f)%Q /\ (In v bounds -> (q == qn (count_le v col))%Q).
Proof.
  intros bounds freqs lower h col f v q H Hd Hf Hq. destruct (mk_hist_well _ _ _ _ _ H (proj1 Hd)) as (Hw & Eb & Ef & Ei & _). rewrite <- Eb, <- Ef in Hd. rewrite <- Ef in Hf. rewrite <- Eb. now apply (below_equidepth h).
Qed.
Print Assumptions C32_below_bound_partial.
Example C32_below_bound_ex : describes [10; 20; 30]%Z [10; 10; 10] ex_col /\ count_le 15 ex_col = 20 /\ count_le 20 ex_col = 20 /\ h_below (ex_hist Bound) 20 = Ok (qn 20).
Proof. split; [exact ex_describes|]. repeat split. Qed.
(** Beyond the bounds, both estimates are exact for every histogram. *)
Theorem C32_extremes : forall bounds freqs lower i h col v, mk_hist bounds freqs lower i = Ok h -> describes bounds freqs col ->
  ((last bounds 0 <= v)%Z -> h_below h v = Ok (qn (count_le v col))) /\ ((last bounds 0 < v)%Z -> h_above h v = Ok (qn (count_gt v col))) /\
  ((forall x, In x col -> (v < x)%Z) -> (v < nth 0 bounds 0)%Z -> h_below h v = Ok (qn (count_le v col)) /\ h_above h v = Ok (qn (count_gt v col))).
Proof.
  intros bounds freqs lower i h col v H Hd. pose proof Hd as (Hs & Hlen & Hcol & _). destruct (mk_hist_well _ _ _ _ _ H Hs) as (Hw & Eb & Ef & Ei & _). pose proof Hw as (Hne & _ & _ & Hr & _). rewrite Eb in Hne.
  assert (Hl : List.length bounds <> 0) by (destruct bounds; [contradiction|discriminate]).
  assert (Elast : last bounds 0%Z = nth (List.length bounds - 1) bounds 0%Z).
  { destruct (exists_last Hne) as [b' [a ->]]. rewrite last_last, app_length. cbn. replace (List.length b' + 1 - 1) with (List.length b') by lia. rewrite app_nth2, Nat.sub_diag by lia. reflexivity. }
  pose proof (count_split v col) as Hsp. unfold h_below, h_above. rewrite Eb, Hr, Ef.
  destruct (bisect_right_splits bounds v (sorted_lt_le _ Hs)) as (Hu & Hu1 & Hu2). set (u := bisect_right bounds v) in *.
  destruct (bisect_left_splits bounds v (sorted_lt_le _ Hs)) as (Hb & Hb1 & Hb2). set (l := bisect_left bounds v) in *.
  split; [|split].
  - intros Hv. assert (Eu : u = List.length bounds). { destruct (Nat.eq_dec u (List.length bounds)) as [|C]; [assumption|]. specialize (Hu2 (List.length bounds - 1) ltac:(lia) ltac:(lia)). apply negb_false_iff in Hu2. apply Z.ltb_lt in Hu2. lia. }
    rewrite Eu. destruct (Nat.eqb_spec (List.length bounds) 0); [lia|]. rewrite Nat.eqb_refl. rewrite (describes_last _ _ _ Hd Hne) by lia. now rewrite Hcol.
  - intros Hv. assert (El : l = List.length bounds). { destruct (Nat.eq_dec l (List.length bounds)) as [|C]; [assumption|]. specialize (Hb2 (List.length bounds - 1) ltac:(lia) ltac:(lia)). apply Z.ltb_ge in Hb2. lia. }
    rewrite El. destruct (Nat.eqb_spec (List.length bounds) 0); [lia|]. rewrite Nat.eqb_refl. pose proof (describes_last _ _ _ Hd Hne v ltac:(lia)). assert (Hz : count_gt v col = 0) by lia. rewrite Hz. reflexivity.
  - intros Hall Hv. rewrite (count_le_none v col Hall) in *. 
    assert (Eu : u = 0). { destruct u as [|u']; [reflexivity|]. specialize (Hu1 0 ltac:(lia)). apply negb_true_iff in Hu1. apply Z.ltb_ge in Hu1. lia. }
    assert (El : l = 0). { destruct l as [|l']; [reflexivity|]. specialize (Hb1 0 ltac:(lia)). apply Z.ltb_lt in Hb1. lia. }
    rewrite Eu, El. cbn [Nat.eqb]. split; [reflexivity|]. do 2 f_equal. lia.
Qed.
Print Assumptions C32_extremes.

(** The bounds inferred from the value counts: sorted values of the column, each bucket holding at least the bucket size and
    counting the rows up to its bound; rows behind the last bound are dropped, fewer than one bucket of them. *)
Theorem C32_infer_partial : forall freqs n_bins n_rows lo bs ks, StronglySorted Z.lt (map fst freqs) -> infer_bounds freqs n_bins n_rows = Ok (lo, bs, ks) ->
  let col := expand freqs in
  StronglySorted Z.lt bs /\ List.length bs = List.length ks /\ incl bs (map fst freqs) /\ lo = fst (hd (0%Z, 0) freqs) /\ (forall k, In k ks -> n_rows / n_bins <= k) /\
  (forall i, i < List.length bs -> count_le (nth i bs 0%Z) col = nsum (firstn (S i) ks)) /\
  (exists d, List.length col = nsum ks + d /\ (d < n_rows / n_bins \/ d = 0)) /\
  (bs <> [] -> describes bs ks (filter (fun x => (x <=? last bs 0)%Z) col)).
Proof.
  intros freqs n_bins n_rows lo bs ks Hs. unfold infer_bounds. destruct freqs as [|[v f] r]; [discriminate|]. set (freqs := (v, f) :: r) in *. destruct (n_bins =? 0); [discriminate|].
  destruct (infer_loop (n_rows / n_bins) 0 freqs) as [bs' ks'] eqn:E. intros [= <- <- <-]. cbn zeta. destruct (infer_ok _ _ Hs _ _ _ E) as (H1 & H2 & H3 & H4 & d & H5 & H6). cbn [Nat.add] in H4, H5.
  repeat (split; [assumption|]). split; [|split; [reflexivity|split; [assumption|split; [assumption|split]]]].
  - intros x Hx. destruct (infer_In _ _ _ _ _ _ E Hx) as [g Hg]. apply in_map_iff. exists (x, g). auto.
  - exists d. split; [assumption|]. destruct H6 as [H6|[H6|[_ H6]]]; auto.
  - intros Hne. assert (Hl : List.length bs' <> 0) by (destruct bs'; [contradiction|discriminate]).
    assert (Elast : last bs' 0%Z = nth (List.length bs' - 1) bs' 0%Z).
    { clear - Hne. destruct (exists_last Hne) as [b' [a ->]]. rewrite last_last, app_length. cbn. replace (List.length b' + 1 - 1) with (List.length b') by lia. rewrite app_nth2, Nat.sub_diag by lia. reflexivity. }
    split; [assumption|]. split; [assumption|]. split.
    + change (count_le (last bs' 0%Z) (expand freqs) = nsum ks'). rewrite Elast, H4 by lia. replace (S (List.length bs' - 1)) with (List.length ks') by lia. now rewrite firstn_all.
    + intros i Hi. rewrite <- H4 by assumption. unfold count_le. assert (Hle : (nth i bs' 0 <= last bs' 0)%Z) by (rewrite Elast; apply sorted_nth; [now apply sorted_lt_le|lia|lia]).
      revert Hle. generalize (nth i bs' 0%Z) (last bs' 0%Z). clear. intros a b Hle. induction (expand freqs) as [|x c IH]; cbn; [reflexivity|].
      destruct (Z.leb_spec x b) as [Hb|Hb]; cbn; destruct (Z.leb_spec x a) as [Ha|Ha]; cbn; lia.
Qed.
Print Assumptions C32_infer_partial.
Example C32_infer_ex : infer_bounds [(1%Z, 2); (2%Z, 1); (5%Z, 2); (7%Z, 1)] 2 6 = Ok (1%Z, [2; 7]%Z, [3; 3]). Proof. reflexivity. Qed.
(** So the histogram need not describe the column: here the row with value 5 is lost and the histogram claims that nothing is above 3.
    The number of buckets may also exceed the requested one. *)
Theorem C32_infer_refuted : ~ forall freqs n_bins h, StronglySorted Z.lt (map fst freqs) -> calculate_histogram freqs (List.length (expand freqs)) n_bins Bound = Ok (Some h) ->
  describes (h_bounds h) (h_freqs h) (expand freqs).
Proof.
  intros H. assert (Hs : StronglySorted Z.lt (map fst [(1%Z, 2); (2%Z, 2); (5%Z, 1)])) by (cbn; repeat constructor).
  specialize (H [(1%Z, 2); (2%Z, 2); (5%Z, 1)] 2 _ Hs eq_refl). destruct H as (_ & _ & H & _). discriminate.
Qed.
Print Assumptions C32_infer_refuted.
Theorem C32_bins_refuted : ~ forall freqs n_bins h, StronglySorted Z.lt (map fst freqs) -> calculate_histogram freqs (List.length (expand freqs)) n_bins Bound = Ok (Some h) ->
  List.length (h_bounds h) <= n_bins.
Proof.
  intros H. assert (Hs : StronglySorted Z.lt (map fst [(1%Z, 1); (2%Z, 1); (5%Z, 1)])) by (cbn; repeat constructor).
  specialize (H [(1%Z, 1); (2%Z, 1); (5%Z, 1)] 2 _ Hs eq_refl). cbn in H. lia.
Qed.
Print Assumptions C32_bins_refuted.
(** The end-to-end consequence of the lost rows: nothing reported above 3 although a row is. *)
Theorem C32_lost_rows_refuted : ~ forall freqs n_bins h v q, StronglySorted Z.lt (map fst freqs) -> calculate_histogram freqs (List.length (expand freqs)) n_bins Bound = Ok (Some h) ->
  (last (h_bounds h) 0 < v)%Z -> h_above h v = Ok q -> (qn (count_gt v (expand freqs)) <= q)%Q.
Proof.
  intros H. assert (Hs : StronglySorted Z.lt (map fst [(1%Z, 2); (2%Z, 2); (5%Z, 1)])) by (cbn; repeat constructor). assert (Hv : (2 < 3)%Z) by lia.
  specialize (H [(1%Z, 2); (2%Z, 2); (5%Z, 1)] 2 _ 3%Z 0%Q Hs eq_refl Hv eq_refl). vm_compute in H. now apply H.
Qed.
Print Assumptions C32_lost_rows_refuted.

(** * C65 *)
(** Histograms read from PostgreSQL have unsorted bounds as soon as the most common values are not ascending: they are merged in order of frequency. *)
Theorem C65_sorted_refuted : ~ forall hs n_rows l h, StronglySorted Z.le hs -> NoDup (map fst l) -> (forall v, In v hs -> ~ In v (map fst l)) ->
  pg_histogram hs n_rows (mk_mcvs l) Bound = Ok (Some h) -> StronglySorted Z.le (h_bounds h).
Proof.
  intros H. assert (H1 : StronglySorted Z.le [10; 20; 30]%Z) by (repeat (constructor; [|]); repeat constructor; lia).
  assert (H2 : NoDup (map fst [(15%Z, 5); (25%Z, 9)])) by (cbn; repeat constructor; cbn; intuition discriminate).
  assert (H3 : forall v, In v [10; 20; 30]%Z -> ~ In v (map fst [(15%Z, 5); (25%Z, 9)])) by (cbn; intuition (subst; discriminate)).
  specialize (H [10; 20; 30]%Z 30 [(15%Z, 5); (25%Z, 9)] _ H1 H2 H3 eq_refl). cbn in H.
  repeat match goal with X : StronglySorted _ (_ :: _) |- _ => inversion X; subst; clear X | X : Forall _ (_ :: _) |- _ => inversion X; subst; clear X end; lia.
Qed.
Print Assumptions C65_sorted_refuted.
(** The lower bound of a column that starts at 0 is its second bound. *)
Theorem C65_lower_refuted : ~ forall hs n_rows l h, StronglySorted Z.le hs -> (forall v, In v hs -> ~ In v (map fst l)) ->
  pg_histogram hs n_rows (mk_mcvs l) Bound = Ok (Some h) -> forall v, In v hs -> (h_lower h <= v)%Z.
Proof.
  intros H. assert (H1 : StronglySorted Z.le [0; 20; 30]%Z) by (repeat (constructor; [|]); repeat constructor; lia).
  assert (H3 : forall v, In v [0; 20; 30]%Z -> ~ In v (map fst (@nil mcv))) by (cbn; auto).
  specialize (H [0; 20; 30]%Z 30 [] _ H1 H3 eq_refl 0%Z (or_introl eq_refl)). cbn in H. lia.
Qed.
Print Assumptions C65_lower_refuted.
(** A column whose only bound is 0 fails. *)
Theorem C65_zero_fails : forall n k i, pg_histogram (repeat 0%Z (S k)) (S n) (mk_mcvs []) i = Raise AssertionError.
Proof.
  intros n k i. assert (Hr : forall b m, exists j, same_run 0 b (repeat 0%Z m) = (j, [])).
  { intros b m. induction m as [|m [j IH]]; cbn; [eauto|]. rewrite IH. eauto. }
  unfold pg_histogram. cbn [repeat]. change (S n =? 0) with false. cbn iota. cbn [mc_list mk_mcvs mcv_sort fold_right]. rewrite Nat.add_0_r. cbn [pg_loop List.length].
  destruct (Hr (S n / S (List.length (repeat 0%Z k))) k) as [j Hj]. rewrite Hj. reflexivity.
Qed.
Print Assumptions C65_zero_fails.
(** The frequencies may add up to more than the rows of the table: the most common values are added to buckets that already cover all rows. *)
Theorem C65_rows_refuted : ~ forall hs n_rows l h, StronglySorted Z.le hs -> (forall v, In v hs -> ~ In v (map fst l)) -> nsum (map snd l) <= n_rows ->
  pg_histogram hs n_rows (mk_mcvs l) Bound = Ok (Some h) -> h_rows h <= n_rows.
Proof.
  intros H. assert (H1 : StronglySorted Z.le [10; 20]%Z) by (repeat (constructor; [|]); repeat constructor; lia).
  assert (H3 : forall v, In v [10; 20]%Z -> ~ In v (map fst [(15%Z, 5)])) by (cbn; intuition (subst; discriminate)). assert (H4 : nsum (map snd [(15%Z, 5)]) <= 10) by (cbn; lia).
  specialize (H [10; 20]%Z 10 [(15%Z, 5)] _ H1 H3 H4 eq_refl). cbn in H. lia.
Qed.
Print Assumptions C65_rows_refuted.
(** What does hold: if the most common values are ascending, differ from the histogram bounds, and the result is not refused for its
    lower bound, the bounds are strictly ascending and consist of the bounds and the common values; the frequencies add up. *)
Theorem C65_histogram_partial : forall hs n_rows ms i h, StronglySorted Z.le hs -> StronglySorted Z.lt (map fst (mc_list ms)) -> (forall v, In v hs -> ~ In v (map fst (mc_list ms))) ->
  pg_histogram hs n_rows ms i = Ok (Some h) ->
  StronglySorted Z.lt (h_bounds h) /\ (forall v, In v (h_bounds h) <-> In v hs \/ In v (map fst (mc_list ms))) /\
  h_rows h = (n_rows / List.length hs) * List.length hs + nsum (map snd (mc_list ms)) /\ (mc_list ms = [] -> h_rows h <= n_rows).
Proof.
  intros hs n_rows ms i h Hh Hm Hd. unfold pg_histogram. destruct hs as [|x hs]; [discriminate|]. set (H := x :: hs) in *. destruct (n_rows =? 0); [discriminate|].
  destruct (pg_loop_ok (S (List.length H + List.length (mc_list ms))) (n_rows / List.length H) None H (mc_list ms) Hh Hm Hd (Nat.lt_succ_diag_r _)) as (lo' & bk & Hb & S1 & S2 & S3).
  rewrite Hb. cbn [rbind]. destruct lo' as [lo|]; [|discriminate]. destruct (mk_hist (map fst bk) (map snd bk) lo i) as [h'|] eqn:E; [|discriminate]. cbn. intros [= <-].
  destruct (mk_hist_well _ _ _ _ _ E S1) as ((_ & _ & _ & Hr & _) & Eb & Ef & _). rewrite Hr, Ef, Eb. split; [assumption|]. split; [assumption|]. split; [assumption|].
  intros En. rewrite S3, En. cbn [map nsum fold_right]. rewrite Nat.add_0_r, Nat.mul_comm. rewrite Nat.mul_comm. rewrite Nat.mul_comm. apply Nat.mul_div_le. discriminate.
Qed.
Print Assumptions C65_histogram_partial.
(** It never fails under these conditions if no value is zero. *)
Theorem C65_total_partial : forall hs n_rows ms i, hs <> [] -> n_rows <> 0 -> StronglySorted Z.le hs -> StronglySorted Z.lt (map fst (mc_list ms)) -> (forall v, In v hs -> ~ In v (map fst (mc_list ms))) ->
  hd 0%Z hs <> 0%Z -> exists h, pg_histogram hs n_rows ms i = Ok (Some h).
Proof.
  intros hs n_rows ms i Hne Hn Hh Hm Hd Hz. unfold pg_histogram. destruct hs as [|x hs]; [contradiction|]. set (H := x :: hs) in *. destruct (Nat.eqb_spec n_rows 0); [contradiction|].
  destruct (pg_loop_ok (S (List.length H + List.length (mc_list ms))) (n_rows / List.length H) None H (mc_list ms) Hh Hm Hd (Nat.lt_succ_diag_r _)) as (lo' & bk & Hb & S1 & S2 & S3).
  assert (Hlo : lo' <> None).
  { apply (pg_lo_first _ _ _ _ _ Hb); [discriminate|]. unfold pg_lower, H. cbn [firstn app filter]. cbn in Hz. destruct (Z.eqb_spec x 0); [contradiction|]. cbn. discriminate. }
  rewrite Hb. cbn [rbind]. destruct lo' as [lo|]; [|contradiction]. unfold mk_hist. rewrite !map_length, Nat.eqb_refl. destruct (map fst bk) as [|y bs] eqn:E; [|eexists; reflexivity].
  exfalso. assert (Hx : In x []) by (apply (proj2 (S2 x)); left; now left). exact Hx.
Qed.
Print Assumptions C65_total_partial.
Example C65_histogram_ex : StronglySorted Z.le [10; 20; 20; 30]%Z /\ mc_list (mk_mcvs [(15%Z, 9); (25%Z, 5)]) = [(15%Z, 9); (25%Z, 5)] /\
  pg_histogram [10; 20; 20; 30]%Z 41 (mk_mcvs [(15%Z, 9); (25%Z, 5)]) Bound = Ok (Some (mkhist [10; 15; 20; 25; 30]%Z [10; 9; 20; 5; 10] 54 10 10 Bound)).
Proof. split; [repeat (constructor; [|]); repeat constructor; lia|]. split; reflexivity. Qed.
