(** C266-C270: the statistics interface. *)
From Coq Require Import List Bool Arith ZArith QArith Lia Sorting.Sorted Sorting.Permutation.
From Verif Require Import PyBase EStat_model EStat_spec EStat_proofs.
Import ListNotations.
Local Open Scope nat_scope.

Lemma execute_off w s q : execute w s q (Some false) = (s, ask w q).
Proof. unfold execute. cbn. destruct (ask w q); reflexivity. Qed.

(** ** C266: emulated statistics describe the table *)
(* Missing: tables with a schema, and NULLs that are as frequent as a value; see the refutations. *)
Theorem C266_emulated_partial : forall sys w g k s x t rs emulated cache,
  target x = Some t -> t_virtual t = false -> t_schema t = None -> referenced w t = Some rs -> asked rs x ->
  emulated = Some true \/ (emulated = None /\ f_emulated g = true) ->
  cache = Some false \/ (cache = None /\ f_cache g = Some false) -> (forall c n, x = HistogramOf c n -> f_cache g = Some false) ->
  exists v, call sys w g k s x emulated cache = (s, Ok v) /\ right rs x v.
Proof.
  intros sys w g k s x t rs emulated cache T V SC R A EM CA HG.
  unfold referenced in R. rewrite SC in R. change (w 0) with (w public) in R.
  assert (EM' : use_emulation g emulated = true) by (unfold use_emulation; destruct EM as [-> | [-> ->]]; reflexivity).
  assert (CA' : caching g cache = Some false) by (unfold caching; destruct CA as [-> | [-> ->]]; reflexivity).
  assert (CC : caching g (Some false) = Some false) by reflexivity.
  destruct x as [t'|[c tc]|[c tc]|[c tc] n|[c tc] n]; cbn [target c_table] in T; [injection T as -> | subst tc ..];
    unfold call, on_column; cbn [c_table c_name]; rewrite V, EM', ?CA'.
  - unfold calc_total. rewrite CC, execute_off. cbn [ask]. rewrite R. eexists. split; reflexivity.
  - unfold calc_distinct. rewrite CC, execute_off. cbn [ask]. rewrite R. eexists. split; [reflexivity|]. cbn [right c_name].
    eexists. split; [reflexivity|]. exists (dedup (nonnull (values c rs))). split; [apply dedup_NoDup|]. split; [|reflexivity].
    intros y. rewrite dedup_In. apply nonnull_In.
  - unfold calc_min_max. rewrite CC, execute_off. cbn [ask]. rewrite R. eexists. split; [reflexivity|]. cbn [right c_name].
    eexists _, _. split; [reflexivity|]. split; [apply least | apply greatest].
  - cbn [asked c_name] in A. destruct A as [L NT]. unfold calc_mcv. rewrite CC, execute_off. cbn [ask]. rewrite R, L.
    assert (TA : tally (column c rs) (sort by_count (groups (values c rs)))) by (eapply tally_perm; [apply groups_tally | apply Permutation_sym, sort_perm]).
    unfold ret. cbn [fst snd rbind]. unfold common_values. apply (tally_no_tie _ _ TA) in NT. rewrite NT. eexists. split; [reflexivity|]. cbn [right c_name].
    eexists. split; [reflexivity|]. split; [|apply mcv_desc_desc]. eapply tally_perm; [exact TA | apply Permutation_sym, sort_perm].
  - destruct A as [b ->]. specialize (HG _ _ eq_refl). unfold calc_histogram, calc_total. change (caching g None) with (f_cache g). rewrite HG, execute_off.
    cbn [ask]. rewrite R. cbn [right c_name]. rewrite CA'. destruct rs as [|r0 rs0] eqn:RS; [eexists; split; [reflexivity | left; split; reflexivity]|].
    set (m := S b). cbn [List.length]. rewrite execute_off. cbn [ask]. rewrite R, <- RS. unfold ret. cbn [fst snd rbind].
    set (l := column c rs). change (values c rs) with l. set (gs := sort by_value (groups l)).
    assert (TA : tally l gs) by (eapply tally_perm; [apply groups_tally | apply Permutation_sym, sort_perm]).
    assert (W : forall b, weight b gs = rows_upto b l) by (intros; apply weight_rows).
    assert (LL : List.length l = S (List.length rs0)) by (unfold l, column; rewrite map_length, RS; reflexivity).
    assert (SS : StronglySorted (fun a b => value_lt (fst a) (fst b)) gs) by (apply strict_sorted; [apply TA | apply by_value_sorted]).
    assert (TT : total (map snd gs) = List.length l) by (rewrite <- total_all, W; apply rows_upto_None).
    destruct gs as [|[v0 f0] gs'] eqn:GS; [exfalso; cbn in TT; rewrite LL in TT; discriminate|]. rewrite <- GS in *.
    assert (NE : gs <> []) by (rewrite GS; discriminate).
    assert (IN := infer_nonempty (S (List.length rs0) / m) gs 0 NE). cbn [Nat.add] in IN. rewrite TT, LL in IN.
    assert (DV : S (List.length rs0) / m <= S (List.length rs0)) by (apply Nat.div_le_upper_bound; subst m; nia). specialize (IN DV).
    rewrite GS. cbv iota beta. rewrite <- GS.
    destruct (infer_loop (S (List.length rs0) / m) 0 gs) as [bs ks] eqn:IL. cbn [fst snd] in *. unfold mk_hist. cbn [fst snd].
    destruct (infer_spec _ _ _ _ _ SS IL) as [LE IS]. destruct bs as [|b0 bs']; [congruence|].
    eexists. split; [reflexivity|]. right. split; [subst rs; discriminate|]. eexists. split; [reflexivity|]. unfold fits. fold l.
    assert (H0 : In (v0, f0) gs) by (rewrite GS; left; reflexivity). apply (proj2 TA) in H0 as [I0 E0].
    split; [exact I0|]. split; [|split; [exact LE|split; [discriminate|]]].
    + rewrite <- W, GS, weight_cons, (weight_none v0 gs').
      * cbn [fst snd]. rewrite <- le_value_upto. replace (le_value v0 v0) with true by (destruct v0; cbn; [symmetry; apply Z.leb_refl | reflexivity]). lia.
      * rewrite GS in SS. inversion SS as [|? ? _ F]; subst. rewrite Forall_forall in F. intros e X. destruct (F _ X) as [L N]. cbn [fst] in L, N. rewrite <- le_value_upto.
        destruct (le_value (fst e) v0) eqn:Y; [|reflexivity]. exfalso. apply N. apply le_value_antisym; assumption.
    + intros i b' B. destruct (IS i b' B) as [I1 S1]. split.
      * apply in_map_iff in I1 as ([v f] & <- & I1). apply (proj2 TA) in I1 as [I1 _]. exact I1.
      * rewrite S1. cbn [Nat.add]. apply W.
Qed.
Print Assumptions C266_emulated_partial.

Definition one (v : option Z) : nat -> option Z := fun _ => v.
Definition cfg : config := mkCfg true true (Some false).
Definition no_cat : catalog := mkCat (fun _ => true) (fun _ _ => None) (fun _ _ _ => None) (fun _ _ _ => []) (fun _ _ _ => Ok None).
Definition w0 (l : list (option Z)) : world := fun s t => if s =? 0 then if t =? 5 then Some (map one l) else None else None.
Definition t5 : tref := mkT 5 None false.
Definition c5 : cref := mkC 1 (Some t5).
Definition s0 : state := mkS [] true.
Example C266_ex : let l := [Some 3; Some 1; Some 3; Some 2; None]%Z in
  map (fun x => snd (call Postgres (w0 l) cfg no_cat s0 x None None)) [TotalRows t5; NumDistinct c5; MinMax c5; HistogramOf c5 (Some 2)]
  = [Ok (SNum (Some 5)); Ok (SNum (Some 3)); Ok (SPair (Some 1) (Some 3)); Ok (SHist (Some (Some 1, [Some 2; Some 3], [2; 2]%nat)))]%Z
  /\ snd (call Postgres (w0 [Some 3; Some 1; Some 3; Some 2; Some 1; Some 3]%Z) cfg no_cat s0 (MostCommon c5 None) None None) = Ok (SMcv [(Some 3%Z, 3); (Some 1%Z, 2); (Some 2%Z, 1)]).
Proof. split; vm_compute; reflexivity. Qed.

(* The schema of a table is ignored: statistics of the public table of the same name are returned. *)
Theorem C266_schema_refuted : ~ forall w g s t rs, t_virtual t = false -> referenced w t = Some rs ->
  exists v, call Postgres w g no_cat s (TotalRows t) (Some true) (Some false) = (s, Ok v) /\ right rs (TotalRows t) v.
Proof.
  intros H. destruct (H (fun s t => Some (repeat (one None) s)) cfg s0 (mkT 5 (Some 7) false) (repeat (one None) 7) eq_refl eq_refl) as (v & E & R).
  cbn in R. subst v. vm_compute in E. discriminate.
Qed.
Print Assumptions C266_schema_refuted.
(* NULL and a value with the same frequency cannot be sorted. *)
Theorem C266_null_refuted : forall w g k s c t rs n x, c_table c = Some t -> t_virtual t = false -> w public (t_name t) = Some rs -> limit n = None ->
  In None (column (c_name c) rs) -> In (Some x) (column (c_name c) rs) -> occurrences (column (c_name c) rs) None = occurrences (column (c_name c) rs) (Some x) ->
  call Postgres w g k s (MostCommon c n) (Some true) (Some false) = (s, Raise TypeError).
Proof.
  intros w g k s [c tc] t rs n x E V R L H1 H2 EQ. cbn [c_table c_name] in *. subst tc. unfold call, on_column. cbn [c_table c_name]. rewrite V. cbn [use_emulation].
  unfold calc_mcv. change (caching g (caching g (Some false))) with (Some false). rewrite execute_off. cbn [ask]. rewrite R, L.
  assert (TA : tally (column c rs) (sort by_count (groups (values c rs)))) by (eapply tally_perm; [apply groups_tally | apply Permutation_sym, sort_perm]).
  unfold ret. cbn [fst snd rbind]. unfold common_values. replace (null_tie (sort by_count (groups (values c rs)))) with true; [reflexivity|]. symmetry.
  apply null_tie_spec. exists (occurrences (column c rs) None), x. split; apply TA; split; try assumption; reflexivity.
Qed.
Print Assumptions C266_null_refuted.
Example C266_null_ex : snd (call Postgres (w0 [Some 1; None]%Z) cfg no_cat s0 (MostCommon c5 (Some 10%Z)) None None) = Raise TypeError.
Proof. reflexivity. Qed.
(* Rows without a value become the last bound of a histogram. *)
Theorem C266_bounds_refuted : ~ forall w x h, snd (call Postgres w cfg no_cat s0 x (Some true) (Some false)) = Ok (SHist (Some h)) ->
  forall b, In b (snd (fst h)) -> b <> None.
Proof.
  intros H. apply (H (w0 [Some 1; None; None]%Z) (HistogramOf c5 (Some 1)) (Some 1%Z, [None], [3]) eq_refl None); [left; reflexivity | reflexivity].
Qed.
Print Assumptions C266_bounds_refuted.

(** ** C267: the [k] most common values *)
Lemma tail_freqs (l m : list (value * nat)) : descending l -> descending m -> Permutation l m -> map snd l = map snd m.
Proof.
  intros D1 D2 P. apply (sorted_unique (fun a b : nat => b <= a)); [intros; lia | apply (sorted_map snd (fun a b => b <= a)); exact D1 | apply (sorted_map snd (fun a b => b <= a)); exact D2 | apply Permutation_map; exact P].
Qed.
Definition mcv_le (a b : value * nat) : Prop := mcv_desc a b = true.
Definition is_value (a : value * nat) : Prop := fst a <> None.
Lemma mcv_trans a b c : is_value a -> is_value b -> is_value c -> mcv_le a b -> mcv_le b c -> mcv_le a c.
Proof.
  unfold is_value, mcv_le, mcv_desc. destruct a as [[a|] fa], b as [[b|] fb], c as [[c|] fc]; cbn [fst snd]; try congruence. intros _ _ _.
  rewrite !orb_true_iff, !andb_true_iff, !Nat.ltb_lt, !Nat.eqb_eq, !Z.leb_le. lia.
Qed.
Lemma mcv_antisym a b : is_value a -> is_value b -> mcv_le a b -> mcv_le b a -> a = b.
Proof.
  unfold is_value, mcv_le, mcv_desc. destruct a as [[a|] fa], b as [[b|] fb]; cbn [fst snd]; try congruence. intros _ _.
  rewrite !orb_true_iff, !andb_true_iff, !Nat.ltb_lt, !Nat.eqb_eq, !Z.leb_le. intros H1 H2. assert (fa = fb) by lia. assert (a = b) by lia. congruence.
Qed.
Lemma mcv_sorted l : Forall is_value l -> StronglySorted mcv_le (sort mcv_desc l).
Proof.
  intros F. apply (sort_sorted mcv_desc mcv_le is_value); [exact mcv_trans | trivial | | exact F].
  unfold is_value, mcv_le, mcv_desc. intros [[a|] fa] [[b|] fb]; cbn [fst snd]; try congruence. intros _ _.
  rewrite !orb_true_iff, !orb_false_iff, !andb_true_iff, !andb_false_iff, !Nat.ltb_lt, !Nat.ltb_ge, !Nat.eqb_eq, !Nat.eqb_neq, !Z.leb_le, !Z.leb_gt. lia.
Qed.
(** The first [k] of a descending list are those above the next frequency. *)
Lemma first_k (l : list (value * nat)) k f : descending l -> nth_error (map snd l) k = Some f -> (forall x, In x (firstn k l) -> f < snd x) ->
  forall x, In x (firstn k l) <-> In x l /\ f < snd x.
Proof.
  intros D N A x. split; [intros H; split; [rewrite <- (firstn_skipn k l); apply in_or_app; left; exact H | apply A; exact H]|].
  intros [H L]. rewrite <- (firstn_skipn k l) in H. apply in_app_or in H as [H|H]; [exact H|]. exfalso.
  revert k N A H. induction D as [|y l D IH F]; intros [|k] N A H; cbn in N, H; try discriminate.
  - injection N as <-. destruct H as [<-|H]; [lia|]. rewrite Forall_forall in F. specialize (F _ H). lia.
  - apply (IH k N); [|exact H]. intros z Z. apply A. right. exact Z.
Qed.
Lemma NoDup_firstn {A} (l : list A) k : NoDup l -> NoDup (firstn k l).
Proof. intros N. rewrite <- (firstn_skipn k l) in N. induction (firstn k l) as [|x f IH]; [constructor|]. cbn in N. inversion N; subst. constructor; [intros H; apply H1, in_or_app; left; exact H | apply IH; assumption]. Qed.
Lemma nodup_pairs (l : list (value * nat)) : NoDup (map fst l) -> NoDup l.
Proof. apply NoDup_map_inv. Qed.

Definition common sys w g k s c n := snd (call sys w g k s (MostCommon c n) (Some true) (Some false)).
Lemma common_ok w g k s sys c t rs n : c_table c = Some t -> t_virtual t = false -> w public (t_name t) = Some rs ->
  common sys w g k s c n = common_values (match limit n with None => sort by_count (groups (column (c_name c) rs)) | Some n => firstn n (sort by_count (groups (column (c_name c) rs))) end).
Proof.
  destruct c as [c tc]. cbn [c_table c_name]. intros -> V R. unfold common, call, on_column. cbn [c_table c_name]. rewrite V. cbn [use_emulation].
  unfold calc_mcv. change (caching g (caching g (Some false))) with (Some false). rewrite execute_off. cbn [ask]. rewrite R. reflexivity.
Qed.
Lemma tie_incl l m : (forall x : value * nat, In x l -> In x m) -> null_tie m = false -> null_tie l = false.
Proof.
  intros H N. destruct (null_tie l) eqn:E; [|reflexivity]. apply null_tie_spec in E as (f & x & A & B). exfalso. rewrite <- not_true_iff_false in N. apply N.
  apply null_tie_spec. exists f, x. split; apply H; assumption.
Qed.

(* The frequencies are always those of the most frequent values, each of the values has its own frequency; and if the number does
   not cut through values of the same frequency, these are the first entries of the full list. *)
Theorem C267_top_partial : forall sys w g k s c t rs n all, c_table c = Some t -> t_virtual t = false -> w public (t_name t) = Some rs -> (0 < n)%Z ->
  common sys w g k s c None = Ok (SMcv all) ->
  exists l, common sys w g k s c (Some n) = Ok (SMcv l)
    /\ map snd l = firstn (Z.to_nat n) (map snd all)
    /\ (forall e, In e l -> In e all) /\ NoDup (map fst l)
    /\ (~ In None (column (c_name c) rs) ->
        (forall f f', nth_error (map snd all) (Z.to_nat n - 1) = Some f -> nth_error (map snd all) (Z.to_nat n) = Some f' -> f <> f') ->
        l = firstn (Z.to_nat n) all).
Proof.
  intros sys w g k s c t rs n all E V R N H. rewrite (common_ok w g k s sys c t rs) in * by assumption. change (limit None) with (@None nat) in H. cbv iota in H.
  replace (limit (Some n)) with (Some (Z.to_nat n)) by (cbn; destruct (Z.leb_spec n 0); [lia | reflexivity]). cbv iota.
  set (L := column (c_name c) rs) in *. set (A := sort by_count (groups L)) in *. set (m := Z.to_nat n) in *.
  assert (TA : tally L A) by (eapply tally_perm; [apply groups_tally | apply Permutation_sym, sort_perm]).
  assert (DA : descending A) by apply by_count_desc.
  unfold common_values in H |- *. destruct (null_tie A) eqn:NT; [discriminate|]. injection H as <-.
  assert (IA : forall x, In x (firstn m A) -> In x A) by (intros x X; rewrite <- (firstn_skipn m A); apply in_or_app; left; exact X).
  rewrite (tie_incl _ A IA NT). eexists. split; [reflexivity|].
  assert (FR : map snd (sort mcv_desc A) = map snd A) by (apply tail_freqs; [apply mcv_desc_desc | exact DA | apply sort_perm]).
  assert (FK : map snd (sort mcv_desc (firstn m A)) = firstn m (map snd A)).
  { rewrite firstn_map. apply tail_freqs; [apply mcv_desc_desc | apply sorted_firstn; exact DA | apply sort_perm]. }
  split; [rewrite FR; exact FK|]. split.
  { intros e I0. apply (Permutation_in _ (Permutation_sym (sort_perm mcv_desc A))). apply IA. apply (Permutation_in _ (sort_perm mcv_desc _)). exact I0. }
  split.
  { eapply Permutation_NoDup; [apply Permutation_sym, Permutation_map, sort_perm|]. rewrite <- firstn_map. apply NoDup_firstn. apply TA. }
  intros NN CUT. set (B := sort mcv_desc A) in *.
  assert (VA : Forall is_value A). { apply Forall_forall. intros [v f] I0 X. cbn in X. subst v. apply TA in I0 as [I0 _]. contradiction. }
  assert (PB : Permutation B A) by apply sort_perm.
  assert (VB : Forall is_value B) by (rewrite Forall_forall in *; intros x X; apply VA; apply (Permutation_in _ PB); exact X).
  assert (DB : descending B) by apply mcv_desc_desc.
  assert (P : Permutation (firstn m A) (firstn m B)).
  { destruct (nth_error (map snd A) m) as [f'|] eqn:F'.
    - assert (FB : nth_error (map snd B) m = Some f') by (rewrite FR; exact F').
      assert (M : exists p, m = S p) by (exists (m - 1); subst m; lia). destruct M as [p M].
      assert (AB : forall C, descending C -> map snd C = map snd A -> forall x, In x (firstn m C) -> f' < snd x).
      { intros C DC EC x X.
        assert (L1 : p < List.length C). { apply (f_equal (@List.length nat)) in EC. rewrite !map_length in EC. assert (m < List.length (map snd A)) by (apply nth_error_Some; congruence). rewrite map_length in H. lia. }
        destruct (nth_error (map snd C) p) as [f|] eqn:F; [|apply nth_error_None in F; rewrite map_length in F; lia].
        assert (NF : f <> f'). { apply CUT; [replace (m - 1) with p by lia; rewrite FR, <- EC; exact F | rewrite FR; exact F']. }
        rewrite <- EC in F'.
        assert (S1 : StronglySorted (fun a b : nat => b <= a) (map snd C)) by (apply (sorted_map snd (fun a b => b <= a)); exact DC).
        assert (GE : forall (q : list nat), StronglySorted (fun a b => b <= a) q -> forall i j a b, i <= j -> nth_error q i = Some a -> nth_error q j = Some b -> b <= a).
        { clear. induction 1 as [|y q S1 IH F]; intros [|i] [|j] a b LE H1 H2; cbn in *; try discriminate; [injection H1 as <-; injection H2 as <-; lia | | lia |].
          - injection H1 as <-. rewrite Forall_forall in F. apply F. apply nth_error_In in H2. exact H2.
          - apply (IH i j); [lia | assumption | assumption]. }
        apply In_nth_error in X as [i X]. assert (LI : i < m). { assert (i < List.length (firstn m C)) by (apply nth_error_Some; congruence). rewrite firstn_length in H. lia. }
        assert (X' : nth_error (map snd C) i = Some (snd x)).
        { apply map_nth_error. rewrite <- X. clear -LI. revert i LI C. induction m as [|m IH]; intros [|i] LI [|y C]; cbn; try lia; try reflexivity. apply IH. lia. }
        assert (f' <= f) by (apply (GE _ S1 p m); [lia | exact F | exact F']). assert (f <= snd x) by (apply (GE _ S1 i p); [lia | exact X' | exact F]). lia. }
      apply NoDup_Permutation; [apply NoDup_firstn, nodup_pairs, TA | apply NoDup_firstn, nodup_pairs; eapply Permutation_NoDup; [apply Permutation_sym, Permutation_map, PB | apply TA] |].
      intros x. rewrite (first_k A m f' DA F' (AB A DA eq_refl)), (first_k B m f' DB FB (AB B DB FR)).
      split; intros [I0 L0]; (split; [|exact L0]); [apply (Permutation_in _ (Permutation_sym PB)) | apply (Permutation_in _ PB)]; exact I0.
    - apply nth_error_None in F'. rewrite map_length in F'. rewrite !firstn_all2; [apply Permutation_sym; exact PB | rewrite (Permutation_length PB); exact F' | exact F']. }
  apply (sorted_unique mcv_le).
  - intros a b Ha Hb. assert (U : forall z, In z (sort mcv_desc (firstn m A)) -> is_value z). { intros z Z. apply (Permutation_in _ (sort_perm mcv_desc _)) in Z. apply IA in Z. rewrite Forall_forall in VA. apply VA. exact Z. }
    apply mcv_antisym; apply U; assumption.
  - apply mcv_sorted. rewrite Forall_forall in *. intros z Z. apply VA. apply IA. exact Z.
  - apply sorted_firstn. apply mcv_sorted. exact VA.
  - etransitivity; [apply sort_perm | exact P].
Qed.
Print Assumptions C267_top_partial.
Example C267_ex : let w := w0 [Some 3; Some 1; Some 3; Some 2; Some 1; Some 3]%Z in
  common Postgres w cfg no_cat s0 c5 (Some 2%Z) = Ok (SMcv [(Some 3%Z, 3); (Some 1%Z, 2)])
  /\ common Postgres w cfg no_cat s0 c5 None = Ok (SMcv [(Some 3%Z, 3); (Some 1%Z, 2); (Some 2%Z, 1)]).
Proof. split; vm_compute; reflexivity. Qed.
(* Among values of the same frequency the database keeps the small ones, but the list starts with the large ones. *)
Theorem C267_ties_refuted : ~ forall w n l all, (0 < n)%Z -> common Postgres w cfg no_cat s0 c5 None = Ok (SMcv all) -> common Postgres w cfg no_cat s0 c5 (Some n) = Ok (SMcv l) ->
  l = firstn (Z.to_nat n) all.
Proof.
  intros H. specialize (H (w0 [Some 1; Some 2]%Z) 1%Z [(Some 1%Z, 1)] [(Some 2%Z, 1); (Some 1%Z, 1)] eq_refl eq_refl eq_refl). discriminate.
Qed.
Print Assumptions C267_ties_refuted.

(** ** C268: the cache *)
Lemma execute_coherent w s q flag : coherent w s -> snd (execute w s q flag) = ask w q /\ coherent w (fst (execute w s q flag)) /\ s_enabled (fst (execute w s q flag)) = s_enabled s.
Proof.
  intros C. unfold execute. destruct (if cached s flag then dget (s_cache s) q else None) as [a|] eqn:D.
  - destruct (cached s flag); [|discriminate]. apply C in D. cbn. split; [symmetry; exact D | split; [exact C | reflexivity]].
  - destruct (ask w q) as [a|e] eqn:A; cbn [fst snd]; [|split; [reflexivity | split; [exact C | reflexivity]]].
    split; [reflexivity|]. destruct (cached s flag); [|split; [exact C | reflexivity]]. split; [|reflexivity].
    intros q' a'. cbn [s_cache]. rewrite dset_spec. destruct (eqd q' q) as [->|]; [intros [= <-]; exact A | apply C].
Qed.
(* As long as the data does not change, all statistics are the same with any cache setting, and the cache stays right. *)
Theorem C268_coherent : forall sys w g k s x emulated cache cache' g', coherent w s -> f_emulated g' = f_emulated g -> f_fallback g' = f_fallback g ->
  coherent w (fst (call sys w g k s x emulated cache))
  /\ snd (call sys w g k s x emulated cache) = snd (call sys w g' k (mkS [] false) x emulated cache').
Proof.
  intros sys w g k s x emulated cache cache' g' C EM FB.
  assert (C0 : coherent w (mkS [] false)) by (intros q a; discriminate).
  assert (X : forall {B} (f : answer -> res B) s q flag flag', coherent w s -> coherent w (fst (ret f (execute w s q flag))) /\ snd (ret f (execute w s q flag)) = snd (ret f (execute w (mkS [] false) q flag'))).
  { intros B f s1 q flag flag' C1. destruct (execute_coherent w s1 q flag C1) as (E1 & E2 & _). destruct (execute_coherent w _ q flag' C0) as (E3 & _ & _).
    unfold ret. cbn [fst snd]. split; [exact E2|]. rewrite E1, E3. reflexivity. }
  assert (H : forall c t n flag flag', coherent w (fst (calc_histogram w g s c t n flag)) /\ snd (calc_histogram w g s c t n flag) = snd (calc_histogram w g' (mkS [] false) c t n flag')).
  { intros c t n flag flag'. unfold calc_histogram, calc_total.
    destruct (execute_coherent w s (QCount (t_name t)) (caching g None) C) as (E1 & E2 & _).
    destruct (execute_coherent w _ (QCount (t_name t)) (caching g' None) C0) as (E3 & E4 & _).
    destruct (execute w s (QCount (t_name t)) (caching g None)) as [s1 r1], (execute w (mkS [] false) (QCount (t_name t)) (caching g' None)) as [s2 r2].
    cbn [fst snd] in E1, E2, E3, E4. subst r1 r2. destruct (ask w (QCount (t_name t))) as [[[|m]|a b|l]|e]; try (split; [exact E2 | reflexivity]).
    set (f := fun a => _). destruct (X _ f s1 (QFreq c (t_name t)) (caching g flag) None E2) as [A1 A2]. destruct (X _ f s2 (QFreq c (t_name t)) (caching g' flag') None E4) as [B1 B2].
    split; [exact A1|]. rewrite A2, B2. reflexivity. }
  assert (U : use_emulation g' emulated = use_emulation g emulated) by (unfold use_emulation; rewrite EM; reflexivity).
  unfold call. cbv zeta. rewrite U.
  destruct x as [t|[c [t|]]|[c [t|]]|[c [t|]] n|[c [t|]] n]; unfold on_column; cbn [c_table c_name]; try (split; [exact C | reflexivity]);
    destruct (t_virtual t); try (split; [exact C | reflexivity]); destruct (use_emulation g emulated).
  - apply X; exact C.
  - split; [exact C | reflexivity].
  - apply X; exact C.
  - unfold stats_distinct. destruct sys; [split; [exact C | reflexivity]|]. rewrite FB. destruct (f_fallback g); [apply X; exact C | split; [exact C | reflexivity]].
  - apply X; exact C.
  - unfold stats_min_max. rewrite FB. destruct (f_fallback g); [apply X; exact C | split; [exact C | reflexivity]].
  - apply X; exact C.
  - unfold stats_mcv. destruct sys; [split; [exact C | reflexivity]|]. rewrite FB. destruct (f_fallback g); [|split; [exact C | reflexivity]].
    unfold calc_mcv. set (f := fun a => _). destruct (X _ f s (QMcv c (t_name t) (limit n)) (caching g None) (caching g' None) C) as [A1 A2].
    unfold ret at 1. cbn [fst]. split; [exact A1|]. unfold ret at 1 3. cbn [snd]. rewrite A2. reflexivity.
  - destruct n as [[|n]|]; [split; [exact C | reflexivity] | apply H | split; [exact C | reflexivity]].
  - unfold stats_histogram. destruct sys; [split; [exact C | reflexivity]|]. rewrite FB. destruct (f_fallback g); [apply H | split; [exact C | reflexivity]].
Qed.
Print Assumptions C268_coherent.

(* Switched off by the caller: the cache is neither read nor written; except for histograms and for statistics the system does not have. *)
Theorem C268_off_partial : forall sys w g k s s' x, (forall c n, x <> HistogramOf c n) ->
  fst (call sys w g k s x (Some true) (Some false)) = s
  /\ snd (call sys w g k s x (Some true) (Some false)) = snd (call sys w g k s' x (Some true) (Some false)).
Proof.
  intros sys w g k s s' x N. unfold call, on_column. cbv zeta. cbn [use_emulation].
  destruct x as [t|[c [t|]]|[c [t|]]|[c [t|]] n|c n]; cbn [c_table c_name]; try (split; reflexivity); try (destruct (t_virtual t); [split; reflexivity|]);
    [| | | | exfalso; apply (N c n); reflexivity];
    unfold calc_total, calc_distinct, calc_min_max, calc_mcv; change (caching g (caching g (Some false))) with (Some false); rewrite !execute_off; split; reflexivity.
Qed.
Print Assumptions C268_off_partial.
(* The choice of the caller goes first, then that of the statistics, then that of the database. *)
Theorem C268_priority : forall w s q g flag, execute w s q (caching g flag) =
  execute w s q (Some (match flag, f_cache g with Some b, _ => b | None, Some b => b | None, None => s_enabled s end)).
Proof. intros w s q g [b|]; cbn; [reflexivity|]. destruct (f_cache g); reflexivity. Qed.
Print Assumptions C268_priority.
(* Histograms read the number of rows from the cache, and the minimum in Postgres is always read from it. *)
Definition stale : state := mkS [(QCount 5, AScalar 100); (QMinMax 1 5, ARow (Some 7%Z) (Some 9%Z))] true.
Theorem C268_off_refuted :
  (~ forall w s s' x, snd (call Postgres w (mkCfg true true (Some true)) no_cat s x (Some true) (Some false)) = snd (call Postgres w (mkCfg true true (Some true)) no_cat s' x (Some true) (Some false)))
  /\ (~ forall w s s' x, snd (call Postgres w cfg no_cat s x (Some false) (Some false)) = snd (call Postgres w cfg no_cat s' x (Some false) (Some false)))
  /\ (~ forall w s x, fst (call Postgres w cfg no_cat s x (Some false) (Some false)) = s).
Proof.
  split; [|split].
  - intros H. specialize (H (w0 [Some 1; Some 2]%Z) stale s0 (HistogramOf c5 (Some 2))). vm_compute in H. discriminate.
  - intros H. specialize (H (w0 [Some 1; Some 2]%Z) stale s0 (MinMax c5)). vm_compute in H. discriminate.
  - intros H. specialize (H (w0 [Some 1; Some 2]%Z) s0 (MinMax c5)). vm_compute in H. discriminate.
Qed.
Print Assumptions C268_off_refuted.
Example C268_ex : snd (call Postgres (w0 [Some 1; Some 2]%Z) (mkCfg true true (Some true)) no_cat stale (HistogramOf c5 (Some 2)) (Some true) (Some false)) = Raise ValueError
  /\ snd (call Postgres (w0 [Some 1; Some 2]%Z) (mkCfg true true (Some true)) no_cat stale (TotalRows t5) (Some true) (Some false)) = Ok (SNum (Some 2%Z))
  /\ snd (call Postgres (w0 [Some 1; Some 2]%Z) (mkCfg true true (Some true)) no_cat stale (TotalRows t5) None None) = Ok (SNum (Some 100%Z)).
Proof. repeat split. Qed.

(** ** C269: emulated statistics and those of the system *)
Theorem C269_sources : forall sys w g k s x emulated cache,
  call sys w g k s x None cache = call sys w g k s x (Some (f_emulated g)) cache
  /\ (forall sys' k', call sys w g k s x (Some true) cache = call sys' w g k' s x (Some true) cache)
  /\ (f_fallback g = false -> forall w' s' cache', fst (call sys w g k s x (Some false) cache) = s
        /\ snd (call sys w g k s x (Some false) cache) = snd (call sys w' g k s' x (Some false) cache'))
  /\ (f_fallback g = false -> sys = DuckDB -> (forall t, x <> TotalRows t) -> exists e, call sys w g k s x (Some false) cache = (s, Raise e))
  /\ (match target x with None => True | Some t => t_virtual t = true end -> call sys w g k s x emulated cache = (s, Raise StateError)).
Proof.
  intros sys w g k s x emulated cache. split; [reflexivity|]. split; [|split; [|split]].
  - intros sys' k'. destruct x as [t|c|c|c n|c n]; reflexivity.
  - intros FB w' s' cache'. destruct x as [t|[c [t|]]|[c [t|]]|[c [t|]] n|[c [t|]] n]; unfold call, on_column; cbv zeta; cbn [use_emulation c_table c_name]; try (split; reflexivity);
      destruct (t_virtual t); try (split; reflexivity); unfold stats_distinct, stats_min_max, stats_mcv, stats_histogram; rewrite ?FB; destruct sys; split; reflexivity.
  - intros FB -> N. destruct x as [t|[c [t|]]|[c [t|]]|[c [t|]] n|[c [t|]] n]; [exfalso; apply (N t); reflexivity|..]; unfold call, on_column; cbv zeta; cbn [use_emulation c_table c_name];
      try (eexists; reflexivity); destruct (t_virtual t); try (eexists; reflexivity); unfold stats_distinct, stats_min_max, stats_mcv, stats_histogram; rewrite FB; eexists; reflexivity.
  - intros H. destruct x as [t|[c [t|]]|[c [t|]]|[c [t|]] n|[c [t|]] n]; cbn [target c_table] in H; unfold call, on_column; cbn [c_table]; try rewrite H; reflexivity.
Qed.
Print Assumptions C269_sources.
(* With the fallback, the statistics DuckDB lacks are the emulated ones; histograms then have (at most) 100 buckets. *)
Theorem C269_fallback : forall w g k s x c, f_fallback g = true ->
  match x with NumDistinct c' | MinMax c' | MostCommon c' _ | HistogramOf c' _ => c = c' | TotalRows _ => False end ->
  call DuckDB w g k s x (Some false) None = call DuckDB w g k s (match x with HistogramOf c _ => HistogramOf c (Some 100) | _ => x end) (Some true) None.
Proof.
  intros w g k s x c FB X.
  assert (CC : forall o, caching g (caching g o) = caching g o) by (intros [o|]; [reflexivity|]; unfold caching; destruct (f_cache g); reflexivity).
  destruct x as [t|[c' [t|]]|[c' [t|]]|[c' [t|]] n|[c' [t|]] n]; try contradiction; unfold call, on_column; cbv zeta; cbn [use_emulation c_table c_name]; try reflexivity;
    destruct (t_virtual t); try reflexivity; unfold stats_distinct, stats_min_max, stats_mcv, stats_histogram; rewrite ?FB; try reflexivity;
    unfold calc_distinct, calc_min_max, calc_mcv; rewrite ?CC; try reflexivity.
  unfold ret. cbn [fst snd]. destruct (execute w s _ (caching g None)) as [s1 [[n1|a b|l]|e]]; reflexivity.
Qed.
Print Assumptions C269_fallback.
(* Emulated histograms need a number of bins. *)
Theorem C269_bins : forall sys w g k s c t cache n, c_table c = Some t -> t_virtual t = false -> n = None \/ n = Some 0 ->
  call sys w g k s (HistogramOf c n) (Some true) cache = (s, Raise ValueError).
Proof. intros sys w g k s [c tc] t cache n E V [-> | ->]; cbn [c_table] in E; subst tc; unfold call, on_column; cbn [c_table use_emulation]; rewrite V; reflexivity. Qed.
Print Assumptions C269_bins.
Example C269_fallback_ex : snd (call DuckDB (w0 [Some 1; Some 2; None]%Z) (mkCfg false true None) no_cat s0 (NumDistinct c5) None None) = Ok (SNum (Some 2%Z))
  /\ snd (call DuckDB (w0 [Some 1; Some 2; None]%Z) (mkCfg false true None) no_cat s0 (HistogramOf c5 (Some 0)) (Some true) None) = Raise ValueError.
Proof. split; reflexivity. Qed.
(* DuckDB only knows row counts, and these are the ones of the table in its own schema. *)
Theorem C269_duckdb_rows : forall w g k s t cache, t_virtual t = false ->
  call DuckDB w g k s (TotalRows t) (Some false) cache
  = (s, Ok (SNum (match t_schema t with Some sc => k_rows k sc (t_name t) | None => k_rows k public (t_name t) end))).
Proof. intros w g k s t cache V. unfold call. rewrite V. cbn. unfold schema_of. destruct (t_schema t); reflexivity. Qed.
Print Assumptions C269_duckdb_rows.
Example C269_duckdb_ex : snd (call DuckDB (w0 []) (mkCfg false false None) (mkCat (fun _ => true) (fun sc _ => Some (Z.of_nat sc)) (fun _ _ _ => None) (fun _ _ _ => []) (fun _ _ _ => Ok None)) s0
    (TotalRows (mkT 5 (Some 3) false)) None None) = Ok (SNum (Some 3%Z)).
Proof. reflexivity. Qed.
Definition cat1 : catalog := mkCat (fun _ => true) (fun _ _ => Some 40%Z) (fun _ _ _ => Some (-1 # 2)%Q) (fun _ _ _ => [(Some 8%Z, 3)]) (fun _ _ _ => Ok None).
Example C269_ex : snd (call Postgres (w0 [Some 1]%Z) (mkCfg false false None) cat1 s0 (TotalRows t5) None None) = Ok (SNum (Some 40%Z))
  /\ snd (call Postgres (w0 [Some 1]%Z) (mkCfg false false None) cat1 s0 (NumDistinct c5) None None) = Ok (SNum (Some 20%Z))
  /\ snd (call Postgres (w0 [Some 1]%Z) (mkCfg false false None) cat1 s0 (NumDistinct c5) (Some true) None) = Ok (SNum (Some 1%Z))
  /\ snd (call Postgres (w0 [Some 1]%Z) (mkCfg false false None) cat1 s0 (MinMax c5) None None) = Raise OtherError
  /\ snd (call DuckDB (w0 [Some 1]%Z) (mkCfg false false None) cat1 s0 (NumDistinct c5) None None) = Raise OtherError.
Proof. repeat split. Qed.

(** ** C270: reading the catalog of Postgres *)
(* [n_distinct] is the number of distinct values or, if negative, their share of the rows.  Tables in the public schema that have been analyzed. *)
Theorem C270_distinct_partial : forall w g k s c t cache rows d, c_table c = Some t -> t_virtual t = false -> schema_of t = public ->
  k_visible k (t_name t) = true -> k_rows k public (t_name t) = Some rows -> (0 <= rows)%Z -> k_distinct k public (t_name t) (c_name c) = Some d ->
  call Postgres w g k s (TotalRows t) (Some false) cache = (s, Ok (SNum (Some rows)))
  /\ exists n, call Postgres w g k s (NumDistinct c) (Some false) cache = (s, Ok (SNum (Some n)))
     /\ (0 <= n)%Z
     /\ let exact := if Qle_bool 0 d then d else (inject_Z rows * - d)%Q in (inject_Z n <= exact < inject_Z n + 1)%Q.
Proof.
  intros w g k s [c tc] t cache rows d E V SC VI R NN D. cbn [c_table c_name] in *. subst tc.
  assert (TR : forall q : Q, (0 <= q)%Q -> (0 <= trunc q)%Z /\ (inject_Z (trunc q) <= q < inject_Z (trunc q) + 1)%Q).
  { intros [a b] Q0. unfold trunc. cbn [Qnum Qden]. unfold Qle in Q0. cbn in Q0. rewrite Z.mul_1_r in Q0. rewrite Z.quot_div_nonneg by lia.
    split; [apply Z.div_pos; lia|]. unfold Qle, Qlt. cbn. rewrite !Z.mul_1_r. assert (M := Z.mul_div_le a (Zpos b) eq_refl). assert (M2 := Z.mul_succ_div_gt a (Zpos b) eq_refl). lia. }
  split; [unfold call; rewrite V; cbn [use_emulation]; unfold stats_rows; rewrite VI, SC, R; reflexivity|].
  unfold call, on_column. cbn [c_table c_name]. rewrite V. cbn [use_emulation]. unfold stats_distinct, pg_distinct. rewrite SC, D.
  destruct (Qle_bool 0 d) eqn:B.
  - apply Qle_bool_iff in B. destruct (TR d B) as [T1 T2]. eexists. split; [reflexivity|]. split; [exact T1 | exact T2].
  - unfold stats_rows. rewrite VI, SC, R. cbn [rbind]. change (public =? public) with true. cbv iota. cbn [rbind].
    assert (B' : (d < 0)%Q). { apply Qnot_le_lt. intros X. apply Qle_bool_iff in X. congruence. }
    assert (Q0 : (0 <= inject_Z rows * - d)%Q).
    { apply Qmult_le_0_compat; [unfold Qle; cbn; lia|]. unfold Qle, Qlt in *. cbn in *. lia. }
    assert (EQ : trunc (inject_Z (-1 * rows) * d) = trunc (inject_Z rows * - d)).
    { unfold trunc. destruct d as [a b]. cbn [Qmult Qopp inject_Z Qnum Qden]. f_equal. change (match rows with 0 => 0 | Z.pos y => Z.neg y | Z.neg y => Z.pos y end)%Z with (- rows)%Z. lia. }
    destruct (TR _ Q0) as [T1 T2]. eexists. split; [reflexivity|]. cbv zeta. rewrite EQ. split; [exact T1 | exact T2].
Qed.
Print Assumptions C270_distinct_partial.
(* A table that was never analyzed has -1 rows in the catalog, and this is returned; and columns of tables outside the search path
   are an error although the catalog has their statistics. *)
Theorem C270_catalog_refuted :
  (~ forall k t n, snd (call Postgres (w0 []) cfg k s0 (TotalRows t) (Some false) None) = Ok (SNum (Some n)) -> (0 <= n)%Z)
  /\ (~ forall k c t rows d, c_table c = Some t -> t_virtual t = false -> k_rows k (schema_of t) (t_name t) = Some rows -> k_distinct k (schema_of t) (t_name t) (c_name c) = Some d ->
        exists v, snd (call Postgres (w0 []) cfg k s0 (NumDistinct c) (Some false) None) = Ok v)
  /\ snd (call Postgres (w0 []) cfg cat1 s0 (NumDistinct (mkC 1 (Some (mkT 5 (Some 3) false)))) (Some false) None) = Raise AssertionError.
Proof.
  split; [|split].
  - intros H. specialize (H (mkCat (fun _ => true) (fun _ _ => Some (-1)%Z) (fun _ _ _ => None) (fun _ _ _ => []) (fun _ _ _ => Ok None)) t5 (-1)%Z eq_refl). lia.
  - intros H. destruct (H cat1 (mkC 1 (Some (mkT 5 (Some 3) false))) (mkT 5 (Some 3) false) 40%Z (-1 # 2)%Q eq_refl eq_refl eq_refl eq_refl) as [v E]. vm_compute in E. discriminate.
  - reflexivity.
Qed.
Print Assumptions C270_catalog_refuted.
(* The most common values of the catalog, cut to the requested number; provided that no value is as frequent as NULL. *)
Theorem C270_mcv_partial : forall w g k s c t n cache, c_table c = Some t -> t_virtual t = false ->
  let all := k_mcv k (match t_schema t with Some sc => sc | None => public end) (t_name t) (c_name c) in
  let cut := match n with Some n => if (0 <? n)%Z then firstn (Z.to_nat n) all else all | None => all end in
  (forall f x, In (None, f) cut -> ~ In (Some x, f) cut) ->
  exists m, call Postgres w g k s (MostCommon c n) (Some false) cache = (s, Ok (SMcv m)) /\ Permutation m cut /\ descending m.
Proof.
  intros w g k s [c tc] t n cache E V all cut H. cbn [c_table c_name] in *. subst tc.
  exists (sort mcv_desc cut). split; [|split; [apply sort_perm | apply mcv_desc_desc]].
  assert (T : null_tie cut = false).
  { destruct (null_tie cut) eqn:T; [|reflexivity]. apply null_tie_spec in T as (f & x & A & B). exfalso. exact (H f x A B). }
  unfold call, on_column. cbv zeta. cbn [c_table c_name use_emulation]. rewrite V. unfold stats_mcv, ret. cbn [fst snd rbind].
  assert (L : (match limit n with None => all | Some n => firstn n all end) = cut).
  { unfold cut, limit. destruct n as [n|]; [|reflexivity]. destruct (Z.leb_spec n 0); destruct (Z.ltb_spec 0 n); try lia; reflexivity. }
  unfold schema_of. fold all. rewrite L. unfold common_values. rewrite T. reflexivity.
Qed.
Print Assumptions C270_mcv_partial.
Example C270_mcv_ex : snd (call Postgres (w0 []) cfg (mkCat (fun _ => true) (fun _ _ => None) (fun _ _ _ => None) (fun sc _ _ => [(Some 8%Z, sc); (Some 9%Z, 7); (None, 2)]) (fun _ _ _ => Ok None)) s0
    (MostCommon (mkC 1 (Some (mkT 5 (Some 3) false))) (Some 2%Z)) (Some false) None) = Ok (SMcv [(Some 9%Z, 7); (Some 8%Z, 3)]).
Proof. reflexivity. Qed.
