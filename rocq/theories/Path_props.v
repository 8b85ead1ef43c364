(* C35: path pruning; C78: sort keys. *)
From Coq Require Import List QArith ZArith Sorted Bool Arith Lia Lqa.
From Verif Require Import PyBase Path_model Path_spec Path_proofs.
Import ListNotations.

Definition key (c : nat) : skey := mkKey [MCol c] true.
Definition cls (cs : list nat) : skey := mkKey (map MCol cs) true.

(* Everything that is retained was offered, and the two lists do not mix. *)
Theorem C35_kept_were_offered : forall es r b q,
  run empty_rel es = Ok r -> In q (kept b r) -> In q (offered b es).
Proof.
  intros es r b q Hrun Hq. destruct (run_kept b es empty_rel r q Hrun Hq) as [H|H]; [|exact H].
  destruct b; destruct H.
Qed.
Print Assumptions C35_kept_were_offered.

(* An addition that evicts or turns down a path is justified by the sort order
   of the new path: it satisfies the promises of the path it is compared with. *)
Theorem C35_subsumption_is_sound : forall s o rows,
  sorting_subsumes s o = true ->
  (forall r k, In r rows -> In k (s ++ o) -> class_holds k r) ->
  ordered s rows -> ordered o rows.
Proof.
  intros s o rows H Hc. apply sorting_subsumes_true in H. destruct H as [H1 H2].
  apply ordered_mono. intros r t Hr Ht.
  apply subsumes_loop_lexle; try assumption; intros k Hk; apply Hc; try assumption;
    apply in_or_app; auto.
Qed.
Print Assumptions C35_subsumption_is_sound.

Example C35_subsumption_ex :
  sorting_subsumes [cls [1; 2]; key 5]%nat [cls [2; 3]%nat] = true
  /\ sorting_subsumes [key 1] [key 1; key 2]%nat = false
  /\ sorting_subsumes [] [key 1%nat] = false.
Proof. repeat split. Qed.

(* ---- costs: a bound that grows with the number of additions ---- *)

Theorem C35_cost_any_history_partial : forall es r b,
  run empty_rel es = Ok r -> Forall proper (offered b es) ->
  forall p, In p (offered b es) ->
  exists q, In q (kept b r) /\ (p_cost q <= qpow fuzz (List.length es) * p_cost p)%Q.
Proof.
  intros es r b Hrun Ho p Hp.
  destruct (run_cover_empty (fun x => proper x) (fun n q p => 0 <= p_cost p /\ p_cost q <= qpow fuzz n * p_cost p)%Q) with (b := b) (es := es) (r' := r) (p := p)
    as [q [Hq [_ HR]]]; try assumption.
  - intros n q p' [H0 H]. split; [exact H0|]. cbn [qpow].
    assert (H' := qpow_pos fuzz n eq_refl). set (f := qpow fuzz n) in *. unfold fuzz.
    assert (0 <= f * p_cost p')%Q by (apply Qmult_le_0_compat; lra). lra.
  - intros n cur new Hc [_ Hn]. rewrite Forall_forall in Hc.
    destruct (add_list_new cur new) as [H|[x [H1 [H2 H3]]]].
    + exists new. split; [exact H|]. split; [exact Hn|].
      assert (1 <= qpow fuzz (S n))%Q.
      { clear. induction (S n) as [|m IH]; cbn [qpow]; [lra|].  unfold fuzz in *. set (f := qpow (101 # 100) m) in *. lra. }
      set (f := qpow fuzz (S n)) in *. nra.
    + exists x. split; [exact H1|]. split; [exact Hn|].
      assert (Hb := beats_cost x new (proj2 (Hc x H2)) H3).
      assert (1 <= qpow fuzz (S n))%Q.
      { clear. induction (S n) as [|m IH]; cbn [qpow]; [lra|].  unfold fuzz in *. set (f := qpow (101 # 100) m) in *. lra. }
      set (f := qpow fuzz (S n)) in *. nra.
  - intros n cur new q p' Hc [_ Hn] Hq [H0 HR]. rewrite Forall_forall in Hc.
    assert (Hq0 := proj2 (Hc q Hq)). cbn [qpow].
    assert (Hf := qpow_pos fuzz n eq_refl).
    assert (Hp0 : (0 <= qpow fuzz n * p_cost p')%Q) by (apply Qmult_le_0_compat; lra).
    setoid_rewrite <- Qmult_assoc. set (X := (qpow fuzz n * p_cost p')%Q) in *. unfold fuzz in *.
    destruct (add_list_old cur new q Hq) as [H|H].
    + exists q. split; [exact H|]. split; [exact H0|]. lra.
    + apply evicts_cost in H; [|exact Hq0]. unfold fuzz in H.
      destruct (add_list_new cur new) as [H'|[x [H1 [H2 H3]]]].
      * exists new. split; [exact H'|]. split; [exact H0|]. lra.
      * exists x. split; [exact H1|]. split; [exact H0|].
        assert (Hb := beats_cost x new (proj2 (Hc x H2)) H3). lra.
  - exists q. now split.
Qed.
Print Assumptions C35_cost_any_history_partial.

(* ---- costs: one fuzz factor is enough if paths have at most one sort key ---- *)

Definition single (p : path) : Prop := proper p /\ (List.length (p_sort p) <= 1)%nat.

Definition R1 (_ : nat) (q p : path) : Prop :=
  (0 <= p_cost p)%Q /\ (p_cost q <= qpow fuzz (List.length (p_sort q)) * p_cost p)%Q.

Lemma len01 (p : path) : (List.length (p_sort p) <= 1)%nat -> List.length (p_sort p) = 0%nat \/ List.length (p_sort p) = 1%nat.
Proof. lia. Qed.

Lemma evicts_single new old :
  single new -> single old -> evicts new old ->
  (List.length (p_sort new) = List.length (p_sort old) /\ p_cost new < p_cost old)%Q
  \/ (List.length (p_sort new) = 1%nat /\ List.length (p_sort old) = 0%nat /\ p_cost new <= fuzz * p_cost old)%Q.
Proof.
  intros [_ Sn] [_ So] [H1 H2]. unfold new_dominates in H2.
  destruct (same_sorting (p_sort new) (p_sort old)) eqn:E.
  - left. apply same_sorting_true in E. split; [apply E|].
    apply negb_true_iff in H2. now apply Qle_bool_false in H2.
  - right. apply sub_len in H1. destruct H1 as [H1|H1]; [congruence|].
    repeat split; try lia. now apply Qle_bool_iff in H2.
Qed.

Lemma beats_single b new :
  single new -> single b -> beats b new ->
  (List.length (p_sort new) = List.length (p_sort b) /\ p_cost b <= p_cost new)%Q
  \/ (List.length (p_sort new) = 1%nat /\ List.length (p_sort b) = 0%nat /\ fuzz * p_cost b < p_cost new)%Q.
Proof.
  intros [_ Sn] [_ So] [H1 H2]. unfold new_dominates in H2.
  destruct (same_sorting (p_sort new) (p_sort b)) eqn:E.
  - left. apply same_sorting_true in E. split; [apply E|].
    apply negb_false_iff in H2. now apply Qle_bool_iff in H2.
  - right. apply sub_len in H1. destruct H1 as [H1|H1]; [congruence|].
    repeat split; try lia. now apply Qle_bool_false in H2.
Qed.

Theorem C35_cost_single_key_partial : forall es r b,
  run empty_rel es = Ok r -> Forall single (offered b es) ->
  forall p, In p (offered b es) ->
  exists q, In q (kept b r)
    /\ (p_cost q <= (if p_sort q then 1 else fuzz) * p_cost p)%Q.
Proof.
  intros es r b Hrun Ho p Hp.
  destruct (run_cover_empty single R1) with (b := b) (es := es) (r' := r) (p := p)
    as [q [Hq [_ HR]]]; try assumption.
  - intros n q p' H. exact H.
  - intros n cur new Hc Hn. rewrite Forall_forall in Hc.
    assert (N0 : (0 <= p_cost new)%Q) by apply Hn.
    destruct (add_list_new cur new) as [H|[x [H1 [H2 H3]]]].
    + exists new. split; [exact H|]. split; [exact N0|].
      destruct (len01 new (proj2 Hn)) as [L|L]; rewrite L; cbn [qpow]; unfold fuzz; lra.
    + exists x. split; [exact H1|]. split; [exact N0|].
      destruct (beats_single x new Hn (Hc x H2) H3) as [[L H]|[L1 [L2 H]]].
      * destruct (len01 x (proj2 (Hc x H2))) as [L'|L']; rewrite L'; cbn [qpow]; unfold fuzz; lra.
      * assert (X0 : (0 <= p_cost x)%Q) by (apply (Hc x H2)).
        rewrite L2. cbn [qpow]. unfold fuzz in *. lra.
  - intros n cur new q p' Hc Hn Hq [H0 HR]. rewrite Forall_forall in Hc.
    destruct (add_list_old cur new q Hq) as [H|H].
    + exists q. now split.
    + apply evicts_single in H; [|exact Hn|now apply Hc].
      assert (Q0 : (0 <= p_cost q)%Q) by (apply (Hc q Hq)).
      assert (HN : (p_cost new <= qpow fuzz (List.length (p_sort new)) * p_cost p')%Q).
      { destruct H as [[L H]|[L1 [L2 H]]].
        - rewrite L. lra.
        - rewrite L2 in HR. rewrite L1. cbn [qpow] in *. unfold fuzz in *. lra. }
      destruct (add_list_new cur new) as [H'|[x [H1 [H2 H3]]]].
      * exists new. split; [exact H'|]. now split.
      * exists x. split; [exact H1|]. split; [exact H0|].
        assert (X0 : (0 <= p_cost x)%Q) by (apply (Hc x H2)).
        destruct (beats_single x new Hn (Hc x H2) H3) as [[L Hb]|[L1 [L2 Hb]]].
        -- rewrite <- L. lra.
        -- rewrite L1 in HN. rewrite L2. cbn [qpow] in *. unfold fuzz in *. lra.
  - exists q. split; [exact Hq|].
    assert (Sq : single q).
    { rewrite Forall_forall in Ho. apply Ho. now apply (C35_kept_were_offered es r b q). }
    destruct (p_sort q) as [|k [|k' l]] eqn:E.
    + cbn in HR. exact HR.
    + cbn [List.length qpow] in HR. rewrite Qmult_1_r in HR. exact HR.
    + destruct Sq as [_ Sq]. rewrite E in Sq. cbn in Sq. lia.
Qed.
Print Assumptions C35_cost_single_key_partial.

(* ---- nothing is lost as long as no two sort orders are strictly comparable ---- *)

Definition unrelated (ps : list path) : Prop :=
  forall p q, In p ps -> In q ps ->
  sorting_subsumes (p_sort p) (p_sort q) = true -> same_sorting (p_sort p) (p_sort q) = true.

Theorem C35_unrelated_orders_covered_partial : forall es r b,
  run empty_rel es = Ok r -> unrelated (offered b es) -> covered 1 (offered b es) (kept b r).
Proof.
  intros es r b Hrun Hu p Hp. set (ps := offered b es) in *.
  destruct (run_cover_empty (fun x => In x ps) (fun _ q p => p_cost q <= p_cost p /\ as_sorted ps q p)%Q)
    with (b := b) (es := es) (r' := r) (p := p) as [q [Hq [H1 H2]]]; try assumption.
  - intros _ q p' H. exact H.
  - intros _ cur new Hc Hn. rewrite Forall_forall in Hc.
    destruct (add_list_new cur new) as [H|[x [H1 [H2 [H3 H4]]]]].
    + exists new. split; [exact H|]. split; [lra|]. apply as_sorted_refl.
    + exists x. split; [exact H1|]. unfold new_dominates in H4.
      specialize (Hc x H2). rewrite (Hu new x Hn Hc H3) in H4.
      apply negb_false_iff in H4. apply Qle_bool_iff in H4. split; [exact H4|].
      apply (as_sorted_same ps new x Hn Hc). now apply Hu.
  - intros _ cur new q p' Hc Hn Hq [HR1 HR2]. rewrite Forall_forall in Hc.
    destruct (add_list_old cur new q Hq) as [H|[H H']].
    + exists q. now repeat split.
    + unfold new_dominates in H'. rewrite (Hu new q Hn (Hc q Hq) H) in H'.
      apply negb_true_iff in H'. apply Qle_bool_false in H'.
      assert (HA : as_sorted ps new p').
      { apply (as_sorted_trans ps new q p'); [|exact HR2]. apply as_sorted_subsumes; auto. }
      destruct (add_list_new cur new) as [HN|[x [H1 [H2 [H3 H4]]]]].
      * exists new. split; [exact HN|]. split; [lra|exact HA].
      * exists x. split; [exact H1|]. unfold new_dominates in H4.
        specialize (Hc x H2). assert (Hs := Hu new x Hn Hc H3). rewrite Hs in H4.
        apply negb_false_iff in H4. apply Qle_bool_iff in H4. split; [lra|].
        apply (as_sorted_trans ps x new p'); [|exact HA].
        now apply (as_sorted_same ps new x Hn Hc).
  - rewrite Forall_forall. intros x Hx. exact Hx.
  - exists q. split; [exact Hq|]. split; [lra|exact H2].
Qed.
Print Assumptions C35_unrelated_orders_covered_partial.

Definition ex_a : path := mkPath 1 12 [cls [1; 2]%nat].
Definition ex_b : path := mkPath 2 10 [cls [2; 3]%nat].
Definition ex_c : path := mkPath 3 4 [key 7].
Example C35_unrelated_ex :
  let es := [EAdd ex_a false; EAdd ex_c false; EAdd ex_b false; ECheapest; EAdd ex_a false] in
  unrelated (offered false es)
  /\ run empty_rel es = Ok (mkRel [ex_c; ex_b] [] (Some ex_c) None)
  /\ ~ unrelated [ex_a; mkPath 4 3 []].
Proof.
  cbn [offered flat_map app Bool.eqb]. split; [|split; [reflexivity|]].
  - intros p q Hp Hq. repeat (destruct Hp as [<-|Hp]; [repeat (destruct Hq as [<-|Hq]; [vm_compute; congruence|]); destruct Hq|]).
    destruct Hp.
  - intros H. specialize (H ex_a (mkPath 4 3 []) (or_introl eq_refl) (or_intror (or_introl eq_refl)) eq_refl). discriminate.
Qed.

(* ---- the cheapest path ---- *)

Theorem C35_cheapest_is_minimal : forall r r',
  set_cheapest r = Ok r' ->
  (exists c, r_cheapest r' = Some c /\ In c (r_paths r) /\ forall q, In q (r_paths r) -> (p_cost c <= p_cost q)%Q)
  /\ (r_partial r <> [] ->
      exists c, r_cheapest_partial r' = Some c /\ In c (r_partial r) /\ forall q, In q (r_partial r) -> (p_cost c <= p_cost q)%Q).
Proof.
  intros r r'. unfold set_cheapest.
  assert (HM : forall l p ps, sort_cost l = p :: ps -> In p l /\ forall q, In q l -> (p_cost p <= p_cost q)%Q).
  { intros l p ps E. split.
    - apply sort_cost_In. rewrite E. now left.
    - intros q Hq. apply sort_cost_In in Hq. assert (Hs := sort_cost_sorted l). rewrite E in Hq, Hs.
      apply StronglySorted_inv in Hs. destruct Hs as [_ Hf]. rewrite Forall_forall in Hf.
      destruct Hq as [<-|Hq]; [lra|now apply Hf]. }
  destruct (sort_cost (r_paths r)) as [|p ps] eqn:E1; [discriminate|].
  destruct (sort_cost (r_partial r)) as [|q qs] eqn:E2; intros H; injection H as <-; cbn [r_cheapest r_cheapest_partial].
  - split; [exists p; split; [reflexivity|]; now apply (HM _ _ ps)|].
    intros Hne. destruct (r_partial r) as [|x l] eqn:E; [congruence|]. exfalso.
    assert (Hx : In x (sort_cost (x :: l))) by (apply sort_cost_In; now left). rewrite E2 in Hx. destruct Hx.
  - split; [exists p; split; [reflexivity|]; now apply (HM _ _ ps)|].
    intros _. exists q. split; [reflexivity|]. now apply (HM _ _ qs).
Qed.
Print Assumptions C35_cheapest_is_minimal.

Lemma run_app r es es' : run r (es ++ es') = rbind (run r es) (fun r' => run r' es').
Proof.
  revert r. induction es as [|e es IH]; intros r; [reflexivity|]. cbn [app run].
  destruct (step r e) as [r1|]; cbn [rbind]; [apply IH|reflexivity].
Qed.

(* With single sort keys the selected path is at most 1% more expensive than
   the cheapest path that was ever offered. *)
Theorem C35_cheapest_overall_partial : forall es r,
  run empty_rel (es ++ [ECheapest]) = Ok r -> Forall single (offered false es) ->
  exists c, r_cheapest r = Some c
    /\ forall p, In p (offered false es) -> (p_cost c <= fuzz * p_cost p)%Q.
Proof.
  intros es r Hrun Ho. rewrite run_app in Hrun.
  destruct (run empty_rel es) as [r1|] eqn:E; [|discriminate]. cbn [rbind run step] in Hrun.
  destruct (set_cheapest r1) as [r2|] eqn:E2; [|discriminate]. cbn [rbind] in Hrun. injection Hrun as <-.
  destruct (C35_cheapest_is_minimal r1 r2 E2) as [[c [Hc [_ Hmin]]] _].
  exists c. split; [exact Hc|]. intros p Hp.
  destruct (C35_cost_single_key_partial es r1 false E Ho p Hp) as [q [Hq Hcost]].
  specialize (Hmin q Hq).
  assert (P0 : (0 <= p_cost p)%Q). { rewrite Forall_forall in Ho. apply (Ho p Hp). }
  destruct (p_sort q); unfold fuzz in *; lra.
Qed.
Print Assumptions C35_cheapest_overall_partial.

Example C35_cheapest_ex :
  run empty_rel [EAdd ex_a false; EAdd ex_c false; EAdd (mkPath 9 1 []) true; ECheapest]
  = Ok (mkRel [ex_c; ex_a] [mkPath 9 1 []] (Some ex_c) (Some (mkPath 9 1 []))).
Proof. reflexivity. Qed.

(* ---- refutations ---- *)

(* A sorted path is thrown away in favour of a cheaper, unsorted one. *)
Definition rowA (v : Z) : row := fun m => match m with MCol 1 => v | _ => 0%Z end.

Lemma ordered_2_1 : ordered [] [rowA 2; rowA 1].
Proof. repeat constructor. Qed.

Lemma not_ordered_2_1 l : ~ ordered (key 1 :: l) [rowA 2; rowA 1].
Proof.
  intros H. apply StronglySorted_inv in H. destruct H as [_ H]. apply Forall_inv in H.
  cbn [lexle key] in H. destruct H as [H|[H _]].
  - specialize (H (MCol 1) (or_introl eq_refl)). cbn in H. lia.
  - specialize (H (MCol 1) (or_introl eq_refl)). cbn in H. lia.
Qed.

Lemma singletons_legal ps r : (forall p k, In p ps -> In k (p_sort p) -> exists c, k = key c) -> legal ps r.
Proof.
  intros H p k Hp Hk. destruct (H p k Hp Hk) as [c ->]. intros m m' [<-|[]] [<-|[]]. reflexivity.
Qed.

Definition un (c : Q) : path := mkPath 0 c [].
Definition so (c : Q) : path := mkPath 1 c [key 1].
Definition so2 (c : Q) : path := mkPath 2 c [key 1; key 2].

Theorem C35_sorted_path_discarded_refuted :
  ~ (forall es r b, run empty_rel es = Ok r -> Forall proper (offered b es) ->
     covered fuzz (offered b es) (kept b r)).
Proof.
  intros H. set (es := [EAdd (un 10) false; EAdd (so 20) false]).
  destruct (H es (mkRel [un 10] [] None None) false eq_refl) with (p := so 20) as [q [Hq [_ Hs]]].
  - repeat constructor; try discriminate.
  - right. now left.
  - destruct Hq as [<-|[]].
    apply (not_ordered_2_1 []). apply Hs; [|exact ordered_2_1].
    apply Forall_forall. intros r _. apply singletons_legal.
    intros p k [<-|[<-|[]]] Hk; cbn in Hk; [destruct Hk|]. destruct Hk as [<-|[]]. now exists 1%nat.
Qed.
Print Assumptions C35_sorted_path_discarded_refuted.

(* The new path evicts an old one and is turned down afterwards: both are lost,
   and with them the only paths sorted by the column. *)
Theorem C35_evictor_discarded_refuted :
  exists es r p, run empty_rel es = Ok r /\ In p (kept false r)
  /\ p_sort p = [key 1]
  /\ exists new, kept false (add_path r new false) = [un 5]
     /\ ~ exists q, In q (kept false (add_path r new false)) /\ as_sorted [p; new; un 5] q p.
Proof.
  exists [EAdd (so 11) false; EAdd (un 5) false], (mkRel [so 11; un 5] [] None None), (so 11).
  repeat split.
  - now left.
  - exists (so2 10). split; [reflexivity|].
    intros [q [Hq Hs]]. vm_compute in Hq. destruct Hq as [<-|[]].
    apply (not_ordered_2_1 []). apply Hs; [|exact ordered_2_1].
    apply Forall_forall. intros r _. apply singletons_legal.
    intros p k [<-|[<-|[<-|[]]]] Hk; cbn in Hk.
    + destruct Hk as [<-|[]]. now exists 1%nat.
    + destruct Hk as [<-|[<-|[]]]; [now exists 1%nat|now exists 2%nat].
    + destruct Hk.
Qed.
Print Assumptions C35_evictor_discarded_refuted.

(* One round of additions that leaves a single unsorted path which is half a
   percent more expensive than the one before. *)
Definition round (c : Q) : list event :=
  [EAdd (so ((101 # 100) * c)) false; EAdd (un ((201 # 200) * c)) false; EAdd (so2 ((10201 # 10000) * c)) false].

Fixpoint rounds (n : nat) (c : Q) : list event :=
  match n with O => [] | S n' => round c ++ rounds n' ((201 # 200) * c) end.

Fixpoint cost_after (n : nat) (c : Q) : Q :=
  match n with O => c | S n' => cost_after n' ((201 # 200) * c) end.

Lemma round_run c : (0 < c)%Q ->
  run (mkRel [un c] [] None None) (round c) = Ok (mkRel [un ((201 # 200) * c)] [] None None).
Proof.
  intros Hc. cbn [run round step rbind]. unfold add_path. cbn [r_paths r_partial r_cheapest r_cheapest_partial].
  do 2 f_equal.
  assert (E1 : add_list [un c] (so ((101 # 100) * c)) = [so ((101 # 100) * c)]).
  { cbn [add_list add_loop un so p_sort sorting_subsumes negb].
    unfold new_dominates. cbn [un so p_sort same_sorting List.length Nat.eqb negb p_cost].
    assert (E : Qle_bool ((101 # 100) * c) ((101 # 100) * c) = true) by (apply Qle_bool_iff; lra).
    now rewrite E. }
  rewrite E1.
  assert (E2 : add_list [so ((101 # 100) * c)] (un ((201 # 200) * c)) = [so ((101 # 100) * c); un ((201 # 200) * c)]) by reflexivity.
  rewrite E2. cbn [add_list add_loop].
  change (sorting_subsumes (p_sort (so2 ((10201 # 10000) * c))) (p_sort (so ((101 # 100) * c)))) with true.
  change (sorting_subsumes (p_sort (so2 ((10201 # 10000) * c))) (p_sort (un ((201 # 200) * c)))) with true.
  cbn [negb]. unfold new_dominates.
  change (same_sorting (p_sort (so2 ((10201 # 10000) * c))) (p_sort (so ((101 # 100) * c)))) with false.
  change (same_sorting (p_sort (so2 ((10201 # 10000) * c))) (p_sort (un ((201 # 200) * c)))) with false.
  cbn [so so2 un p_cost].
  assert (E3 : Qle_bool ((10201 # 10000) * c) ((101 # 100) * ((101 # 100) * c)) = true) by (apply Qle_bool_iff; lra).
  rewrite E3.
  assert (E4 : Qle_bool ((10201 # 10000) * c) ((101 # 100) * ((201 # 200) * c)) = false).
  { apply not_true_iff_false. intros H. apply Qle_bool_iff in H. lra. }
  now rewrite E4.
Qed.

Lemma rounds_run n : forall c, (0 < c)%Q ->
  run (mkRel [un c] [] None None) (rounds n c) = Ok (mkRel [un (cost_after n c)] [] None None).
Proof.
  induction n as [|n IH]; intros c Hc; [reflexivity|]. cbn [rounds cost_after].
  rewrite run_app, round_run by exact Hc. cbn [rbind]. apply IH. lra.
Qed.

Lemma cost_after_grows n : forall c, (0 < c)%Q -> (c * (1 + (Z.of_nat n # 200)) <= cost_after n c)%Q.
Proof.
  induction n as [|n IH]; intros c Hc; cbn [cost_after].
  - change (Z.of_nat 0 # 200) with (0 # 200)%Q. assert ((0 # 200) == 0)%Q as -> by reflexivity. lra.
  - assert (H := IH ((201 # 200) * c)%Q ltac:(lra)).
    assert (E : (Z.of_nat (S n) # 200 == (Z.of_nat n # 200) + (1 # 200))%Q).
    { rewrite Nat2Z.inj_succ. unfold Qeq, Qplus. cbn [Qnum Qden]. rewrite Pos2Z.inj_mul. lia. }
    rewrite E.
    assert (N0 : (0 <= Z.of_nat n # 200)%Q) by (unfold Qle; cbn; lia).
    set (x := (Z.of_nat n # 200)%Q) in *. nra.
Qed.

(* No fixed factor bounds the cost that is lost: for each factor there is a
   history (using two sort columns only) after which every retained path
   costs more than that factor times a path that was offered. *)
Theorem C35_cost_loss_unbounded_refuted : forall B : Q,
  exists es r p, run empty_rel es = Ok r /\ Forall proper (offered false es)
  /\ In p (offered false es)
  /\ forall q, In q (kept false r) -> (B * p_cost p < p_cost q)%Q.
Proof.
  intros B.
  set (n := Z.to_nat (200 * (Z.abs (Qnum B)))).
  exists (EAdd (un 1) false :: rounds n 1), (mkRel [un (cost_after n 1)] [] None None), (un 1).
  split; [|split; [|split]].
  - cbn [run step rbind]. apply (rounds_run n 1). lra.
  - rewrite offered_cons. cbn [Bool.eqb app]. constructor; [split; [constructor|cbn; lra]|].
    assert (HP : forall m c, (0 < c)%Q -> Forall proper (offered false (rounds m c))).
    { clear. induction m as [|m IH]; intros c Hc; [constructor|]. cbn [rounds].
      unfold round. cbn [app]. rewrite !offered_cons. cbn [Bool.eqb app].
      repeat (constructor; [split; [repeat constructor; try discriminate|cbn [p_cost un so so2]; lra]|]).
      apply IH. lra. }
    apply HP. lra.
  - now left.
  - intros q [<-|[]]. cbn [un p_cost].
    assert (H := cost_after_grows n 1 ltac:(lra)).
    assert (HB : (B <= inject_Z (Z.abs (Qnum B)))%Q).
    { destruct B as [a b]. unfold Qle, inject_Z. cbn [Qnum Qden]. nia. }
    assert (Hn : (Z.of_nat n # 200 == inject_Z (Z.abs (Qnum B)))%Q).
    { unfold n. rewrite Z2Nat.id by lia. unfold Qeq, inject_Z. cbn [Qnum Qden]. lia. }
    rewrite Hn in H. lra.
Qed.
Print Assumptions C35_cost_loss_unbounded_refuted.

(* ---- C78: sort keys ---- *)

Definition made (k : skey) : Prop := exists ms asc, sk_for_class ms asc = Ok k.

Lemma made_members k : made k -> k_members k <> [] /\ forall m, In m (k_members k) -> exists m', m = wrap m'.
Proof.
  intros [ms [asc H]]. unfold sk_for_class, sk_init in H.
  destruct (dedup (map wrap ms)) as [|m0 l] eqn:E; [discriminate|]. injection H as <-. cbn [k_members].
  split; [discriminate|]. intros m Hm. rewrite <- E in Hm. rewrite dedup_In in Hm.
  apply in_map_iff in Hm. destruct Hm as [m' [<- _]]. now exists m'.
Qed.

(* Asking a sort key for a column never succeeds, not even for the column the
   key was made for. *)
Theorem C78_column_never_found_refuted : forall k c,
  made k -> compatible_col k c = false /\ sk_contains k (inr (MRef c)) = false.
Proof.
  intros k c Hk. assert (H : compatible_col k c = false); [|now split].
  unfold compatible_col. apply mem_nIn. intros Hin.
  destruct (proj2 (made_members k Hk) _ Hin) as [[]]; discriminate.
Qed.
Print Assumptions C78_column_never_found_refuted.

Example C78_column_never_found_ex :
  sk_of (MRef 3) true = Ok (key 3) /\ compatible_col (key 3) 3 = false.
Proof. now split. Qed.

(* Hence no path that is sorted by a column is recognised as such. *)
Theorem C78_sorted_path_not_recognised_refuted :
  (forall p c, Forall made (p_sort p) -> is_sorted_by p c = false)
  /\ exists p, Forall made (p_sort p)
     /\ (forall rows, ordered (p_sort p) rows -> ordered [key 3] rows) /\ is_sorted_by p 3 = false.
Proof.
  split.
  - intros p c H. unfold is_sorted_by. destruct (p_sort p) as [|k l]; [reflexivity|].
    apply C78_column_never_found_refuted. now inversion H.
  - exists (mkPath 0 1 [key 3]). split; [|split; [intros rows H; exact H|reflexivity]].
    constructor; [|constructor]. exists [MRef 3], true. reflexivity.
Qed.
Print Assumptions C78_sorted_path_not_recognised_refuted.

(* Compatible keys order the same rows in the same way. *)
Theorem C78_compatible_keys_order_alike_partial : forall k o rows,
  compatible k o = true -> (forall r, In r rows -> class_holds k r /\ class_holds o r) ->
  (ordered [k] rows <-> ordered [o] rows).
Proof.
  intros k o rows H Hc.
  assert (E : forall r t, In r rows -> In t rows -> (lexle [k] r t <-> lexle [o] r t)).
  { intros r t Hr Ht. cbn [lexle]. destruct (Hc r Hr), (Hc t Ht).
    destruct (compatible_before k o r t H); tauto. }
  split; apply ordered_mono; intros r t Hr Ht; now apply E.
Qed.
Print Assumptions C78_compatible_keys_order_alike_partial.

(* It is reflexive and symmetric. *)
Theorem C78_compatible_reflexive_symmetric : forall k o,
  (k_members k <> [] -> compatible k k = true) /\ compatible k o = compatible o k.
Proof.
  intros k o. split.
  - intros H. apply compatible_true. split; [reflexivity|].
    destruct (k_members k) as [|m l] eqn:E; [congruence|]. exists m. now split; left.
  - apply Bool.eq_iff_eq_true. rewrite !compatible_true.
    split; intros [H1 [m [H2 H3]]]; (split; [congruence|exists m; now split]).
Qed.
Print Assumptions C78_compatible_reflexive_symmetric.

(* It is not transitive. *)
Theorem C78_compatible_not_transitive_refuted :
  exists a b c, made a /\ made b /\ made c
  /\ compatible a b = true /\ compatible b c = true /\ compatible a c = false.
Proof.
  exists (cls [1]%nat), (cls [1; 2]%nat), (cls [2]%nat).
  repeat split; try reflexivity.
  - now exists [MRef 1], true.
  - now exists [MRef 1; MRef 2], true.
  - now exists [MRef 2], true.
Qed.
Print Assumptions C78_compatible_not_transitive_refuted.

(* Merging two keys of the same direction gives the union of the classes;
   a different direction is refused, and the merged key is compatible with
   everything one of the keys was compatible with. *)
Theorem C78_merge : forall k o,
  (k_asc k = k_asc o -> k_members k <> [] ->
   exists m, sk_merge k o = Ok m /\ k_asc m = k_asc k
     /\ (forall x, In x (k_members m) <-> In x (k_members k) \/ In x (k_members o))
     /\ (forall x, compatible m x = (compatible k x || compatible o x)%bool))
  /\ (k_asc k <> k_asc o -> sk_merge k o = Raise ValueError).
Proof.
  intros k o. split.
  - intros Ha Hne. unfold sk_merge. rewrite Ha, Bool.eqb_reflx. cbn [negb]. unfold sk_init.
    assert (HI : forall x, In x (dedup (k_members k ++ k_members o)) <-> In x (k_members k) \/ In x (k_members o)).
    { intros x. rewrite dedup_In. apply in_app_iff. }
    destruct (dedup (k_members k ++ k_members o)) as [|m0 l] eqn:E.
    { destruct (k_members k) as [|m ms] eqn:Ek; [congruence|]. exfalso. apply (HI m). left. now left. }
    exists (mkKey (m0 :: l) (k_asc o)). split; [reflexivity|]. split; [reflexivity|].
    cbn [k_members]. split; [exact HI|]. intros x. apply Bool.eq_iff_eq_true.
    rewrite orb_true_iff, !compatible_true. cbn [k_asc k_members]. rewrite Ha.
    split.
    + intros [H1 [m [H2 H3]]]. apply HI in H2. destruct H2 as [H2|H2]; [left|right]; (split; [exact H1|now exists m]).
    + intros [[H1 [m [H2 H3]]]|[H1 [m [H2 H3]]]]; (split; [exact H1|exists m; split; [apply HI; auto|exact H3]]).
  - intros Hne. unfold sk_merge. destruct (Bool.eqb (k_asc k) (k_asc o)) eqn:E; [|reflexivity].
    apply Bool.eqb_prop in E. congruence.
Qed.
Print Assumptions C78_merge.

Example C78_merge_ex :
  sk_merge (cls [1; 2]%nat) (cls [2; 3]%nat) = Ok (cls [1; 2; 3]%nat).
Proof. reflexivity. Qed.

(* Equal keys are interchangeable. *)
Theorem C78_equal_keys_interchangeable : forall k o,
  sk_eq k o = true ->
  (forall x, compatible k x = compatible o x)
  /\ (forall rows, ordered [k] rows <-> ordered [o] rows).
Proof.
  intros k o H. unfold sk_eq in H. apply andb_true_iff in H. destruct H as [H Ha].
  apply Bool.eqb_prop in Ha. rewrite seteqb_seteq in H.
  assert (HI : forall m, In m (k_members k) <-> In m (k_members o)) by exact H. clear H.
  split.
  - intros x. apply Bool.eq_iff_eq_true. rewrite !compatible_true, Ha.
    split; intros [H1 [m [H2 H3]]]; (split; [exact H1|exists m; split; [now apply HI|exact H3]]).
  - assert (E : forall r t, lexle [k] r t <-> lexle [o] r t).
    { intros r t. cbn [lexle]. unfold before, tied. rewrite Ha.
      split; (intros [H|[H _]]; [left|right; split; [|exact I]]); intros m Hm; apply H; now apply HI. }
    intros rows. split; apply ordered_mono; intros r t _ _; now apply E.
Qed.
Print Assumptions C78_equal_keys_interchangeable.

Example C78_equal_keys_ex :
  sk_eq (cls [1; 2]%nat) (cls [2; 1]%nat) = true /\ sk_eq (cls [1; 2]%nat) (cls [2]%nat) = false
  /\ sk_eq (key 1) (mkKey [MCol 1] false) = false.
Proof. repeat split. Qed.

(* A key for a single column gives back the (wrapped) column; a key needs at
   least one column. *)
Theorem C78_single_column : forall m asc,
  (exists k, sk_of m asc = Ok k /\ sk_column k = Ok (wrap m) /\ k_asc k = asc)
  /\ (forall ms, (exists e, sk_for_class ms asc = Raise e) <-> ms = []).
Proof.
  intros m asc. split.
  - exists (mkKey [wrap m] asc). unfold sk_of, sk_init. repeat split.
  - intros ms. unfold sk_for_class, sk_init. split.
    + intros [e H]. destruct (dedup (map wrap ms)) as [|x l] eqn:E; [|discriminate].
      destruct ms as [|a ms]; [reflexivity|]. exfalso.
      assert (Hi : In (wrap a) (dedup (map wrap (a :: ms)))) by (rewrite dedup_In; now left).
      rewrite E in Hi. destruct Hi.
    + intros ->. now exists ValueError.
Qed.
Print Assumptions C78_single_column.
