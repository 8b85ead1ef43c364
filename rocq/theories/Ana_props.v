(** C103-C107: comparing plans, depths and similarity of join trees, the number of plans, cardinalities of star queries. *)
From Coq Require Import List Bool Arith ZArith QArith Lia Lqa Permutation.
From Verif Require Import PyBase FSet Hint_model Card_model Card_proofs QPlan_model QPlan_spec QPlan_proofs JT_model JT_spec JT_proofs Ana_model Ana_spec Ana_proofs.
Import ListNotations.
Local Open Scope nat_scope.

Definition nd (ty : nat) (o : option physop) (b : option nat) (e : card) (c : option nat) : pdata :=
  mkpd ty o b [] [] 0 e c [] no_measures.
Definition scan (ty t : nat) (e : card) (c : option nat) : plan := Node (nd ty (Some (PScan 0)) (Some t) e c) [] None.
Definition join (ty : nat) (o i : plan) (e : card) : plan := Node (nd ty (Some (PJoin 0)) None e (Some 1)) [o; i] None.
Lemma scan_jplan ty t e c : jplan (scan ty t e c).
Proof. now constructor. Qed.
Lemma join_jplan ty o i e : jplan o -> jplan i -> jplan (join ty o i e).
Proof. now constructor. Qed.

(** ** C103: compare_query_plans *)
Theorem C103_tables l r : jplan l -> jplan r -> ~ seteq (tables l) (tables r) ->
  compare_plans l r = Ok [DStructure (mkfs (tables l)) (mkfs (tables r))].
Proof. exact (compare_structure l r). Qed.
Print Assumptions C103_tables.
Theorem C103_auxiliary l r : simple l -> simple r -> ((exists n, node_all l n /\ is_aux n = true) \/ (exists n, node_all r n /\ is_aux n = true)) ->
  compare_plans l r = Raise ValueError.
Proof. exact (compare_aux l r). Qed.
Print Assumptions C103_auxiliary.
(** If the inputs of all corresponding joins are swapped, then exactly the differences are reported. *)
Theorem C103_differences_partial l r : swapped l r -> jplan l -> jplan r ->
  exists cs, compare_plans l r = Ok cs /\ forall c, In c cs <-> differs l r c.
Proof. exact (compare_swapped l r). Qed.
Print Assumptions C103_differences_partial.
(** The same for scans. *)
Theorem C103_scans_partial d r : op_scan d = true -> jplan r -> nodes_comparable (Node d [] None) r -> seteq (tables (Node d [] None)) (tables r) ->
  exists cs, compare_plans (Node d [] None) r = Ok cs /\ forall c, In c cs <-> node_change (Node d [] None) r c.
Proof. exact (compare_scan d r). Qed.
Print Assumptions C103_scans_partial.
(** A plan with a join is reported to differ from itself. *)
Theorem C103_identical_refuted d o i : let p := Node d [o; i] None in
  jplan p -> (forall d o i s, node_all p (Node d [o; i] s) -> ~ seteq (tables i) (tables o)) ->
  (forall c, ~ differs p p c) /\ exists cs, compare_plans p p = Ok cs /\ In (DStructure (mkfs (tables o)) (mkfs (tables i))) cs.
Proof.
  intros p J N. split; [intros c; now apply no_diff_self|]. destruct (compare_self p J N) as (cs & E & K). exists cs. split; [exact E|]. now apply (K d o i None).
Qed.
Print Assumptions C103_identical_refuted.
(** An estimate that only one of the plans has cannot be compared. *)
Theorem C103_unknown_refuted ty t z c :
  compare_plans (scan ty t CNan c) (scan ty t (CVal z) c) = Raise StateError
  /\ compare_plans (scan ty t (CVal z) c) (scan ty t CNan c) = Raise StateError
  /\ differs (scan ty t CNan c) (scan ty t (CVal z) c) (DEstimate CNan (CVal z) (mkfs [t])).
Proof.
  split; [|split].
  - unfold scan, nd. cbn -[seteqb]. rewrite (proj2 (seteqb_seteq [t] [t]) (seteq_refl _)). reflexivity.
  - unfold scan, nd. cbn -[seteqb]. rewrite (proj2 (seteqb_seteq [t] [t]) (seteq_refl _)). reflexivity.
  - apply df_node; [intros x; reflexivity|]. left. split; [discriminate|reflexivity].
Qed.
Print Assumptions C103_unknown_refuted.
(** A cost that only the right plan has is not reported, one that only the left plan has is. *)
Theorem C103_cost_refuted ty t e k : comparable e e ->
  compare_plans (scan ty t e None) (scan ty t e (Some k)) = Ok []
  /\ compare_plans (scan ty t e (Some k)) (scan ty t e None) = Ok [DCost (Some k) None (mkfs [t])]
  /\ differs (scan ty t e None) (scan ty t e (Some k)) (DCost None (Some k) (mkfs [t])).
Proof.
  intros _. assert (E : card_differs e e = Ok false) by (destruct e; cbn; unfold card_differs; cbn; rewrite ?Z.eqb_refl; reflexivity).
  assert (T : seteqb [t] [t] = true) by (apply seteqb_seteq, seteq_refl).
  split; [|split].
  - unfold scan, nd. cbn -[card_differs seteqb]. rewrite T. unfold compare_nodes. cbn -[card_differs]. rewrite E. cbn. now rewrite Nat.eqb_refl.
  - unfold scan, nd. cbn -[card_differs seteqb]. rewrite T. unfold compare_nodes. cbn -[card_differs]. rewrite E. cbn. now rewrite Nat.eqb_refl.
  - apply df_node; [intros x; reflexivity|]. right. right. left. split; [discriminate|reflexivity].
Qed.
Print Assumptions C103_cost_refuted.
(** A hash join of R and S against one of S and R with another estimate and another operator. *)
Definition ex_l := join 1 (scan 2 0 (CVal 10) (Some 5)) (scan 2 1 (CVal 20) (Some 5)) (CVal 100).
Definition ex_r := join 3 (scan 2 1 (CVal 25) (Some 5)) (scan 2 0 (CVal 10) (Some 6)) (CVal 100).
Example C103_example : swapped ex_l ex_r /\ jplan ex_l /\ jplan ex_r
  /\ compare_plans ex_l ex_r = Ok [DOperator 1 3 [0; 1]; DDirection ex_l ex_r; DEstimate (CVal 20) (CVal 25) [1]; DCost (Some 5) (Some 6) [0]].
Proof.
  split; [|split; [|split]].
  - apply sw_join; [reflexivity|split; [left; reflexivity|split; [left; reflexivity|discriminate]]|intros x; reflexivity| |].
    + apply sw_scan; [reflexivity|]. split; [right; exists 20%Z, 25%Z; split; reflexivity|split; [left; reflexivity|discriminate]].
    + apply sw_scan; [reflexivity|]. split; [left; reflexivity|split; [left; reflexivity|discriminate]].
  - apply join_jplan; apply scan_jplan.
  - apply join_jplan; apply scan_jplan.
  - reflexivity.
Qed.
Example C103_example_same : compare_plans ex_l ex_l = Ok [DStructure [0] [1]].
Proof. reflexivity. Qed.
Example C103_example_aux : compare_plans (Node (nd 9 None None CNan None) [ex_l] None) ex_l = Raise ValueError.
Proof. reflexivity. Qed.

(** ** C104: join_depth *)
Theorem C104_join_depth_refuted {A} lg (o i : jt nat A) a : join_depth (JJoin lg o i a) = Raise TypeError.
Proof. reflexivity. Qed.
Print Assumptions C104_join_depth_refuted.
Theorem C104_join_depth_partial {A} (t : jt nat A) : (forall lg o i a, t <> JJoin lg o i a) ->
  exists d, join_depth t = Ok d /\ forall x k, dget d x = Some k <-> depth_at t x k.
Proof.
  intros H. destruct t as [lg|lg y a|lg o i a]; [| |now destruct (H lg o i a)].
  - exists []. split; [reflexivity|]. cbn. intros. split; [discriminate|tauto].
  - exists [(y, 1)]. split; [reflexivity|]. intros x k. cbn. unfold deqb. destruct (eqd x y) as [->|n]; split; intros K; [injection K as <-; auto|now destruct K as [_ ->]|discriminate|now destruct K].
Qed.
Print Assumptions C104_join_depth_partial.
(** The depths that are documented exist: (R join S) join T. *)
Example C104_example : let t : jt nat unit := JJoin false (JJoin false (JScan false 0 tt) (JScan false 1 tt) tt) (JScan false 2 tt) tt in
  depth_at t 0 1 /\ depth_at t 1 1 /\ depth_at t 2 2 /\ join_depth t = Raise TypeError.
Proof.
  cbn. split; [|split; [|split]]; [right; auto|right; auto|left|reflexivity]. split; [reflexivity|]. exists 1. split; [|reflexivity].
  split; [exists 0; auto|]. intros y m [_ ->]. lia.
Qed.
Example C104_scan : join_depth (JScan false 7 tt) = Ok [(7, 1)].
Proof. reflexivity. Qed.

(** ** C105: similarity of join trees *)
Theorem C105_bottomup {A} (a b : jt nat A) :
  bottomup a b = bottomup b a
  /\ (bottomup a b = Raise ZeroDivisionError <-> jt_iterjoins a = [] /\ jt_iterjoins b = [])
  /\ (jt_iterjoins a <> [] \/ jt_iterjoins b <> [] -> exists q, bottomup a b = Ok q /\ (0 <= q <= 1)%Q).
Proof.
  assert (N : forall t : jt nat A, jt_iterjoins t = [] <-> clusters t = []) by (intros t; unfold clusters; split; [now intros ->|now intros H%map_eq_nil]).
  rewrite !N. change (bottomup a b) with (jaccard (clusters a) (clusters b)). change (bottomup b a) with (jaccard (clusters b) (clusters a)).
  split; [apply jaccard_sym|]. split.
  - rewrite jaccard_unfold, <- total_zero. destruct (Nat.eqb_spec (total (clusters a) (clusters b)) 0); split; try reflexivity; try discriminate; auto. lia.
  - intros H. destruct (jaccard_ok (clusters a) (clusters b)) as (q & E & R & _); [exact H|]. eauto.
Qed.
Print Assumptions C105_bottomup.
(** Over pairwise different tables the score is one exactly for trees that differ in the order of join inputs only. *)
Theorem C105_bottomup_one {A} (a b : jt nat A) : proper a -> proper b -> NoDup (jt_itertables a) -> NoDup (jt_itertables b) ->
  jt_is_scan a = false -> ((exists q, bottomup a b = Ok q /\ (q == 1)%Q) <-> same_joins a b).
Proof.
  intros Pa Pb Na Nb S. change (bottomup a b) with (jaccard (clusters a) (clusters b)).
  assert (Ne : clusters a <> []) by (intros E; destruct (clusters_nil a Pa E) as (lg & x & e & ->); discriminate).
  destruct (jaccard_ok (clusters a) (clusters b) (or_introl Ne)) as (q & E & _ & K). split.
  - intros (q' & E' & H). rewrite E in E'. injection E' as <-. rewrite K in H. 
    assert (Nb' : clusters b <> []).
    { intros Z. destruct (clusters a) as [|c r] eqn:Ec; [contradiction|]. specialize (H c). rewrite Z in H. apply (proj1 H). now left. }
    apply clusters_same; [split; assumption|split; assumption| |exact H]. intros x. split; apply clusters_root; auto. intros c. symmetry. apply H.
  - intros H. exists q. split; [exact E|]. apply K. exact (proj2 (same_clusters _ _ H)).
Qed.
Print Assumptions C105_bottomup_one.
Theorem C105_topdown_partial {A} symm g (a b : jt nat A) : proper a -> proper b ->
  exists q q', topdown symm g a b = Ok q /\ topdown symm g b a = Ok q' /\ (q == q')%Q /\ ((0 <= g)%Q -> (0 <= q)%Q).
Proof. exact (topdown_ok symm g a b). Qed.
Print Assumptions C105_topdown_partial.
(** The documented range is [0, 1]: every tree with a join exceeds it when compared to itself, with the default gamma of 1.1 as well. *)
Theorem C105_topdown_refuted {A} symm g (t : jt nat A) : proper t -> NoDup (jt_itertables t) -> (1 <= g)%Q -> jt_is_scan t = false ->
  exists q, topdown symm g t t = Ok q /\ (2 < q)%Q.
Proof. intros P N G S. destruct (topdown_self symm g t (conj P N) G) as (q & E & _ & K). exists q. split; [exact E|auto]. Qed.
Print Assumptions C105_topdown_refuted.
Definition rs : jt nat unit := JJoin false (JScan false 0 tt) (JScan false 1 tt) tt.
Definition sr : jt nat unit := JJoin false (JScan false 1 tt) (JScan false 0 tt) tt.
Example C105_example : bottomup rs sr = Ok (1 # 1)%Q /\ same_joins rs sr.
Proof. split; [reflexivity|]. apply sj_swap; constructor. Qed.
Example C105_example_2 : let t3 := fun t : jt nat unit => JJoin false t (JScan false 2 tt) tt in
  bottomup (t3 rs) (JJoin false rs (JScan false 3 tt) tt) = Ok (1 # 3)%Q.
Proof. reflexivity. Qed.
Example C105_example_topdown : exists q, topdown false (11 # 10) rs rs = Ok q /\ (q == 32 # 10)%Q.
Proof. eexists. split; [reflexivity|]. reflexivity. Qed.

(** ** C106: catalan_number, possible_plans_bound *)
Theorem C106_catalan_partial n : (Z.of_nat (catalan n) < 2 ^ 53)%Z -> catalan_number n = Ok (Z.of_nat (catalan n)).
Proof. exact (catalan_ok n). Qed.
Print Assumptions C106_catalan_partial.
(** The float division is not exact beyond. *)
Theorem C106_catalan_refuted : exists v, catalan_number 31 = Ok v /\ v <> Z.of_nat (catalan 31).
Proof.
  eexists. split; [vm_compute; reflexivity|]. intros E.
  assert (K : (Z.of_nat (catalan 31) * 32 = comb 62 31)%Z).
  { pose proof (catalan_mul 31) as M. apply (f_equal Z.of_nat) in M. rewrite Nat2Z.inj_mul in M. rewrite <- comb_binom in M by (apply Nat.leb_le; vm_compute; reflexivity). exact M. }
  rewrite <- E in K. vm_compute in K. discriminate.
Qed.
Print Assumptions C106_catalan_refuted.
Example C106_example : catalan_number 3 = Ok 5%Z /\ catalan 3 = 5 /\ catalan_number 10 = Ok 16796%Z.
Proof. repeat split; vm_compute; reflexivity. Qed.
(** A query over a single table has a plan for each scan operator. *)
Theorem C106_single_refuted joins scans o : o < scans -> plan_for 1 joins scans (XScan 0 o) /\ possible_plans_bound 1 joins scans = Ok 0%Z.
Proof.
  intros H. split; [split; [apply Permutation_refl|exact H]|]. unfold possible_plans_bound. change (catalan_number 1) with (@Ok Z 1%Z). cbn [rmap rbind]. f_equal; try lia.
Qed.
Print Assumptions C106_single_refuted.
(** Three tables with the default operators: left-deep plans alone exceed the bound. *)
Definition left_deep3 : list xplan :=
  flat_map (fun p => match p with (a, b, c) =>
    flat_map (fun j => flat_map (fun k => flat_map (fun x => flat_map (fun y => map (fun z =>
      XJoin j (XJoin k (XScan a x) (XScan b y)) (XScan c z)) (seq 0 2)) (seq 0 2)) (seq 0 2)) (seq 0 3)) (seq 0 3) end)
    [(0, 1, 2); (0, 2, 1); (1, 0, 2); (1, 2, 0); (2, 0, 1); (2, 1, 0)].
#[local] Instance EqD_xplan : EqD xplan.
Proof. intros a b. unfold EqD in *. decide equality; apply Nat.eq_dec. Defined.
Theorem C106_three_refuted :
  possible_plans_bound 3 3 2 = Ok 180%Z /\ NoDup left_deep3 /\ length left_deep3 = 432 /\ (forall p, In p left_deep3 -> plan_for 3 3 2 p).
Proof.
  split; [vm_compute; reflexivity|]. split; [|split; [vm_compute; reflexivity|]].
  - assert (E : dedup left_deep3 = left_deep3) by (vm_compute; reflexivity). rewrite <- E. apply dedup_NoDup.
  - intros p H. unfold left_deep3 in H. apply in_flat_map in H. destruct H as ([[a b] c] & Habc & H).
    apply in_flat_map in H. destruct H as (j & Hj & H). apply in_flat_map in H. destruct H as (k & Hk & H).
    apply in_flat_map in H. destruct H as (x & Hx & H). apply in_flat_map in H. destruct H as (y & Hy & H). apply in_map_iff in H. destruct H as (z & <- & Hz).
    apply in_seq in Hj, Hk, Hx, Hy, Hz. split; [|cbn; lia]. cbn [x_tables app]. change (seq 0 3) with [0; 1; 2].
    assert (K : NoDup [a; b; c] /\ forall v, In v [a; b; c] <-> In v [0; 1; 2]).
    { cbn in Habc. repeat (destruct Habc as [E|Habc]; [injection E as <- <- <-; split; [repeat constructor; cbn; lia|intros v; cbn; tauto]|]). destruct Habc. }
    apply NoDup_Permutation; [apply K|repeat constructor; cbn; lia|apply K].
Qed.
Print Assumptions C106_three_refuted.

(** ** C107: star_query_cardinality *)
Theorem C107_star_partial {F D} (pk : F -> nat) order facts (dims : list (@dimension F D)) :
  (forall l, Permutation (order l) l) -> NoDup (map pk facts) -> length facts <> 1 ->
  star_cardinality pk order facts dims = Ok (length (star_join facts dims)).
Proof. exact (star_ok pk order facts dims). Qed.
Print Assumptions C107_star_partial.
Theorem C107_single_refuted {F D} (pk : F -> nat) order f (dims : list (@dimension F D)) :
  (forall l, Permutation (order l) l) -> star_cardinality pk order [f] dims = Raise TypeError.
Proof. exact (star_single pk order f dims). Qed.
Print Assumptions C107_single_refuted.
(** A key that is not unique is counted wrongly: two fact rows with key 1 that match one dimension row each. *)
Definition dim1 : @dimension nat nat := Dim [1; 2] Nat.eqb.
Theorem C107_key_refuted : star_cardinality (fun f => f) (fun l => l) [1; 1; 2] [dim1] = Ok 5 /\ length (star_join [1; 1; 2] [dim1]) = 3.
Proof. split; reflexivity. Qed.
Print Assumptions C107_key_refuted.
(** Facts 1, 2, 3; the first dimension has two rows for 1 and one for 2, the second one row for 1 and three for 2. *)
Example C107_example : let dims := [Dim [1; 1; 2] Nat.eqb; Dim [1; 2; 2; 2] Nat.eqb] in
  star_cardinality (fun f => f) (@rev nat) [1; 2; 3] dims = Ok 5 /\ length (star_join [1; 2; 3] dims) = 5.
Proof. split; reflexivity. Qed.
