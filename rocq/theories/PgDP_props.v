(** C114-C116: the PostgreSQL-style enumerator. *)
From Coq Require Import List Bool Arith QArith Lia Lqa Permutation.
From Verif Require Import PyBase FSet DP_model Path_model Path_spec PgDP_model DP_spec DP_proofs PgDP_spec PgDP_proofs.
Import ListNotations.
Local Open Scope nat_scope.

Section Props.
  Context {N P I : Type}.
  Context (card : list nat -> N) (cost : pp N P I -> option Q).
  Context (filters_for : nat -> option P) (columns_of : nat -> list nat) (indexes_on : nat -> list I).
  Context (joins_between : list nat -> list nat -> option P) (conjuncts : P -> list P) (partners : P -> list (nat * nat)) (ktab : nat -> nat).
  Context (scan_ops : list dscan) (join_ops : list djoin) (enable_memo enable_mat : bool) (max_workers : nat).
  Context (pages : nat + I -> nat) (rlog3 : nat -> nat).
  Context (R : nat -> nat -> Prop).
  Let workers x w := estimate_workers max_workers pages rlog3 x = Ok w.
  Let full := @full N P I card cost filters_for columns_of indexes_on joins_between partners ktab scan_ops join_ops enable_memo enable_mat workers R.
  Let generate := @generate N P I card cost filters_for columns_of indexes_on joins_between conjuncts partners ktab scan_ops join_ops enable_memo enable_mat max_workers pages rlog3.
  (** joins_between finds the predicates between two disjoint sets of tables. *)
  Let between : Prop := (forall x y, R x y -> R y x) /\ forall A B, (forall x, In x A -> ~ In x B) -> (joins_between A B <> None <-> exists a b, In a A /\ In b B /\ R a b).

  Lemma generate_best tabs p : generate tabs = Ok p -> exists r, join_search card cost filters_for columns_of indexes_on joins_between conjuncts partners ktab scan_ops join_ops enable_memo enable_mat max_workers pages rlog3 tabs = Ok r /\ ri_best r = Some p.
  Proof.
    unfold generate, PgDP_model.generate. destruct (join_search _ _ _ _ _ _ _ _ _ _ _ _ _ _ _ _ _) as [r|]; cbn [rbind]; [|discriminate]. destruct (ri_best r) as [b|] eqn:E; [|discriminate].
    intros [= <-]. eauto.
  Qed.
  Lemma generate_full tabs p : between -> NoDup tabs -> generate tabs = Ok p -> full p /\ Permutation (leaves p) tabs.
  Proof.
    intros [Rs Hjb] ND H. destruct (generate_best tabs p H) as (r & Er & Eb).
    destruct (join_search_spec card cost filters_for columns_of indexes_on joins_between conjuncts partners ktab scan_ops join_ops enable_memo enable_mat max_workers pages rlog3 R Rs Hjb tabs 1 r ND Er) as ([(_ & (b & Eb' & Fb & Tb) & _) _] & Es & _).
    rewrite Eb in Eb'. injection Eb' as <-. split; [exact Fb|].
    apply NoDup_Permutation; [apply (proj1 (plan_shape card cost filters_for columns_of indexes_on joins_between partners ktab scan_ops join_ops enable_memo enable_mat max_workers pages rlog3 R Rs) p Fb)|assumption|].
    intros x. rewrite <- (mkfs_In (leaves p)). change (mkfs (leaves p)) with (tabs_of p). rewrite Tb, Es. apply mkfs_In.
  Qed.

  (** * C114: what is found *)
  (** The result is a plan over exactly the tables of the query in which every table is read once and nothing is combined by a cross product. *)
  Theorem C114_sound tabs p : between -> NoDup tabs -> generate tabs = Ok p -> full p /\ Permutation (leaves p) tabs /\ hangs_together R tabs /\ tabs <> [].
  Proof.
    intros B ND H. destruct (generate_full tabs p B ND H) as [F Pm]. split; [assumption|]. split; [assumption|]. destruct B as [Rs Hjb]. destruct (generate_best tabs p H) as (r & Er & _).
    apply (join_search_spec card cost filters_for columns_of indexes_on joins_between conjuncts partners ktab scan_ops join_ops enable_memo enable_mat max_workers pages rlog3 R Rs Hjb tabs 1 r ND Er).
  Qed.
  (** Connected queries have a plan, if operators with finitely expensive inputs are finitely expensive, each table can be read, nested-loop or hash joins are allowed and nothing else is unusual. *)
  Let usable tabs : Prop :=
      (forall p, inputs_finite p -> cost p <> None) /\ (forall x, exists w, workers x w)
      /\ (forall t, In t tabs -> exists w p, scan_way card cost filters_for columns_of indexes_on scan_ops workers t w p) /\ (In NLJ join_ops \/ In HashJ join_ops)
      /\ (enable_memo = true -> forall A B cond c1 c2, joins_between A B = Some cond -> In (c1, c2) (partners cond) -> In (ktab c1) B \/ In (ktab c2) B)
      /\ (In MergeJ join_ops -> forall A B cond c, joins_between A B = Some cond -> In c (conjuncts cond) -> length (partners c) <> 2).
  Theorem C114_found_partial tabs : between -> usable tabs -> NoDup tabs -> tabs <> [] -> hangs_together R tabs -> exists p, generate tabs = Ok p.
  Proof.
    intros [Rs Hjb] Hu ND NE Hh.
    destruct (join_search_total card cost filters_for columns_of indexes_on joins_between conjuncts partners ktab scan_ops join_ops enable_memo enable_mat max_workers pages rlog3 R Rs Hjb tabs 1 ND NE Hh Hu) as (r & Er).
    unfold generate, PgDP_model.generate. rewrite Er. cbn [rbind].
    destruct (join_search_spec card cost filters_for columns_of indexes_on joins_between conjuncts partners ktab scan_ops join_ops enable_memo enable_mat max_workers pages rlog3 R Rs Hjb tabs 1 r ND Er) as ([(_ & (b & -> & _) & _) _] & _). eauto.
  Qed.
  Theorem C114_disconnected_partial tabs : between -> usable tabs -> NoDup tabs -> ~ hangs_together R tabs -> generate tabs = Raise AssertionError.
  Proof.
    intros [Rs Hjb] Hu ND Hh.
    destruct (search_total card cost filters_for columns_of indexes_on joins_between conjuncts partners ktab scan_ops join_ops enable_memo enable_mat max_workers pages rlog3 R Rs Hjb tabs 1 ND Hu) as (base & levels & Eb & El).
    unfold generate, PgDP_model.generate.
    rewrite (join_search_disconnected card cost filters_for columns_of indexes_on joins_between conjuncts partners ktab scan_ops join_ops enable_memo enable_mat max_workers pages rlog3 R Rs Hjb tabs 1 ND Hh levels base Eb El). reflexivity.
  Qed.

  (** * C115: what it costs *)
  Let monotone_at := @monotone_at N P I card cost joins_between.
  Lemma generate_within f tabs p : between -> (forall x y, cost x = Some y -> (0 <= y)%Q) -> (1 <= f)%Q -> monotone_at f -> monotone_at (f * f) ->
    ((~ In IdxScan scan_ops /\ ~ In IdxOnlyScan scan_ops) \/ (fuzz <= f)%Q) -> NoDup tabs -> generate tabs = Ok p ->
    forall q, full q -> seteq (leaves q) tabs -> within (f * f) (i_cost (dat p)) (i_cost (dat q)).
  Proof.
    intros [Rs Hjb] Hn F1 M1 M2 Hi ND H q Fq Sq. destruct (generate_best tabs p H) as (r & Er & Eb).
    destruct (join_search_spec card cost filters_for columns_of indexes_on joins_between conjuncts partners ktab scan_ops join_ops enable_memo enable_mat max_workers pages rlog3 R Rs Hjb tabs f r ND Er) as ([_ Ho] & Es & _).
    match type of Ho with ?A -> _ => assert (HH : A) by (split; [exact Hn|split; [exact F1|split; [exact M1|split; [exact M2|exact Hi]]]]) end. destruct (Ho HH) as [O1 _]. destruct (O1 q Fq) as (b & Eb' & W); [unfold tabs_of; rewrite Es; now apply mkfs_eq|].
    rewrite Eb in Eb'. injection Eb' as <-. exact W.
  Qed.
  (** Without index scans the plan is the cheapest one, if cheaper inputs make nothing more expensive (in particular the benefit of more workers does not depend on their number). *)
  Theorem C115_cheapest_partial tabs p : between -> (forall x y, cost x = Some y -> (0 <= y)%Q) -> monotone_at 1 -> ~ In IdxScan scan_ops -> ~ In IdxOnlyScan scan_ops -> NoDup tabs ->
    generate tabs = Ok p -> forall q, full q -> seteq (leaves q) tabs -> within 1 (i_cost (dat p)) (i_cost (dat q)).
  Proof. intros B Hn M H1 H2 ND H q Fq Sq. apply (generate_within 1 tabs p B Hn); auto. lra. Qed.
  (** With index scans it is at most 2.01 % more expensive than the cheapest one. *)
  Theorem C115_almost_partial tabs p : between -> (forall x y, cost x = Some y -> (0 <= y)%Q) -> monotone_at (101 # 100) -> monotone_at (10201 # 10000) -> NoDup tabs ->
    generate tabs = Ok p -> forall q, full q -> seteq (leaves q) tabs -> within (10201 # 10000) (i_cost (dat p)) (i_cost (dat q)).
  Proof. intros B Hn M1 M2 ND H q Fq Sq. apply (generate_within (101 # 100) tabs p B Hn); auto; unfold fuzz; [lra|right; lra]. Qed.

  (** * C116: operators *)
  (** Only the allowed operators are used; merge joins never are. *)
  Theorem C116_operators tabs p : between -> NoDup tabs -> generate tabs = Ok p ->
    (forall op, In op (scans_in p) -> In op scan_ops) /\ (forall op, In op (joins_in p) -> In op join_ops /\ op <> MergeJ)
    /\ (forall k, In (AMemo k) (auxs_in p) -> enable_memo = true /\ In NLJ (joins_in p)) /\ (In AMat (auxs_in p) -> enable_mat = true /\ In NLJ (joins_in p)).
  Proof.
    intros B ND H. destruct (generate_full tabs p B ND H) as [F _]. clear H.
    set (ok := fun p : pp N P I => (forall op, In op (scans_in p) -> In op scan_ops) /\ (forall op, In op (joins_in p) -> In op join_ops /\ op <> MergeJ)
      /\ (forall k, In (AMemo k) (auxs_in p) -> enable_memo = true /\ In NLJ (joins_in p)) /\ (In AMat (auxs_in p) -> enable_mat = true /\ In NLJ (joins_in p))).
    assert (S1 : forall (x : pp N P I) d, scans_in (set_dat x d) = scans_in x) by (intros x d; destruct x; reflexivity).
    assert (S2 : forall (x : pp N P I) d, joins_in (set_dat x d) = joins_in x) by (intros x d; destruct x; reflexivity).
    assert (S3 : forall (x : pp N P I) d, auxs_in (set_dat x d) = auxs_in x) by (intros x d; destruct x; reflexivity).
    assert (OkS : forall x d, ok x -> ok (set_dat x d)) by (intros x d; unfold ok; now rewrite S1, S2, S3).
    assert (Sc : forall t w x, scan_way card cost filters_for columns_of indexes_on scan_ops workers t w x -> ok x).
    { intros t w x []; apply OkS; unfold ok; cbn; intuition (subst; auto; discriminate). }
    assert (J : forall op m o i i', ok o -> ok i -> inner_way cost joins_between partners ktab enable_memo enable_mat op m (tabs_of o) i i' -> In op join_ops -> op = NLJ \/ op = HashJ -> ok (joined card cost joins_between op o i')).
    { intros op m o i i' (O1 & O2 & O3 & O4) (I1 & I2 & I3 & I4) W Ho Hk. apply OkS. unfold ok. cbn [scans_in joins_in auxs_in].
      assert (X : scans_in i' = scans_in i /\ joins_in i' = joins_in i /\ forall a, In a (auxs_in i') -> In a (auxs_in i) \/ (op = NLJ /\ match a with AMemo _ => enable_memo = true | AMat => enable_mat = true end)).
      { destruct W; [auto| |]; unfold PgDP_spec.priced, with_cost; rewrite S1, S2, S3; cbn; (split; [reflexivity|split; [reflexivity|]]); intros a [<-|Ha]; auto. }
      destruct X as (X1 & X2 & X3). rewrite X1, X2. split; [|split; [|split]].
      - intros a Ha. apply in_app_or in Ha. destruct Ha; auto.
      - intros a [<-|Ha]; [split; [assumption|destruct Hk; subst; discriminate]|]. apply in_app_or in Ha. destruct Ha; auto.
      - intros k Ha. apply in_app_or in Ha. cbn. rewrite in_app_iff. destruct Ha as [Ha|Ha]; [destruct (O3 k Ha); auto|]. destruct (X3 _ Ha) as [Hb|[-> Hb]]; [destruct (I3 k Hb); auto|auto].
      - intros Ha. apply in_app_or in Ha. cbn. rewrite in_app_iff. destruct Ha as [Ha|Ha]; [destruct (O4 Ha); auto|]. destruct (X3 _ Ha) as [Hb|[-> Hb]]; [destruct (I4 Hb); auto|auto]. }
    assert (X : (forall x, full x -> ok x) /\ (forall x, @part N P I card cost filters_for columns_of indexes_on joins_between partners ktab scan_ops join_ops enable_memo enable_mat workers R x -> ok x)).
    { apply full_part_ind; intros; eauto. }
    exact (proj1 X p F).
  Qed.
  (** Hence nothing is found for several tables if only merge joins are allowed. *)
  Theorem C116_merge_refuted tabs : between -> NoDup tabs -> (forall op, In op join_ops -> op = MergeJ) -> 2 <= length tabs -> forall p, generate tabs <> Ok p.
  Proof.
    intros B ND Hm L p H. destruct (C116_operators tabs p B ND H) as (_ & J & _). destruct (generate_full tabs p B ND H) as [F Pm].
    assert (X : joins_in p = []). { destruct (joins_in p) as [|op l]; [reflexivity|]. destruct (J op (or_introl eq_refl)) as [X1 X2]. elim X2. now apply Hm. }
    assert (Y : forall x : pp N P I, joins_in x = [] -> length (leaves x) = 1) by (induction x; cbn; intros; [reflexivity|discriminate|auto]).
    specialize (Y p X). apply Permutation_length in Pm. lia.
  Qed.
End Props.
Print Assumptions C114_sound.
Print Assumptions C114_found_partial.
Print Assumptions C114_disconnected_partial.
Print Assumptions C115_cheapest_partial.
Print Assumptions C115_almost_partial.
Print Assumptions C116_operators.
Print Assumptions C116_merge_refuted.

(** ** A concrete query: the tables 0, 1, 2, ... are joined to their neighbours *)
Definition near (a b : nat) : bool := (a =? S b) || (b =? S a).
Definition nearR (a b : nat) : Prop := a = S b \/ b = S a.
Definition pairs_of (A B : list nat) : list (nat * nat) := flat_map (fun a => map (pair a) (filter (near a) B)) A.
Definition njoin (A B : list nat) : option (list (nat * nat)) := match pairs_of A B with [] => None | l => Some l end.
Definition nparts (l : list (nat * nat)) : list (list (nat * nat)) := map (fun e => [e]) l.
Definition npp := pp nat (list (nat * nat)) nat.
Lemma pairs_of_In A B a b : In (a, b) (pairs_of A B) <-> In a A /\ In b B /\ nearR a b.
Proof.
  unfold pairs_of. rewrite in_flat_map. split.
  - intros (x & Hx & H). apply in_map_iff in H. destruct H as (y & E & Hy). injection E as -> ->. apply filter_In in Hy. destruct Hy as [Hy Hn]. split; [assumption|]. split; [assumption|].
    unfold near in Hn. apply orb_true_iff in Hn. rewrite !Nat.eqb_eq in Hn. exact Hn.
  - intros (Ha & Hb & Hn). exists a. split; [assumption|]. apply in_map. apply filter_In. split; [assumption|]. unfold near. apply orb_true_iff. rewrite !Nat.eqb_eq. exact Hn.
Qed.
Lemma near_between : (forall x y, nearR x y -> nearR y x) /\ forall A B, (forall x, In x A -> ~ In x B) -> (njoin A B <> None <-> exists a b, In a A /\ In b B /\ nearR a b).
Proof.
  split; [intros x y [H|H]; [right|left]; assumption|]. intros A B _. unfold njoin. split.
  - destruct (pairs_of A B) as [|[a b] l] eqn:E; [congruence|]. intros _. exists a, b. apply pairs_of_In. rewrite E. now left.
  - intros (a & b & H). apply pairs_of_In in H. destruct (pairs_of A B); [destruct H|discriminate].
Qed.
(** The costs of the inputs are added up; parallel plans need half the time. *)
Definition own_cost (p : npp) : option Q :=
  match p with
  | PScan op t _ _ _ _ => Some (match op with SeqScan => 100 | IdxScan => 100 + (1 # 2) | _ => 90 end)%Q
  | PJoin op _ o i _ => match i_cost (dat o), i_cost (dat i) with Fin a, Fin b => Some (a + b + match op with NLJ => 30 | _ => 20 end)%Q | _, _ => None end
  | PAux _ c _ => match i_cost (dat c) with Fin a => Some (a + 1)%Q | _ => None end
  end.
Definition clamp (q : Q) : Q := if Qle_bool 0 q then q else 0%Q.
Definition ncost (p : npp) : option Q := match own_cost p with Some q => Some (clamp (if i_pw (dat p) =? 0 then q else q * (1 # 2)))%Q | None => None end.
Definition nall : list djoin := [NLJ; MergeJ; HashJ].
Definition nwork (n : nat) : nat := n.
Definition ngen (scans : list dscan) (joins : list djoin) (workers : nat) (pages : nat + nat -> nat) (cost : npp -> option Q) :=
  generate (fun S => length S) cost (fun _ => None) (fun t => [t]) (fun c => [c]) njoin nparts (fun l => l) (fun c => c) scans joins true true workers pages nwork.
Definition nfull (scans : list dscan) (joins : list djoin) (workers : nat) (pages : nat + nat -> nat) (cost : npp -> option Q) :=
  @full nat (list (nat * nat)) nat (fun S => length S) cost (fun _ => None) (fun t => [t]) (fun c => [c]) njoin (fun l => l) (fun c => c) scans joins true true (fun x w => estimate_workers workers pages nwork x = Ok w) nearR.
Lemma clamp_le k a b : (1 <= k -> a <= k * b -> clamp a <= k * clamp b)%Q.
Proof.
  intros K L. unfold clamp. destruct (Qle_bool 0 a) eqn:A, (Qle_bool 0 b) eqn:B.
  - exact L.
  - apply Qle_bool_iff in A. apply Bool.not_true_iff_false in B. rewrite Qle_bool_iff in B. apply Qnot_le_lt in B. nra.
  - apply Qle_bool_iff in B. nra.
  - lra.
Qed.
Lemma ncost_nonneg x y : ncost x = Some y -> (0 <= y)%Q.
Proof. unfold ncost. destruct (own_cost x); [|discriminate]. intros [= <-]. unfold clamp. destruct (Qle_bool 0 _) eqn:E; [now apply Qle_bool_iff|lra]. Qed.
Lemma ncost_monotone k : (1 <= k)%Q -> monotone_at (fun S => length S) ncost njoin k.
Proof.
  intros K1.
  assert (IC : forall p : npp, i_cost (dat (priced ncost p)) = match ncost p with Some q => Fin q | None => Inf end) by (intros p; apply cost_priced).
  split; [|split].
  - intros op o i o' i' [To Wo] [Ti Wi]. split; [unfold tabs_of, PgDP_spec.joined; rewrite !leaves_priced; cbn [leaves]; apply mkfs_eq; unfold tabs_of in To, Ti; apply mkfs_eq in To, Ti; intros x; rewrite !in_app_iff, (To x), (Ti x); tauto|].
    unfold PgDP_spec.joined. rewrite !IC. unfold ncost. cbn [own_cost dat i_pw Nat.eqb].
    destruct (i_cost (dat o')) as [|b|]; cbn [within] in Wo; [destruct Wo| |exact Logic.I]. destruct Wo as (a & -> & La).
    destruct (i_cost (dat i')) as [|d|]; cbn [within] in Wi; [destruct Wi| |exact Logic.I]. destruct Wi as (c & -> & Lc).
    cbn [within]. eexists. split; [reflexivity|]. apply clamp_le; [assumption|]. destruct op; lra.
  - intros a i i' c c' e e' [Ti Wi]. split; [exact Ti|]. rewrite !IC. unfold ncost. cbn [own_cost dat i_pw Nat.eqb].
    destruct (i_cost (dat i')) as [|d|]; cbn [within] in Wi; [destruct Wi| |exact Logic.I]. destruct Wi as (x & -> & Lx). cbn [within]. eexists. split; [reflexivity|]. apply clamp_le; [assumption|]. lra.
  - intros p w p' w' Hw Hw' Hp Hp' [T W]. assert (TG : forall x w, tabs_of (gathered ncost (priced ncost x) w) = tabs_of (priced ncost x)) by (intros x v; apply tabs_gathered).
    split; [now rewrite !TG|]. unfold PgDP_spec.gathered. rewrite !IC in *.
    assert (G : forall x v, v <> 0 -> i_pw (dat x) = 0 -> ncost (parallelize (priced ncost x) v) = match own_cost x with Some q => Some (clamp (q * (1 # 2))) | None => None end).
    { intros x v Hv Hx. apply Nat.eqb_neq in Hv. assert (O : own_cost (parallelize (priced ncost x) v) = own_cost x) by (destruct x; reflexivity).
      unfold ncost at 1. rewrite O. assert (PV : i_pw (dat (parallelize (priced ncost x) v)) = v) by (destruct x; reflexivity). rewrite PV, Hv. destruct (own_cost x); reflexivity. }
    rewrite (G p w Hw Hp), (G p' w' Hw' Hp'). unfold ncost in W. rewrite Hp, Hp' in W. cbn [Nat.eqb] in W.
    destruct (own_cost p') as [b|]; [|exact Logic.I]. cbn [within] in W. destruct W as (a & E & La). destruct (own_cost p) as [a'|]; [|discriminate]. injection E as <-.
    cbn [within]. eexists. split; [reflexivity|]. unfold clamp in *.
    destruct (Qle_bool 0 a') eqn:A, (Qle_bool 0 b) eqn:B, (Qle_bool 0 (a' * (1 # 2))) eqn:C, (Qle_bool 0 (b * (1 # 2))) eqn:D;
      repeat match goal with H : Qle_bool _ _ = true |- _ => apply Qle_bool_iff in H | H : Qle_bool _ _ = false |- _ => apply Bool.not_true_iff_false in H; rewrite Qle_bool_iff in H; apply Qnot_le_lt in H end; try lra; nra.
Qed.
Lemma hangs3 : hangs_together nearR [0; 1; 2].
Proof.
  assert (S : forall x y, nearR x y -> nearR y x) by apply near_between.
  apply (hang_join nearR S [0; 1] [2] 1 2); [|apply hang_single|cbn; auto|cbn; auto|now right]. apply (hang_join nearR S [0] [1] 0 1); [apply hang_single|apply hang_single|cbn; auto|cbn; auto|now right].
Qed.
(** Sequential and bitmap scans, one worker *)
Definition nscans : list dscan := [SeqScan; BmpScan].
Lemma nusable tabs : (forall p : npp, inputs_finite p -> ncost p <> None) /\ (forall x : nat + nat, exists w, estimate_workers 2 (fun _ => 1) nwork x = Ok w)
  /\ (forall t, In t tabs -> exists w (p : npp), scan_way (fun S => length S) ncost (fun _ => None) (fun t => [t]) (fun c => [c]) nscans (fun x w => estimate_workers 2 (fun _ => 1) nwork x = Ok w) t w p)
  /\ (In NLJ nall \/ In HashJ nall)
  /\ (true = true -> forall A B cond c1 c2, njoin A B = Some cond -> In (c1, c2) cond -> In c1 B \/ In c2 B)
  /\ (In MergeJ nall -> forall A B cond c, njoin A B = Some cond -> In c (nparts cond) -> length c <> 2).
Proof.
  split; [|split; [|split; [|split; [|split]]]].
  - intros p Hp. unfold ncost. destruct p as [op t ix bm fl d|op c o i d|a c d]; cbn in *; [discriminate|destruct Hp as [(x & ->) (y & ->)]; discriminate|destruct Hp as (x & ->); discriminate].
  - intros x. exists 1. reflexivity.
  - intros t _. exists 1. eexists. apply sw_seq; [cbn; auto|reflexivity].
  - cbn. auto.
  - intros _ A B cond c1 c2 E H. right. unfold njoin in E. destruct (pairs_of A B) as [|e l] eqn:E'; [discriminate|]. injection E as <-. rewrite <- E' in H. apply pairs_of_In in H. tauto.
  - intros _ A B cond c _ H. apply in_map_iff in H. destruct H as (e & <- & _). discriminate.
Qed.
Definition the_plan : npp := match ngen nscans nall 2 (fun _ => 1) ncost [0; 1; 2] with Ok p => p | Raise _ => PAux AMat (PScan SeqScan 7 None [] None (mkinfo None NoCost [] None 0)) (mkinfo None NoCost [] None 0) end.
Example C114_example : ngen nscans nall 2 (fun _ => 1) ncost [0; 1; 2] = Ok the_plan /\ leaves the_plan = [2; 0; 1] /\ joins_in the_plan = [HashJ; HashJ] /\ (fin the_plan == 9375 # 100)%Q
  /\ ngen nscans nall 2 (fun _ => 1) ncost [0; 2] = Raise AssertionError.
Proof. vm_compute. repeat split; reflexivity. Qed.

Example C114_found_example : exists p, ngen nscans nall 2 (fun _ => 1) ncost [0; 1; 2] = Ok p.
Proof.
  apply (C114_found_partial (fun S => length S) ncost (fun _ => None) (fun t => [t]) (fun c => [c]) njoin nparts (fun l => l) (fun c => c) nscans nall true true 2 (fun _ => 1) nwork nearR [0; 1; 2] near_between (nusable [0; 1; 2]));
    [repeat constructor; cbn; intuition discriminate|discriminate|exact hangs3].
Qed.
Example C115_example : forall q, nfull nscans nall 2 (fun _ => 1) ncost q -> seteq (leaves q) [0; 1; 2] -> within 1 (i_cost (dat the_plan)) (i_cost (dat q)).
Proof.
  apply (C115_cheapest_partial (fun S => length S) ncost (fun _ => None) (fun t => [t]) (fun c => [c]) njoin nparts (fun l => l) (fun c => c) nscans nall true true 2 (fun _ => 1) nwork nearR [0; 1; 2] the_plan near_between ncost_nonneg).
  - apply ncost_monotone. lra.
  - cbn. intuition discriminate.
  - cbn. intuition discriminate.
  - repeat constructor; cbn; intuition discriminate.
  - apply C114_example.
Qed.

(** ** What is not true *)
Definition nscan (cost : npp -> option Q) (t w : nat) : npp := priced cost (PScan SeqScan t None [] None (mkinfo (Some 1) NoCost [] (Some w) 0)).
Definition nj (cost : npp -> option Q) (o i : npp) : npp := joined (fun S => length S) cost njoin HashJ o i.
Lemma nscan_way scans workers pages cost t w : In SeqScan scans -> estimate_workers workers pages nwork (inl t) = Ok w ->
  scan_way (fun S => length S) cost (fun _ => None) (fun t => [t]) (fun c => [c]) scans (fun x w => estimate_workers workers pages nwork x = Ok w) t w (nscan cost t w).
Proof. intros Hs Hw. exact (@sw_seq nat (list (nat * nat)) nat (fun S => length S) cost (fun _ => None) (fun t => [t]) (fun c => [c]) scans (fun x w => estimate_workers workers pages nwork x = Ok w) t w Hs Hw). Qed.
Lemma nscan_full scans joins workers pages cost t w : In SeqScan scans -> estimate_workers workers pages nwork (inl t) = Ok w -> cost (PScan SeqScan t None [] None (mkinfo (Some 1) NoCost [] (Some w) 0)) <> None ->
  nfull scans joins workers pages cost (nscan cost t w).
Proof.
  intros Hs Hw Hc. apply (f_scan _ _ _ _ _ _ _ _ _ _ _ _ _ _ t w); [exact (nscan_way scans workers pages cost t w Hs Hw)|]. unfold finite, nscan. rewrite cost_priced. destruct (cost _) as [c|]; [eauto|congruence].
Qed.
(** A subset of the tables that only has infinitely expensive plans makes the search fail, even if another join order would avoid it. *)
Definition icost (p : npp) : option Q := if deqb (tabs_of p) [0; 1] then None else ncost p.
Theorem C114_infinite_refuted : exists q, nfull nscans nall 0 (fun _ => 1) icost q /\ Permutation (leaves q) [0; 1; 2] /\ ngen nscans nall 0 (fun _ => 1) icost [0; 1; 2] = Raise RuntimeError.
Proof.
  assert (S : forall t, nfull nscans nall 0 (fun _ => 1) icost (nscan icost t 0)).
  { intros t. apply nscan_full; [cbn; auto|reflexivity|]. unfold icost. destruct (deqb _ _) eqn:E; [|discriminate]. apply (proj1 (deqb_eq _ _)) in E. exfalso.
    assert (X : tabs_of (nscan icost t 0) = [t]) by reflexivity. unfold tabs_of in *. cbn in *. congruence. }
  exists (nj icost (nscan icost 0 0) (nj icost (nscan icost 1 0) (nscan icost 2 0))). split; [|split; [cbn; apply Permutation_refl|vm_compute; reflexivity]].
  assert (L : forall a b o i, In a (leaves (o : npp)) -> In b (leaves (i : npp)) -> nearR a b -> linked nearR o i) by (intros a b o i H1 H2 H3; exists a, b; auto).
  eapply f_join; [apply S| |apply iw_plain|cbn; auto|auto| | |].
  - eapply f_join; [apply S|apply S|apply iw_plain|cbn; auto|auto| | |].
    + intros x. cbn. intuition congruence.
    + apply (L 1 2); cbn; auto. now right.
    + eexists. vm_compute. reflexivity.
  - intros x. cbn. intuition congruence.
  - apply (L 0 1); cbn; auto. now right.
  - eexists. vm_compute. reflexivity.
Qed.
(** Index scans drive out sequential scans that are up to 1 % cheaper. *)
Theorem C115_fuzz_refuted : exists p q, ngen [SeqScan; IdxScan] nall 0 (fun _ => 1) ncost [0] = Ok p /\ nfull [SeqScan; IdxScan] nall 0 (fun _ => 1) ncost q /\ leaves q = [0] /\ (fin q < fin p)%Q.
Proof.
  eexists. exists (nscan ncost 0 0). split; [vm_compute; reflexivity|]. split; [apply nscan_full; [cbn; auto|reflexivity|discriminate]|]. split; [reflexivity|]. vm_compute. reflexivity.
Qed.
(** Partial plans are compared without their numbers of workers: the plan that is a little more expensive but executed by more workers is lost. *)
Definition wcost (p : npp) : option Q :=
  match p with
  | PScan _ _ _ _ _ d => Some (100 / inject_Z (Z.of_nat (S (i_pw d))))%Q
  | PJoin _ _ o i d => match i_cost (dat o), i_cost (dat i) with Fin a, Fin b => Some ((a + b + inject_Z (Z.of_nat (hd 0%nat (leaves o)))) / inject_Z (Z.of_nat (S (i_pw d))))%Q | _, _ => None end
  | PAux _ c _ => None
  end.
Theorem C115_workers_refuted : exists p q, ngen [SeqScan] nall 3 (fun x => match x with inl 0 => 1 | _ => 3 end) wcost [0; 1] = Ok p
  /\ nfull [SeqScan] nall 3 (fun x => match x with inl 0 => 1 | _ => 3 end) wcost q /\ Permutation (leaves q) [0; 1] /\ (fin q < fin p)%Q.
Proof.
  set (pg := fun x : nat + nat => match x with inl 0 => 1 | _ => 3 end).
  exists (match ngen [SeqScan] nall 3 pg wcost [0; 1] with Ok p => p | Raise _ => nscan wcost 0 0 end).
  exists (gathered wcost (nj wcost (nscan wcost 1 3) (gathered wcost (nscan wcost 0 1) 1)) 3).
  split; [vm_compute; reflexivity|]. split; [|split; [cbn; apply perm_swap|vm_compute; reflexivity]].
  apply f_gather; [|reflexivity|eexists; vm_compute; reflexivity].
  eapply p_join; [| |apply iw_plain|cbn; auto|auto| | |eexists; vm_compute; reflexivity].
  - apply (p_scan _ _ _ _ _ _ _ _ _ _ _ _ _ _ 1 3); [apply nscan_way; [cbn; auto|reflexivity]|discriminate|eexists; vm_compute; reflexivity].
  - apply f_gather; [|reflexivity|eexists; vm_compute; reflexivity]. apply (p_scan _ _ _ _ _ _ _ _ _ _ _ _ _ _ 0 1); [apply nscan_way; [cbn; auto|reflexivity]|discriminate|eexists; vm_compute; reflexivity].
  - intros x. cbn. intuition congruence.
  - exists 1, 0. cbn. split; [auto|split; [auto|now left]].
Qed.
(** * C116: the choice among the final candidates *)
(** If no two candidates count as equal plans, the cheapest one is returned. *)
Theorem C116_choice_partial {N P I} (pg_cost : cand N P I -> Q) (r : ri N P I) cs c :
  candidates r = Ok cs -> ForallOrdPairs (fun a b => cand_eqb b a = false) cs -> choose pg_cost r = Ok c -> In c cs /\ forall c', In c' cs -> (pg_cost c <= pg_cost c')%Q.
Proof.
  intros Hc D H. unfold choose in H. rewrite Hc in H. cbn [rbind] in H.
  assert (X : forall (l : list (cand N P I)) d, ForallOrdPairs (fun a b => cand_eqb b a = false) (map fst d ++ l) ->
    fold_left (fun d c => cset d c (pg_cost c)) l d = d ++ map (fun c => (c, pg_cost c)) l).
  { induction l as [|x l IH]; intros d F; cbn [fold_left map]; [now rewrite app_nil_r|].
    assert (E : cset d x (pg_cost x) = d ++ [(x, pg_cost x)]).
    { clear IH. induction d as [|[y v] d IHd]; [reflexivity|]. cbn [cset]. cbn [map fst app] in F. inversion F as [|a l' F1 F2 E]; subst. rewrite Forall_forall in F1.
      rewrite (F1 x) by (apply in_or_app; right; now left). cbn [app]. f_equal. now apply IHd. }
    rewrite E, IH; [now rewrite <- app_assoc|]. rewrite map_app, <- app_assoc. exact F. }
  rewrite (X cs []) in H by exact D. cbn [app] in H.
  destruct cs as [|x cs]; [discriminate|]. cbn [map argmin] in H. injection H as <-.
  assert (Y : forall l b, let m := fold_left (fun best e : cand N P I * Q => if Qle_bool (snd best) (snd e) then best else e) l b in
    (m = b \/ In m l) /\ (snd m <= snd b)%Q /\ forall e, In e l -> (snd m <= snd e)%Q).
  { induction l as [|e l IH]; intros b; cbn [fold_left]; [cbn; split; [now left|split; [apply Qle_refl|intros ? []]]|].
    specialize (IH (if Qle_bool (snd b) (snd e) then b else e)). cbn zeta in *. destruct IH as (I1 & I2 & I3).
    destruct (Qle_bool (snd b) (snd e)) eqn:L.
    - apply Qle_bool_iff in L. split; [destruct I1; [now left|right; now right]|]. split; [exact I2|]. intros e' [<-|He]; [eapply Qle_trans; eauto|auto].
    - assert (L' : (snd e <= snd b)%Q). { apply Qlt_le_weak, Qnot_le_lt. intro L'. apply Qle_bool_iff in L'. congruence. }
      split; [right; destruct I1; [left; symmetry; assumption|now right]|]. split; [eapply Qle_trans; eauto|]. intros e' [<-|He]; auto. }
  specialize (Y (map (fun c => (c, pg_cost c)) cs) (x, pg_cost x)). cbn zeta in Y.
  set (m := fold_left _ (map (fun c => (c, pg_cost c)) cs) (x, pg_cost x)) in *. destruct Y as (Y1 & Y2 & Y3).
  assert (Z : In (fst m) (x :: cs) /\ snd m = pg_cost (fst m)).
  { destruct Y1 as [-> |Y1]; [split; [now left|reflexivity]|]. apply in_map_iff in Y1. destruct Y1 as (y & <- & Hy). split; [now right|reflexivity]. }
  destruct Z as [Z1 Z2]. split; [exact Z1|]. rewrite <- Z2. intros c' [<-|Hc']; [exact Y2|]. apply (Y3 (c', pg_cost c')). apply in_map_iff. eauto.
Qed.
Print Assumptions C116_choice_partial.
Example C116_choice_example :
  let a := nscan ncost 0 0 in let b := gathered ncost (nscan ncost 0 2) 2 in
  let r := mkri [0%nat] 1%nat [a] [nscan ncost 0 2] (Some a) None in
  let cost := fun c : cand _ _ _ => match c with CPlan _ => 3%Q | CGather _ _ => 2%Q end in
  exists cs, candidates r = Ok cs /\ length cs = 2 /\ ForallOrdPairs (fun a b => cand_eqb b a = false) cs /\ choose cost r = Ok (CGather (nscan ncost 0 2) 2).
Proof. eexists. split; [vm_compute; reflexivity|]. split; [reflexivity|]. split; [repeat constructor|vm_compute; reflexivity]. Qed.
(** Workers start further workers: below a parallel plan there may be another one. *)
Theorem C116_nested_refuted : exists p, ngen nscans nall 2 (fun _ => 1) ncost [0; 1] = Ok p /\ i_pw (dat p) <> 0 /\ below p <> 0.
Proof. eexists. split; [vm_compute; reflexivity|]. split; vm_compute; discriminate. Qed.
(** Tables without pages cannot be planned. *)
Theorem C116_empty_table_refuted {N P I} card cost filters_for columns_of indexes_on (joins_between : list nat -> list nat -> option P) conjuncts partners ktab scan_ops join_ops em ma max_workers (pages : nat + I -> nat) rlog3 tabs t :
  In SeqScan scan_ops -> max_workers <> 0 -> In t tabs -> pages (inl t) = 0 ->
  forall p : pp N P I, generate card cost filters_for columns_of indexes_on joins_between conjuncts partners ktab scan_ops join_ops em ma max_workers pages rlog3 tabs <> Ok p.
Proof.
  intros Hs Hw Ht Hp p H. unfold generate, join_search in H. destruct (rmapM _ tabs) as [base|] eqn:E; cbn [rbind] in H; [|discriminate].
  destruct (proj1 (rmapM_ok _ _ _ E) t Ht) as (r & Er & _). unfold base_rel, seq_offers, estimate_workers in Er.
  assert (X : has_scan scan_ops SeqScan = true) by (unfold has_scan; apply existsb_exists; exists SeqScan; auto). rewrite X in Er. cbn [negb] in Er. apply Nat.eqb_neq in Hw. rewrite Hw, Hp in Er. discriminate.
Qed.
Example C116_empty_table_example : ngen nscans nall 2 (fun x => match x with inl 1 => 0 | _ => 1 end) ncost [0; 1] = Raise ValueError.
Proof. vm_compute. reflexivity. Qed.
(** A join predicate with two pairs of join partners makes the search fail as long as merge joins are allowed. *)
Theorem C116_two_partners_refuted :
  let gen joins := generate (fun S => length S) ncost (fun _ => None) (fun t => [t]) (fun c => [c]) njoin (fun l => [l]) (fun _ => [(0, 1); (2, 1)]) (fun c => if c =? 1 then 1 else 0) nscans joins true true 0 (fun _ => 1) nwork [0; 1] in
  gen nall = Raise AttributeError /\ exists p, gen [NLJ; HashJ] = Ok p.
Proof. split; [vm_compute; reflexivity|]. eexists. vm_compute. reflexivity. Qed.
(** With the cost model of PostgreSQL, of two scans of different indexes the first one is returned with the cost of the last one. *)
Definition two_indexes : res (ri nat (list (nat * nat)) nat) :=
  join_search (fun S => length S) ncost (fun _ => None) (fun t => [0; 1]) (fun c => [c]) njoin nparts (fun l => l) (fun c => c) [IdxScan] nall true true 0 (fun _ => 1) nwork [0].
Definition pg_cost (c : cand nat (list (nat * nat)) nat) : Q := match c with CPlan (PScan _ _ (Some (0, _)) _ _ _) => 100%Q | CPlan _ => 10%Q | CGather _ _ => 1000%Q end.
Theorem C116_choice_refuted : exists r c c' cs, two_indexes = Ok r /\ candidates r = Ok cs /\ choose pg_cost r = Ok c /\ In c' cs /\ (pg_cost c' < pg_cost c)%Q.
Proof.
  eexists. eexists. eexists. eexists. split; [vm_compute; reflexivity|]. split; [vm_compute; reflexivity|]. split; [vm_compute; reflexivity|]. split; [right; left; reflexivity|]. vm_compute. reflexivity.
Qed.
Print Assumptions C114_infinite_refuted.
Print Assumptions C115_fuzz_refuted.
Print Assumptions C115_workers_refuted.
Print Assumptions C116_nested_refuted.
Print Assumptions C116_empty_table_refuted.
Print Assumptions C116_two_partners_refuted.
Print Assumptions C116_choice_refuted.
