From Coq Require Import List Bool Arith Lia Sorting.Sorted Sorting.Permutation.
From Verif Require Import PyBase FSet Collections_model Collections_spec Collections_proofs DP_model DP_spec QPred_spec.
Import ListNotations.

(** ** Hanging together *)
Section Conn.
  Context (R : nat -> nat -> Prop) (Rsym : forall x y, R x y -> R y x).
  Lemma chain_In ns x y : chain R ns x y -> In x ns /\ In y ns.
  Proof. induction 1 as [x H|x y z H IH Hr Hz]; [auto|]. tauto. Qed.
  Lemma chain_trans ns x y z : chain R ns x y -> chain R ns y z -> chain R ns x z.
  Proof. intros H1 H2. revert H1. induction H2 as [y Hy|y u z H2 IH Hr Hz]; intros H1; [assumption|]. exact (chain_step R ns x u z (IH H1) Hr Hz). Qed.
  Lemma chain_sym ns x y : chain R ns x y -> chain R ns y x.
  Proof.
    induction 1 as [x H|x y z H IH Hr Hz]; [now constructor|]. eapply chain_trans; [|exact IH]. eapply chain_step; [apply chain_refl; assumption|now apply Rsym|]. apply chain_In in H. tauto.
  Qed.
  Lemma chain_incl ns ms x y : incl ns ms -> chain R ns x y -> chain R ms x y.
  Proof. intros Hi. induction 1 as [x H|x y z H IH Hr Hz]; [constructor; auto|]. eapply chain_step; eauto. Qed.
  Lemma hang_seteq S T : seteq S T -> hangs_together R S -> hangs_together R T.
  Proof. intros E H x y Hx Hy. apply (chain_incl S); [intros z Hz; now apply E|]. apply H; now apply E. Qed.
  Lemma hang_single x : hangs_together R [x].
  Proof. intros a b [<-|[]] [<-|[]]. constructor. now left. Qed.
  (** A set that hangs together has a link across every split. *)
  Lemma crossing S (A : list nat) : hangs_together R S -> forall a b, In a S -> In a A -> In b S -> ~ In b A -> exists x y, In x S /\ In x A /\ In y S /\ ~ In y A /\ R x y.
  Proof.
    intros H a b Ha HaA Hb HbA. specialize (H a b Ha Hb). clear Ha Hb. induction H as [x Hx|x y z H IH Hr Hz]; [contradiction|].
    destruct (in_dec Nat.eq_dec y A) as [Hy|Hy]; [|auto]. apply chain_In in H. exists y, z. tauto.
  Qed.
  Lemma hang_join A B a b : hangs_together R A -> hangs_together R B -> In a A -> In b B -> R a b -> hangs_together R (A ++ B).
  Proof.
    intros HA HB Ha Hb Hab. assert (IA : incl A (A ++ B)) by (apply incl_appl, incl_refl). assert (IB : incl B (A ++ B)) by (apply incl_appr, incl_refl).
    assert (Hc : chain R (A ++ B) a b) by (eapply chain_step; [apply chain_refl|exact Hab|]; auto).
    assert (Ha' : forall x, In x (A ++ B) -> chain R (A ++ B) a x).
    { intros x Hx. apply in_app_or in Hx as [Hx|Hx]; [apply (chain_incl A); auto|]. eapply chain_trans; [exact Hc|]. apply (chain_incl B); auto. }
    intros x y Hx Hy. eapply chain_trans; [apply chain_sym|]; apply Ha'; assumption.
  Qed.
  Lemma grow S : hangs_together R S -> NoDup S -> forall k, 1 <= k <= length S -> exists A, incl A S /\ NoDup A /\ length A = k /\ hangs_together R A.
  Proof.
    intros HS Hnd k. induction k as [|k IH]; [lia|]. intros Hk. destruct (Nat.eq_dec k 0) as [->|Hk0].
    - destruct S as [|x S]; [cbn in Hk; lia|]. exists [x]. repeat split; [intros y [<-|[]]; now left|constructor; [easy|constructor]|apply hang_single].
    - destruct IH as (A & HiA & HnA & HlA & HA); [lia|]. 
      assert (Hb : exists b, In b S /\ ~ In b A).
      { destruct (Forall_Exists_dec (fun x => In x A) (fun x => in_dec Nat.eq_dec x A) S) as [H|H].
        - rewrite Forall_forall in H. pose proof (NoDup_incl_length Hnd H). lia.
        - apply Exists_exists in H as (b & Hb & Hn). eauto. }
      destruct Hb as (b & Hb & HbA). destruct A as [|a0 A']; [cbn in HlA; lia|]. set (A := a0 :: A') in *.
      destruct (crossing S A HS a0 b) as (x & y & Hx & HxA & Hy & HyA & Hr); [apply HiA; now left|now left|assumption|assumption|].
      exists (y :: A). split; [intros z [<-|Hz]; auto|]. split; [now constructor|]. split; [cbn [length]; lia|].
      apply (hang_seteq (A ++ [y])); [intros z; rewrite in_app_iff; cbn; tauto|]. eapply hang_join; [exact HA|apply hang_single|exact HxA|now left|exact Hr].
  Qed.
  (** A table can be taken away such that the others still hang together. *)
  Lemma peel S : hangs_together R S -> NoDup S -> 2 <= length S -> exists v A, In v S /\ ~ In v A /\ A <> [] /\ hangs_together R A /\ NoDup A /\ seteq S (v :: A).
  Proof.
    intros HS Hnd Hl. destruct (grow S HS Hnd (length S - 1)) as (A & HiA & HnA & HlA & HA); [lia|].
    assert (Hb : exists b, In b S /\ ~ In b A).
    { destruct (Forall_Exists_dec (fun x => In x A) (fun x => in_dec Nat.eq_dec x A) S) as [H|H].
      - rewrite Forall_forall in H. pose proof (NoDup_incl_length Hnd H). lia.
      - apply Exists_exists in H as (b & Hb & Hn). eauto. }
    destruct Hb as (v & Hv & HvA). exists v, A. repeat split; try assumption; [intros ->; cbn in HlA; lia| |intros [<-|H]; auto].
    intros Hx. assert (Hinc : incl S (v :: A)); [|auto]. apply NoDup_length_incl; [now constructor|cbn; lia|]. intros z [<-|Hz]; auto.
  Qed.
End Conn.

Lemma filter_sorted (f : nat -> bool) l : StronglySorted lt l -> StronglySorted lt (filter f l).
Proof.
  induction 1 as [|x l Hl IH Hx]; cbn; [constructor|]. destruct (f x); [|assumption]. constructor; [assumption|]. apply Forall_forall. intros y Hy. apply filter_In in Hy. rewrite Forall_forall in Hx. apply Hx. tauto.
Qed.
Lemma NoDup_seteq_length (l m : list nat) : NoDup l -> NoDup m -> seteq l m -> length l = length m.
Proof. intros H1 H2 E. apply Nat.le_antisymm; apply NoDup_incl_length; try assumption; intros x; apply E. Qed.
Lemma sublist_NoDup {T} (s l : list T) : sublist s l -> NoDup l -> NoDup s.
Proof.
  induction 1 as [|x s l H IH|x s l H IH]; intros Hn; [constructor| |]; inversion Hn as [|? ? Hx Hn']; subst; [|auto].
  constructor; [|auto]. intros Hin. apply Hx. eapply sublist_In; eassumption.
Qed.

Section DPP.
  Context {C N P I K : Type}.
  Notation qp := (qp C N P I K).
  Context (opt : Prop) (clt : C -> C -> bool) (Hclt0 : opt -> cost_order clt).
  Context (card : list nat -> N) (cost : qp -> C).
  Context (filters_for : nat -> option P) (used_columns : nat -> list K) (indexes_on : K -> list I).
  Context (joins_between : list nat -> list nat -> option P) (joins_tables : list nat -> bool).
  Context (scan_ops : list dscan) (join_ops : list djoin).
  Context (iter : list nat -> list nat) (Hiter : forall S, S = mkfs S -> Permutation (iter S) S).
  Context (R : nat -> nat -> Prop) (Rsym : forall x y, R x y -> R y x).
  Context (tabs : list nat) (Hnd : NoDup tabs).
  Context (Hjt : forall j, sublist j tabs -> 2 <= length j -> (joins_tables j = true <-> hangs_together R j)).

  Definition considered (op : djoin) : Prop := In op join_ops /\ op <> IdxNLJ.
  Notation scan_option := (scan_option used_columns indexes_on scan_ops).
  Notation xplan := (xplan card cost filters_for used_columns indexes_on joins_between scan_ops R considered).
  Notation calc := (calc_estimates card cost).
  Notation annotated := (annotated card cost).
  Notation no_dearer := (no_dearer (C:=C) (N:=N) (P:=P) (I:=I) (K:=K) clt).
  Notation base_candidates := (base_candidates filters_for used_columns indexes_on scan_ops).
  Notation split_candidates := (split_candidates (C:=C) (N:=N) (I:=I) (K:=K) joins_between join_ops).
  Notation cheapest_path := (cheapest_path clt card cost joins_between join_ops iter).
  Context (Hmono : opt -> monotone card cost filters_for used_columns indexes_on joins_between scan_ops clt R considered).

  (** ** Costs *)
  Lemma no_dearer_trans (Hclt : cost_order clt) p q r : no_dearer p q -> no_dearer q r -> no_dearer p r.
  Proof.
    unfold DP_spec.no_dearer. destruct (e_cost (qp_est p)), (e_cost (qp_est q)), (e_cost (qp_est r)); try contradiction. intros H1 H2. destruct Hclt as [_ Hn]. eapply Hn; eassumption.
  Qed.
  Lemma no_dearer_refl (Hclt : cost_order clt) p : e_cost (qp_est p) <> None -> no_dearer p p.
  Proof.
    unfold DP_spec.no_dearer. destruct (e_cost (qp_est p)) as [c|]; [|congruence]. intros _. destruct (clt c c) eqn:E; [|reflexivity]. destruct Hclt as [Ha _]. rewrite (Ha _ _ E) in E. discriminate.
  Qed.
  Lemma cheapest_min (Hclt : cost_order clt) x l : (forall y, In y (x :: l) -> e_cost (qp_est y) <> None) ->
    let b := fold_left (fun best p => if costs_less clt p best then p else best) l x in forall q, In q (x :: l) -> no_dearer b q.
  Proof.
    intros Hc.
    assert (G : forall r seen b, In b seen -> (forall y, In y (seen ++ r) -> e_cost (qp_est y) <> None) -> (forall y, In y seen -> no_dearer b y) ->
      let b' := fold_left (fun best p => if costs_less clt p best then p else best) r b in forall y, In y (seen ++ r) -> no_dearer b' y).
    { induction r as [|z r IH]; intros seen b Hb Hcost Hall; cbn [fold_left].
      - rewrite app_nil_r. auto.
      - replace (seen ++ z :: r) with ((seen ++ [z]) ++ r) in * by now rewrite <- app_assoc.
        assert (Cz : e_cost (qp_est z) <> None) by (apply Hcost; apply in_or_app; left; apply in_or_app; right; now left).
        assert (Cb : e_cost (qp_est b) <> None) by (apply Hcost; apply in_or_app; left; apply in_or_app; now left).
        apply IH; [|assumption|].
        + destruct (costs_less clt z b); apply in_or_app; [right; now left|now left].
        + assert (Hzb : no_dearer (if costs_less clt z b then z else b) b /\ no_dearer (if costs_less clt z b then z else b) z).
          { unfold costs_less, DP_spec.no_dearer. pose proof (no_dearer_refl Hclt z Cz) as Rz. pose proof (no_dearer_refl Hclt b Cb) as Rb. unfold DP_spec.no_dearer in Rz, Rb.
            destruct (e_cost (qp_est z)) as [cz|] eqn:Ez; [|congruence]. destruct (e_cost (qp_est b)) as [cb|] eqn:Eb; [|congruence].
            destruct Hclt as [Ha _]. destruct (clt cz cb) eqn:E; rewrite ?Ez, ?Eb; split; auto. }
          intros y Hy. apply in_app_or in Hy as [Hy|[<-|[]]]; [|tauto]. exact (no_dearer_trans Hclt _ _ _ (proj1 Hzb) (Hall y Hy)). }
    apply (G l [x] x); [now left|exact Hc|]. intros y [<-|[]]. apply no_dearer_refl; [assumption|]. apply Hc. now left.
  Qed.
  Lemma cheapest_mem (l : list qp) : forall x, In (fold_left (fun best p => if costs_less clt p best then p else best) l x) (x :: l).
  Proof.
    induction l as [|z l IH]; intros x; cbn [fold_left]; [now left|]. destruct (IH (if costs_less clt z x then z else x)) as [H|H]; [|right; now right].
    rewrite <- H. destruct (costs_less clt z x); [right; now left|now left].
  Qed.
  Lemma cheapest_ok (l : list qp) : l <> [] -> (forall x, In x l -> e_cost (qp_est x) <> None) -> exists p, cheapest clt l = Ok p /\ In p l /\ (opt -> forall q, In q l -> no_dearer p q).
  Proof.
    intros Hne Hc. destruct l as [|x l]; [contradiction|]. clear Hne. cbn [cheapest]. eexists. split; [reflexivity|]. split; [apply cheapest_mem|]. intros Ho. apply cheapest_min; auto.
  Qed.
  Lemma cheapest_inv (l : list qp) p : cheapest clt l = Ok p -> l <> [].
  Proof. destruct l; [discriminate|discriminate]. Qed.

  (** ** Annotations *)
  Lemma leaves_set (p : qp) e : qp_leaves (qp_set p e) = qp_leaves p.
  Proof. now destruct p. Qed.
  Lemma tables_set (p : qp) e : qp_tables (qp_set p e) = qp_tables p.
  Proof. unfold qp_tables. now rewrite leaves_set. Qed.
  Lemma set_set (p : qp) e f : qp_set (qp_set p e) f = qp_set p f.
  Proof. now destruct p. Qed.
  Lemma est_set (p : qp) e : qp_est (qp_set p e) = e.
  Proof. now destruct p. Qed.
  Lemma calc_eq (p : qp) : qp_est p = noest -> calc p = qp_set p (mkest (Some (card (qp_tables p))) (Some (cost (qp_set p (mkest (Some (card (qp_tables p))) None))))).
  Proof. intros E. unfold calc_estimates. rewrite E. cbn [e_cost noest]. rewrite est_set, set_set. reflexivity. Qed.
  Lemma calc_annotated (p : qp) : qp_est p = noest -> annotated (calc p).
  Proof. intros E. unfold DP_spec.annotated. rewrite calc_eq by assumption. rewrite est_set, tables_set, set_set. reflexivity. Qed.
  Lemma calc_tables (p : qp) : qp_tables (calc p) = qp_tables p.
  Proof. unfold calc_estimates. now rewrite !tables_set. Qed.
  Lemma calc_cost (p : qp) : e_cost (qp_est (calc p)) <> None.
  Proof. unfold calc_estimates. rewrite est_set. discriminate. Qed.
  Lemma xplan_annotated p : xplan p -> annotated p.
  Proof. destruct 1; assumption. Qed.
  Lemma annotated_ext (p : qp) e e' : annotated (qp_set p e) -> annotated (qp_set p e') -> e = e'.
  Proof. unfold DP_spec.annotated. rewrite !est_set, !tables_set, !set_set. congruence. Qed.

  Lemma calc_unique (p : qp) e : qp_est p = noest -> annotated (qp_set p e) -> calc p = qp_set p e.
  Proof. intros E. unfold DP_spec.annotated. rewrite est_set, tables_set, set_set. intros ->. now apply calc_eq. Qed.

  (** ** Base tables *)
  Lemma dscan_eqb_iff a b : dscan_eqb a b = true <-> a = b.
  Proof. destruct a, b; cbn; split; congruence. Qed.
  Lemma djoin_eqb_iff a b : djoin_eqb a b = true <-> a = b.
  Proof. destruct a, b; cbn; split; congruence. Qed.
  Lemma has_scan_iff op : has_scan scan_ops op = true <-> In op scan_ops.
  Proof. unfold has_scan. rewrite existsb_exists. split; [intros (x & Hx & E); apply dscan_eqb_iff in E; now subst|]. intros H. exists op. split; [assumption|now apply dscan_eqb_iff]. Qed.
  Lemma has_join_iff op : has_join join_ops op = true <-> In op join_ops.
  Proof. unfold has_join. rewrite existsb_exists. split; [intros (x & Hx & E); apply djoin_eqb_iff in E; now subst|]. intros H. exists op. split; [assumption|now apply djoin_eqb_iff]. Qed.
  Lemma In_if {T} (b : bool) (x y : T) : In x (if b then [y] else []) <-> b = true /\ x = y.
  Proof. destruct b; cbn; intuition congruence. Qed.
  Lemma base_candidates_iff t (p : qp) : In p (base_candidates t) <-> exists op ix bm, scan_option t op ix bm /\ p = QScan op t ix bm (filters_for t) noest.
  Proof.
    unfold DP_model.base_candidates, index_paths. rewrite in_app_iff, In_if, has_scan_iff. set (cols := used_columns t).
    assert (Hidx : In p (match cols with [] => [] | _ :: _ => flat_map (fun c => flat_map (fun ix =>
               (if has_scan scan_ops IdxScan then [QScan IdxScan t (Some (c, ix)) [] (filters_for t) noest] else []) ++
               (if (length cols <=? 1) && has_scan scan_ops IdxOnlyScan then [QScan IdxOnlyScan t (Some (c, ix)) [] (filters_for t) noest] else [])) (indexes_on c)) cols
           ++ (if has_scan scan_ops BmpScan then [QScan BmpScan t None cols (filters_for t) noest] else []) end) <->
      (exists c ix, In c cols /\ In ix (indexes_on c) /\ ((In IdxScan scan_ops /\ p = QScan IdxScan t (Some (c, ix)) [] (filters_for t) noest) \/ (length cols <= 1 /\ In IdxOnlyScan scan_ops /\ p = QScan IdxOnlyScan t (Some (c, ix)) [] (filters_for t) noest)))
      \/ (cols <> [] /\ In BmpScan scan_ops /\ p = QScan BmpScan t None cols (filters_for t) noest)).
    { destruct cols as [|c0 cs] eqn:Ec.
      - split; [contradiction|]. intros [(c & ix & [] & _)|[H _]]; congruence.
      - rewrite <- Ec at 1 2 3 4. rewrite in_app_iff, in_flat_map, In_if, has_scan_iff. rewrite Ec. split.
        + intros [(c & Hc & H)|H]; [left|right; split; [discriminate|assumption]]. apply in_flat_map in H as (ix & Hix & H). exists c, ix. split; [assumption|]. split; [assumption|].
          apply in_app_or in H as [H|H]; apply In_if in H as [H E]; [left; apply has_scan_iff in H; auto|right]. apply andb_true_iff in H as [H1 H2]. apply Nat.leb_le in H1. apply has_scan_iff in H2. auto.
        + intros [(c & ix & Hc & Hix & H)|[_ H]]; [left|right; assumption]. exists c. split; [assumption|]. apply in_flat_map. exists ix. split; [assumption|]. apply in_or_app.
          destruct H as [[H E]|(H1 & H2 & E)]; [left; apply In_if; split; [now apply has_scan_iff|assumption]|right; apply In_if; split; [|assumption]]. apply andb_true_iff. split; [now apply Nat.leb_le|now apply has_scan_iff]. }
    rewrite Hidx. split.
    - intros [[H ->]|[(c & ix & Hc & Hix & [[H ->]|(H1 & H2 & ->)])|(H1 & H2 & ->)]]; eexists _, _, _; (split; [|reflexivity]).
      + now constructor.
      + now constructor.
      + constructor; [assumption| |assumption]. unfold cols in *. destruct (used_columns t) as [|c1 [|c2 cs]]; cbn in H1, Hc; [contradiction| |lia]. destruct Hc as [->|[]]. reflexivity.
      + now constructor.
    - intros (op & ix & bm & H & ->). destruct H as [H|c ix H1 H2 H3|c ix H1 H2 H3|H1 H2]; [left; auto|right; left; exists c, ix; auto|right; left; exists c, ix|right; right; auto].
      split; [unfold cols; rewrite H2; now left|]. split; [assumption|]. right. split; [unfold cols; rewrite H2; reflexivity|auto].
  Qed.

  (** ** Properties of plans *)
  Lemma xplan_hangs p : xplan p -> hangs_together R (qp_tables p) /\ NoDup (qp_leaves p) /\ qp_leaves p <> [].
  Proof.
    induction 1 as [t op ix bm e Hs Ha|op o i e a b Ho IHo Hi IHi Hd Hao Hbi Hr Hop Ha].
    - cbn. split; [apply hang_single|]. split; [constructor; [easy|constructor]|discriminate].
    - destruct IHo as (H1 & N1 & E1). destruct IHi as (H2 & N2 & E2). cbn [qp_leaves]. split; [|split].
      + unfold qp_tables in *. cbn [qp_leaves]. apply (hang_seteq R (mkfs (qp_leaves o) ++ mkfs (qp_leaves i))).
        * intros x. rewrite mkfs_In, !in_app_iff, !mkfs_In. reflexivity.
        * apply (hang_join R Rsym _ _ a b); try assumption; now apply mkfs_In.
      + clear - N1 N2 Hd. induction (qp_leaves o) as [|x l IH]; cbn; [assumption|]. inversion N1 as [|? ? Hx N1']; subst. constructor.
        * rewrite in_app_iff. intros [H|H]; [contradiction|]. apply (Hd x); [now left|assumption].
        * apply IH; try assumption. intros y Hy. apply Hd. now right.
      + intros E. apply app_eq_nil in E. tauto.
  Qed.
  Lemma xplan_cost p : xplan p -> e_cost (qp_est p) <> None.
  Proof. intros H. rewrite (xplan_annotated p H). discriminate. Qed.

  (** ** The table *)
  Definition good (k : nat) (dp : dptable (C:=C) (N:=N) (P:=P) (I:=I) (K:=K)) : Prop :=
    (forall S p, dget dp S = Some p -> S = mkfs S /\ xplan p /\ qp_tables p = S /\ incl S tabs /\ length S <= k /\ (opt -> forall q, xplan q -> qp_tables q = S -> no_dearer p q)) /\
    (forall S, S = mkfs S -> incl S tabs -> 1 <= length S <= k -> hangs_together R S -> exists p, dget dp S = Some p).

  Lemma mkfs1 (t : nat) : mkfs [t] = [t]. Proof. reflexivity. Qed.
  Lemma best_scan t : (exists op ix bm, scan_option t op ix bm) -> exists p, cheapest clt (map calc (base_candidates t)) = Ok p.
  Proof.
    intros (op & ix & bm & H). destruct (cheapest_ok (map calc (base_candidates t))) as (p & Hp & _); [|intros x Hx; apply in_map_iff in Hx as (y & <- & _); apply calc_cost|eauto].
    intros E. assert (Hin : In (calc (QScan op t ix bm (filters_for t) noest)) (map calc (base_candidates t))) by (apply in_map, base_candidates_iff; eauto). rewrite E in Hin. destruct Hin.
  Qed.
  Lemma best_scan_ok t p : cheapest clt (map calc (base_candidates t)) = Ok p -> xplan p /\ qp_tables p = [t] /\ (opt -> forall q, xplan q -> qp_tables q = [t] -> no_dearer p q).
  Proof.
    intros Hp. destruct (cheapest_ok (map calc (base_candidates t))) as (p' & Hp' & Hin & Hall); [eapply cheapest_inv; eassumption|intros x Hx; apply in_map_iff in Hx as (y & <- & _); apply calc_cost|].
    rewrite Hp in Hp'. injection Hp' as <-. apply in_map_iff in Hin as (c & <- & Hc). apply base_candidates_iff in Hc as (op & ix & bm & Hs & ->). split; [|split].
    - pose proof (calc_annotated (QScan op t ix bm (filters_for t) noest) eq_refl) as Ha. rewrite calc_eq in * by reflexivity. cbn [qp_set] in *. now constructor.
    - rewrite calc_tables. reflexivity.
    - intros Hopt q Hq Eq. specialize (Hall Hopt). destruct Hq as [u op' ix' bm' e Hs' Ha|op' o i e a b Ho Hi Hd Hao Hbi Hr Hop Ha].
      + cbn in Eq. injection Eq as ->. assert (Hin : In (calc (QScan op' t ix' bm' (filters_for t) noest)) (map calc (base_candidates t))) by (apply in_map, base_candidates_iff; eauto).
        specialize (Hall _ Hin). rewrite (calc_unique (QScan op' t ix' bm' (filters_for t) noest) e eq_refl Ha) in Hall. exact Hall.
      + exfalso. unfold qp_tables in Eq. cbn [qp_leaves] in Eq. assert (Ht : forall x, In x (qp_leaves o ++ qp_leaves i) -> x = t).
        { intros x Hx. apply mkfs_In in Hx. rewrite Eq in Hx. destruct Hx as [->|[]]. reflexivity. }
        pose proof (Ht a (in_or_app _ _ _ (or_introl Hao))). pose proof (Ht b (in_or_app _ _ _ (or_intror Hbi))). subst. apply (Hd t); assumption.
  Qed.
  Lemma base_paths_ok ts : forall dp, (forall t, In t ts -> exists op ix bm, scan_option t op ix bm) -> exists dp', base_paths clt card cost filters_for used_columns indexes_on scan_ops ts dp = Ok dp'.
  Proof.
    induction ts as [|t ts IH]; intros dp H; cbn [base_paths]; [eauto|]. destruct (best_scan t) as [p Hp]; [apply H; now left|]. rewrite Hp. cbn [rbind]. apply IH. intros u Hu. apply H. now right.
  Qed.
  Lemma base_paths_spec ts : forall dp dp', base_paths clt card cost filters_for used_columns indexes_on scan_ops ts dp = Ok dp' ->
    (forall S p, dget dp' S = Some p -> dget dp S = Some p \/ exists t, In t ts /\ S = [t] /\ cheapest clt (map calc (base_candidates t)) = Ok p) /\
    (forall t, In t ts -> exists p, dget dp' [t] = Some p) /\ (forall S p, dget dp S = Some p -> exists p', dget dp' S = Some p').
  Proof.
    induction ts as [|t ts IH]; intros dp dp'; cbn [base_paths].
    - intros [= <-]. split; [auto|]. split; [contradiction|eauto].
    - destruct (cheapest clt (map calc (base_candidates t))) as [p|] eqn:E; [|discriminate]. cbn [rbind]. intros H. destruct (IH _ _ H) as (H1 & H2 & H3). rewrite mkfs1 in *. split; [|split].
      + intros S q Hq. destruct (H1 S q Hq) as [Hd|(u & Hu & -> & Hc)]; [|right; exists u; split; [now right|auto]]. rewrite dset_spec in Hd. destruct (eqd S [t]) as [Es|Es]; [|auto].
        subst. injection Hd as <-. right. exists t. split; [now left|auto].
      + intros u [<-|Hu]; [|auto]. apply (H3 [t] p). apply dset_same.
      + intros S q Hq. destruct (dget (dset dp [t] p) S) as [q'|] eqn:Ed; [eauto|]. rewrite dset_spec in Ed. destruct (eqd S [t]); congruence.
  Qed.
  Lemma base_good dp : base_paths clt card cost filters_for used_columns indexes_on scan_ops tabs [] = Ok dp -> good 1 dp.
  Proof.
    intros H. destruct (base_paths_spec _ _ _ H) as (H1 & H2 & _). split.
    - intros S p Hp. destruct (H1 S p Hp) as [Hd|(t & Ht & -> & Hc)]; [discriminate|]. destruct (best_scan_ok t p Hc) as (X1 & X2 & X3). split; [reflexivity|]. split; [assumption|]. split; [assumption|]. split; [intros x [<-|[]]; assumption|]. split; [cbn; lia|assumption].
    - intros S Hs Hi Hl _. destruct S as [|t [|u S]]; cbn in Hl; try lia. apply H2. apply Hi. now left.
  Qed.

  (** ** One intermediate *)
  Lemma split_In dp S s c : In c (split_candidates dp S s) <-> exists op o i, s <> [] /\ length s <> length S /\ considered op /\
    dget dp (mkfs s) = Some o /\ dget dp (filter (fun x => negb (mem x (mkfs s))) S) = Some i /\ c = QJoin op (joins_between (mkfs s) (filter (fun x => negb (mem x (mkfs s))) S)) o i noest.
  Proof.
    unfold DP_model.split_candidates. destruct (Nat.eqb_spec (length s) 0) as [E|E]; cbn [orb].
    { split; [contradiction|]. intros (op & o & i & Hne & _). destruct s; [contradiction|discriminate]. }
    destruct (Nat.eqb_spec (length s) (length S)) as [F|F]; [split; [contradiction|]; intros (op & o & i & _ & Hne & _); contradiction|].
    set (B := filter (fun x => negb (mem x (mkfs s))) S). destruct (dget dp (mkfs s)) as [o|]; [|split; [contradiction|]; intros (op & o & i & _ & _ & _ & H & _); discriminate].
    destruct (dget dp B) as [i|]; [|split; [contradiction|]; intros (op & o' & i & _ & _ & _ & _ & H & _); discriminate].
    rewrite in_flat_map. split.
    - intros (op & Hop & Hc). apply In_if in Hc as [Hj ->]. exists op, o, i. split; [intros ->; cbn in E; lia|]. split; [assumption|]. split; [|auto]. apply has_join_iff in Hj. split; [assumption|].
      intros ->. cbn in Hop. intuition discriminate.
    - intros (op & o' & i' & _ & _ & [Hj Hn] & [= <-] & [= <-] & ->). exists op. split; [destruct op; cbn; auto; congruence|]. apply In_if. split; [now apply has_join_iff|reflexivity].
  Qed.
  Section Level.
    Context (k : nat) (dp : dptable (C:=C) (N:=N) (P:=P) (I:=I) (K:=K)) (Hk : 1 <= k) (Hgood : good k dp).
    Context (S : list nat) (HS : S = mkfs S) (Hlen : length S = Datatypes.S k) (Hin : incl S tabs) (HcS : hangs_together R S).
    Notation cands := (flat_map (split_candidates dp S) (powerset (iter S))).
    Lemma S_NoDup : NoDup S. Proof. rewrite HS. apply mkfs_NoDup. Qed.
    (** A split of [S] into two sets that are in the table is considered. *)
    Lemma split_considered A B o i op : A = mkfs A -> B = mkfs B -> A <> [] -> B <> [] -> (forall x, In x S <-> In x A \/ In x B) -> (forall x, In x A -> ~ In x B) ->
      dget dp A = Some o -> dget dp B = Some i -> considered op -> In (QJoin op (joins_between A B) o i noest) cands.
    Proof.
      intros EA EB HA HB Hun Hdis Ho Hi Hop. apply in_flat_map. set (s := filter (fun x => mem x A) (iter S)). pose proof (Hiter S HS) as Hp.
      assert (Hs : forall x, In x s <-> In x A).
      { intros x. unfold s. rewrite filter_In, mem_In. split; [tauto|]. intros Hx. split; [|assumption]. apply (Permutation_in _ (Permutation_sym Hp)). apply Hun. now left. }
      assert (Es : mkfs s = A) by (rewrite EA; apply mkfs_eq; intros x; apply Hs).
      assert (Eb : filter (fun x => negb (mem x (mkfs s))) S = B).
      { rewrite Es. assert (Hsrt : StronglySorted lt (filter (fun x => negb (mem x A)) S)) by (apply filter_sorted; rewrite HS; apply mkfs_sorted). rewrite <- (mkfs_id _ Hsrt), EB. apply mkfs_eq.
        intros x. rewrite filter_In, negb_true_iff, mem_nIn, Hun. split; [tauto|]. intros Hx. split; [auto|]. intros Ha. exact (Hdis x Ha Hx). }
      exists s. split; [apply powerset_complete, filter_sublist|]. apply split_In. exists op, o, i. rewrite Es, Eb in *.
      split; [intros E; rewrite E in Es; cbn in Es; congruence|]. split; [|auto].
      intros El. destruct B as [|b B']; [contradiction|]. set (B := b :: B') in *. assert (Hb : In b s).
      { assert (Hnds : NoDup s) by (apply NoDup_filter; eapply Permutation_NoDup; [symmetry; exact Hp|apply S_NoDup]).
        apply (NoDup_length_incl Hnds (l' := S)); [lia| |apply Hun; right; now left]. intros x Hx. apply Hs in Hx. apply Hun. now left. }
      apply Hs in Hb. apply (Hdis b Hb). now left.
    Qed.
    Lemma cand_ok c : In c cands -> qp_est c = noest /\ xplan (calc c) /\ qp_tables c = S.
    Proof.
      intros Hc. apply in_flat_map in Hc as (s & Hs & Hc). apply powerset_complete in Hs. apply split_In in Hc as (op & o & i & Hne & Hl & Hop & Ho & Hi & ->).
      set (A := mkfs s) in *. set (B := filter (fun x => negb (mem x A)) S) in *. destruct Hgood as [G1 _]. destruct (G1 _ _ Ho) as (_ & Xo & To & _). destruct (G1 _ _ Hi) as (_ & Xi & Ti & _).
      pose proof (Hiter S HS) as Hp. assert (HsS : forall x, In x s -> In x S) by (intros x Hx; apply (Permutation_in _ Hp); eapply sublist_In; eassumption).
      assert (Hlo : forall x, In x (qp_leaves o) <-> In x A) by (intros x; rewrite <- To; unfold qp_tables; symmetry; apply mkfs_In).
      assert (Hli : forall x, In x (qp_leaves i) <-> In x B) by (intros x; rewrite <- Ti; unfold qp_tables; symmetry; apply mkfs_In).
      assert (HB : forall x, In x B <-> In x S /\ ~ In x A) by (intros x; unfold B; rewrite filter_In, negb_true_iff, mem_nIn; reflexivity).
      assert (Hnds : NoDup s) by (eapply sublist_NoDup; [exact Hs|eapply Permutation_NoDup; [symmetry; exact Hp|apply S_NoDup]]).
      assert (HAs : forall x, In x A <-> In x s) by (intros x; apply mkfs_In).
      assert (Hbex : exists b, In b S /\ ~ In b A).
      { destruct (Forall_Exists_dec (fun x => In x A) (fun x => in_dec Nat.eq_dec x A) S) as [H|H].
        - exfalso. apply Hl. apply NoDup_seteq_length; [assumption|apply S_NoDup|]. rewrite Forall_forall in H. intros x. split; [apply HsS|]. intros Hx. now apply HAs, H.
        - apply Exists_exists in H as (b & Hb & Hn). eauto. }
      destruct Hbex as (b & Hb & HbA). destruct s as [|a s']; [contradiction|]. destruct (crossing R S A HcS a b) as (x & y & Hx & HxA & Hy & HyA & Hr); [apply HsS; now left|apply HAs; now left|assumption|assumption|].
      split; [reflexivity|]. split.
      - pose proof (calc_annotated (QJoin op (joins_between A B) o i noest) eq_refl) as Ha. rewrite calc_eq in * by reflexivity. cbn [qp_set] in *. revert Ha. generalize (mkest (Some (card (qp_tables (QJoin op (joins_between A B) o i noest)))) (Some (cost (QJoin op (joins_between A B) o i (mkest (Some (card (qp_tables (QJoin op (joins_between A B) o i noest)))) None))))).
        rewrite <- To, <- Ti. intros e Ha. apply (xp_join _ _ _ _ _ _ _ _ _ op o i e x y); try assumption.
        + intros z Hz. rewrite Hlo in Hz. rewrite Hli, HB. tauto.
        + now apply Hlo.
        + apply Hli, HB. auto.
      - rewrite HS. unfold qp_tables. cbn [qp_leaves]. apply mkfs_eq. intros z. rewrite in_app_iff, Hlo, Hli, HB. split; [intros [Hz|[Hz _]]; [apply HsS, HAs; assumption|assumption]|].
        intros Hz. destruct (in_dec Nat.eq_dec z A); auto.
    Qed.
    Lemma cand_opt (Hopt : opt) q : xplan q -> qp_tables q = S -> exists c, In c cands /\ no_dearer (calc c) q.
    Proof.
      intros Hq Eq. destruct Hq as [t op ix bm e Hs Ha|op o i e a b Ho Hi Hd Hao Hbi Hr Hop Ha].
      - exfalso. rewrite <- Eq in Hlen. cbn in Hlen. lia.
      - assert (Hsub : forall p, xplan p -> (forall x, In x (qp_tables p) -> In x S) -> (exists x, In x S /\ ~ In x (qp_tables p)) -> exists p', dget dp (qp_tables p) = Some p' /\ xplan p' /\ qp_tables p' = qp_tables p /\ no_dearer p' p).
        { intros p Hp Hsub (z & Hz & Hzp). destruct (xplan_hangs p Hp) as (Hh & _ & Hne). destruct Hgood as [G1 G2]. 
          assert (Hcan : qp_tables p = mkfs (qp_tables p)) by (unfold qp_tables; symmetry; apply mkfs_mkfs).
          destruct (G2 (qp_tables p) Hcan) as [p' Hp']; [intros x Hx; apply Hin; auto| |assumption|].
          - split.
            + destruct (qp_tables p) eqn:Et; [|cbn; lia]. apply (proj1 (mkfs_nil _)) in Et. contradiction.
            + assert (Hlt : length (z :: qp_tables p) <= length S); [|cbn in Hlt; lia]. apply NoDup_incl_length; [constructor; [assumption|unfold qp_tables; apply mkfs_NoDup]|]. intros x [<-|Hx]; auto.
          - exists p'. destruct (G1 _ _ Hp') as (_ & X1 & X2 & _ & _ & X3). split; [assumption|]. split; [assumption|]. split; [assumption|]. apply X3; [assumption|assumption|reflexivity]. }
        assert (Hun : forall x, In x S <-> In x (qp_tables o) \/ In x (qp_tables i)) by (intros x; rewrite <- Eq; unfold qp_tables; rewrite !mkfs_In; cbn [qp_leaves]; apply in_app_iff).
        assert (Hdis : forall x, In x (qp_tables o) -> ~ In x (qp_tables i)) by (intros x; unfold qp_tables; rewrite !mkfs_In; apply Hd).
        assert (Hao' : In a (qp_tables o)) by (unfold qp_tables; now apply mkfs_In). assert (Hbi' : In b (qp_tables i)) by (unfold qp_tables; now apply mkfs_In).
        destruct (Hsub o Ho) as (o' & Ho' & Xo & To & Co); [intros x Hx; apply Hun; auto|exists b; split; [apply Hun; auto|intros H; apply (Hdis b); assumption]|].
        destruct (Hsub i Hi) as (i' & Hi' & Xi & Ti & Ci); [intros x Hx; apply Hun; auto|exists a; split; [apply Hun; auto|intros H; apply (Hdis a); assumption]|].
        exists (QJoin op (joins_between (qp_tables o) (qp_tables i)) o' i' noest).
        assert (Hc : In (QJoin op (joins_between (qp_tables o) (qp_tables i)) o' i' noest) cands).
        { apply split_considered; try assumption; try (unfold qp_tables; symmetry; apply mkfs_mkfs); intros E; rewrite E in *; contradiction. }
        split; [assumption|]. destruct (cand_ok _ Hc) as (_ & Xc & _). rewrite calc_eq in * by reflexivity. cbn [qp_set] in *. revert Xc.
        generalize (mkest (Some (card (qp_tables (QJoin op (joins_between (qp_tables o) (qp_tables i)) o' i' noest)))) (Some (cost (QJoin op (joins_between (qp_tables o) (qp_tables i)) o' i' (mkest (Some (card (qp_tables (QJoin op (joins_between (qp_tables o) (qp_tables i)) o' i' noest)))) None))))). intros e' Xc.
        assert (Ej : joins_between (qp_tables o') (qp_tables i') = joins_between (qp_tables o) (qp_tables i)) by now rewrite To, Ti.
        pose proof (Hmono Hopt op o' o i' i e' e) as Hm. cbv beta zeta in Hm. rewrite Ej in Hm. apply Hm; try assumption. apply (xp_join _ _ _ _ _ _ _ _ _ op o i e a b); assumption.
    Qed.
    Lemma cands_exist : (exists op, considered op) -> cands <> [].
    Proof.
      intros [op Hop] E. destruct (peel R Rsym S HcS S_NoDup ltac:(lia)) as (v & A & Hv & HvA & HA & HcA & HnA & Hse). destruct Hgood as [_ G2].
      assert (HlA : length S = Datatypes.S (length A)) by (apply (NoDup_seteq_length S (v :: A)); [apply S_NoDup|now constructor|assumption]).
      destruct (G2 (mkfs A)) as [o Ho]; [symmetry; apply mkfs_mkfs|intros x Hx; apply Hin, Hse; right; now apply mkfs_In| |apply (hang_seteq R A); [intros x; symmetry; apply mkfs_In|assumption]|].
      { rewrite (NoDup_seteq_length (mkfs A) A); [|apply mkfs_NoDup|assumption|intros x; apply mkfs_In]. lia. }
      destruct (G2 [v]) as [i Hi]; [reflexivity|intros x [<-|[]]; now apply Hin|cbn; lia|apply hang_single|].
      assert (Hc : In (QJoin op (joins_between (mkfs A) [v]) o i noest) cands).
      { apply split_considered; try assumption; try reflexivity; [symmetry; apply mkfs_mkfs|intros F; apply (proj1 (mkfs_nil _)) in F; contradiction|discriminate| |].
        - intros x. rewrite mkfs_In. rewrite (Hse x). cbn. tauto.
        - intros x Hx [<-|[]]. exact (HvA (proj1 (mkfs_In _ _) Hx)). }
      rewrite E in Hc. destruct Hc.
    Qed.
  End Level.

  Lemma cheapest_path_ok k dp j : 1 <= k -> good k dp -> sublist j tabs -> length j = S k -> hangs_together R j -> (exists op, considered op) -> exists p, cheapest_path dp j = Ok p.
  Proof.
    intros Hk Hg Hs Hl Hc Hop. unfold DP_model.cheapest_path. set (S := mkfs j). assert (HS : S = mkfs S) by (unfold S; symmetry; apply mkfs_mkfs).
    assert (Hnj : NoDup j) by (eapply sublist_NoDup; eassumption). assert (Hse : seteq j S) by (intros x; unfold S; symmetry; apply mkfs_In).
    assert (HlS : length S = Datatypes.S k) by (rewrite <- Hl; symmetry; apply NoDup_seteq_length; [assumption|apply mkfs_NoDup|assumption]).
    destruct (cheapest_ok (map calc (flat_map (split_candidates dp S) (powerset (iter S))))) as (p & Hp & _); [|intros x Hx; apply in_map_iff in Hx as (y & <- & _); apply calc_cost|eauto].
    intros E. apply map_eq_nil in E. revert E. eapply cands_exist; try eassumption; [intros x Hx; eapply sublist_In; [eassumption|now apply Hse]|now apply (hang_seteq R j)].
  Qed.
  Lemma cheapest_path_spec k dp j p : 1 <= k -> good k dp -> sublist j tabs -> length j = S k -> hangs_together R j -> cheapest_path dp j = Ok p ->
    xplan p /\ qp_tables p = mkfs j /\ (opt -> forall q, xplan q -> qp_tables q = mkfs j -> no_dearer p q).
  Proof.
    intros Hk Hg Hs Hl Hc. unfold DP_model.cheapest_path. set (S := mkfs j). assert (HS : S = mkfs S) by (unfold S; symmetry; apply mkfs_mkfs).
    assert (Hnj : NoDup j) by (eapply sublist_NoDup; eassumption). assert (Hse : seteq j S) by (intros x; unfold S; symmetry; apply mkfs_In).
    assert (HlS : length S = Datatypes.S k) by (rewrite <- Hl; symmetry; apply NoDup_seteq_length; [assumption|apply mkfs_NoDup|assumption]).
    assert (Hin : incl S tabs) by (intros x Hx; eapply sublist_In; [eassumption|now apply Hse]). assert (HcS : hangs_together R S) by now apply (hang_seteq R j).
    intros Hp. destruct (cheapest_ok (map calc (flat_map (split_candidates dp S) (powerset (iter S))))) as (p' & Hp' & Hpin & Hall); [eapply cheapest_inv; eassumption|intros x Hx; apply in_map_iff in Hx as (y & <- & _); apply calc_cost|].
    rewrite Hp in Hp'. injection Hp' as <-. apply in_map_iff in Hpin as (c & <- & Hcin). destruct (cand_ok k dp Hg S HS HcS c Hcin) as (_ & X & T).
    split; [assumption|]. split; [rewrite calc_tables; assumption|]. intros Hopt q Hq Eq. destruct (cand_opt k dp Hk Hg S HS HlS Hin HcS Hopt q Hq Eq) as (c' & Hc' & Hle) || destruct (cand_opt k dp Hg S HS HlS Hin HcS Hopt q Hq Eq) as (c' & Hc' & Hle).
    eapply no_dearer_trans; [auto|apply (Hall Hopt), in_map; exact Hc'|exact Hle].
  Qed.

  (** ** Levels *)
  Lemma rmapM_ok {A B} (f : A -> res B) l : (forall x, In x l -> exists y, f x = Ok y) -> exists ys, rmapM f l = Ok ys.
  Proof. induction l as [|x l IH]; intros H; cbn; [eauto|]. destruct (H x (or_introl eq_refl)) as [y ->]. cbn. destruct IH as [ys ->]; [intros z Hz; apply H; now right|]. cbn. eauto. Qed.
  Lemma rmapM_In {A B} (f : A -> res B) l : forall ys, rmapM f l = Ok ys -> (forall y, In y ys <-> exists x, In x l /\ f x = Ok y) /\ (forall x, In x l -> exists y, f x = Ok y).
  Proof.
    induction l as [|x l IH]; cbn; intros ys.
    - intros [= <-]. split; [|contradiction]. intros y. split; [contradiction|]. intros (x & [] & _).
    - destruct (f x) as [y0|] eqn:E; [|discriminate]. cbn. destruct (rmapM f l) as [ys'|] eqn:El; [|discriminate]. cbn. intros [= <-]. destruct (IH _ eq_refl) as [H1 H2]. split.
      + intros y. cbn. rewrite H1. split.
        * intros [<-|(z & Hz & Hf)]; [exists x; auto|exists z; auto].
        * intros (z & [<-|Hz] & Hf); [left; congruence|right; eauto].
      + intros z [<-|Hz]; eauto.
  Qed.
  Notation join_level := (join_level clt card cost joins_between joins_tables join_ops iter).
  Lemma level_total k dp : 1 <= k -> good k dp -> (exists op, considered op) -> exists dp', join_level tabs dp (S k) = Ok dp'.
  Proof.
    intros Hk Hg Hop. unfold DP_model.join_level. destruct (rmapM_ok (fun j => rmap (fun p => (mkfs j, p)) (cheapest_path dp j)) (filter joins_tables (combinations (S k) tabs))) as [ys ->]; [|cbn; eauto].
    intros j Hj. apply filter_In in Hj as [Hj Hc]. apply combinations_sublist in Hj as [Hs Hl]. destruct (cheapest_path_ok k dp j) as [p Hp]; try assumption; [apply Hjt; [assumption|lia|assumption]|]. rewrite Hp. cbn. eauto.
  Qed.
  Lemma lastval_In {A B} {EA : EqD A} (l : list (A * B)) x y : lastval l x = Some y -> In (x, y) l.
  Proof.
    induction l as [|[a b] l IH] using rev_ind; [discriminate|]. rewrite lastval_app. cbn. destruct (eqd x a) as [->|]; [intros [= <-]; apply in_or_app; right; now left|]. intros H. apply in_or_app. left. auto.
  Qed.
  Lemma lastval_ex {A B} {EA : EqD A} (l : list (A * B)) x y : In (x, y) l -> exists z, lastval l x = Some z.
  Proof.
    induction l as [|[a b] l IH] using rev_ind; [contradiction|]. rewrite lastval_app. intros H. apply in_app_or in H as [H|[[= -> ->]|[]]]; cbn.
    - destruct (IH H) as [z ->]. destruct (eqd x a); eauto.
    - destruct (eqd x x); [eauto|contradiction].
  Qed.
  Lemma level_good k dp dp' : 1 <= k -> good k dp -> join_level tabs dp (S k) = Ok dp' -> good (S k) dp'.
  Proof.
    intros Hk Hg. unfold DP_model.join_level. destruct (rmapM _ _) as [ys|] eqn:E; [|discriminate]. cbn. intros [= <-]. destruct (rmapM_In _ _ _ E) as [H1 H2].
    assert (Hnew : forall S p, In (S, p) ys -> exists j, S = mkfs j /\ sublist j tabs /\ length j = Datatypes.S k /\ hangs_together R j /\ cheapest_path dp j = Ok p).
    { intros S p Hp. apply H1 in Hp as (j & Hj & Hp). apply filter_In in Hj as [Hj Hc]. apply combinations_sublist in Hj as [Hs Hl]. destruct (cheapest_path dp j) as [p'|] eqn:Ec; [|discriminate]. cbn in Hp. injection Hp as <- <-.
      exists j. repeat split; auto. apply Hjt; [assumption|lia|assumption]. }
    split.
    - intros S p. rewrite fold_dset_spec. destruct (lastval ys S) as [p'|] eqn:El.
      + intros [= <-]. apply lastval_In in El. destruct (Hnew _ _ El) as (j & -> & Hs & Hl & Hc & Hp). destruct (cheapest_path_spec k dp j p') as (X1 & X2 & X3); try assumption.
        split; [symmetry; apply mkfs_mkfs|]. split; [assumption|]. split; [assumption|]. split; [intros x Hx; exact (sublist_In _ _ x Hs (proj1 (mkfs_In _ _) Hx))|]. split; [|assumption].
        rewrite (NoDup_seteq_length (mkfs j) j); [lia|apply mkfs_NoDup|eapply sublist_NoDup; eassumption|intros x; apply mkfs_In].
      + intros Hp. destruct Hg as [G1 _]. destruct (G1 _ _ Hp) as (X1 & X2 & X3 & X4 & X5 & X6). repeat (split; [assumption|]). split; [lia|assumption].
    - intros S HS Hi Hl Hc. rewrite fold_dset_spec. destruct (lastval ys S) as [p'|] eqn:El; [eauto|]. destruct (Nat.eq_dec (length S) (Datatypes.S k)) as [Hk'|Hk'].
      + exfalso. set (j := filter (fun x => mem x S) tabs). assert (Hj : forall x, In x j <-> In x S) by (intros x; unfold j; rewrite filter_In, mem_In; split; [tauto|]; auto).
        assert (Hs : sublist j tabs) by apply filter_sublist. assert (Hmk : mkfs j = S) by (rewrite HS; apply mkfs_eq; intros x; apply Hj).
        assert (Hlj : length j = Datatypes.S k) by (rewrite <- Hk'; apply NoDup_seteq_length; [now apply NoDup_filter|rewrite HS; apply mkfs_NoDup|intros x; apply Hj]).
        assert (Hcj : hangs_together R j) by (apply (hang_seteq R S); [intros x; symmetry; apply Hj|assumption]).
        destruct (H2 j) as [[S' p] Hy]; [apply filter_In; split; [apply combinations_sublist; auto|apply Hjt; [assumption|lia|assumption]]|].
        assert (Hin : In (S, p) ys). { apply H1. exists j. split; [apply filter_In; split; [apply combinations_sublist; auto|apply Hjt; [assumption|lia|assumption]]|]. revert Hy. destruct (cheapest_path dp j) as [pj|]; [|discriminate]. cbn. rewrite Hmk. congruence. }
        destruct (lastval_ex _ _ _ Hin) as [z Hz]. congruence.
      + destruct Hg as [_ G2]. apply G2; auto. lia.
  Qed.
  Notation join_levels := (join_levels clt card cost joins_between joins_tables join_ops iter).
  Lemma levels_good n : forall k dp dp', 1 <= k -> good k dp -> join_levels tabs dp (seq (S k) n) = Ok dp' -> good (k + n) dp'.
  Proof.
    induction n as [|n IH]; intros k dp dp' Hk Hg; cbn [seq DP_model.join_levels].
    - intros [= <-]. now rewrite Nat.add_0_r.
    - destruct (join_level tabs dp (S k)) as [dp1|] eqn:E; [|discriminate]. cbn [rbind]. intros H. replace (k + S n) with (S k + n) by lia. eapply IH; [lia| |exact H]. eapply level_good; eassumption.
  Qed.
  Lemma levels_total n : (exists op, considered op) -> forall k dp, 1 <= k -> good k dp -> exists dp', join_levels tabs dp (seq (S k) n) = Ok dp'.
  Proof.
    intros Hop. induction n as [|n IH]; intros k dp Hk Hg; cbn [seq DP_model.join_levels]; [eauto|].
    destruct (level_total k dp Hk Hg Hop) as [dp1 E]. rewrite E. cbn [rbind]. apply IH; [lia|]. eapply level_good; eassumption.
  Qed.
  Notation generate := (dp_generate clt card cost filters_for used_columns indexes_on joins_between joins_tables scan_ops join_ops iter tabs).
  Lemma generate_spec p : generate = Ok p -> xplan p /\ Permutation (qp_leaves p) tabs /\ (opt -> forall q, xplan q -> seteq (qp_leaves q) tabs -> no_dearer p q).
  Proof.
    unfold dp_generate. destruct (base_paths _ _ _ _ _ _ _ _ _) as [dp0|] eqn:E0; [|discriminate]. cbn [rbind]. destruct (join_levels tabs dp0 (seq 2 (length tabs - 1))) as [dp|] eqn:E1; [|discriminate]. cbn [rbind].
    destruct (dget dp (mkfs tabs)) as [p'|] eqn:Ed; [|discriminate]. intros [= <-]. pose proof (levels_good _ 1 _ _ (Nat.le_refl 1) (base_good _ E0) E1) as [G1 _]. destruct (G1 _ _ Ed) as (_ & X1 & X2 & _ & _ & X3).
    split; [assumption|]. split; [|intros Hopt q Hq Hs; apply X3; [assumption|assumption|]; now apply mkfs_eq].
    apply NoDup_Permutation; [apply (xplan_hangs _ X1)|assumption|]. apply (proj1 (mkfs_eq _ _)). exact X2.
  Qed.
  Lemma generate_total : tabs <> [] -> hangs_together R tabs -> (exists op, considered op) -> (forall t, In t tabs -> exists op ix bm, scan_option t op ix bm) -> exists p, generate = Ok p.
  Proof.
    intros Hne Hc Hop Hsc. unfold dp_generate. destruct (base_paths_ok tabs [] Hsc) as [dp0 E0]. rewrite E0. cbn [rbind]. destruct (levels_total (length tabs - 1) Hop 1 dp0 (Nat.le_refl 1) (base_good _ E0)) as [dp E1]. rewrite E1. cbn [rbind].
    pose proof (levels_good _ 1 _ _ (Nat.le_refl 1) (base_good _ E0) E1) as [_ G2].
    assert (Hlt : length (mkfs tabs) = length tabs) by (apply NoDup_seteq_length; [apply mkfs_NoDup|assumption|intros x; apply mkfs_In]).
    assert (Hl0 : length tabs <> 0) by (destruct tabs; [contradiction|discriminate]).
    destruct (G2 (mkfs tabs)) as [p Hp]; [symmetry; apply mkfs_mkfs|intros x Hx; now apply mkfs_In|lia|apply (hang_seteq R tabs); [intros x; symmetry; apply mkfs_In|assumption]|]. rewrite Hp. eauto.
  Qed.
  (** Without a connection there is no plan. *)
  Lemma generate_disconnected : ~ hangs_together R tabs -> forall p, generate <> Ok p.
  Proof.
    intros Hn p Hp. destruct (generate_spec p Hp) as (X & Hperm & _). apply Hn. apply (hang_seteq R (qp_tables p)); [|apply (xplan_hangs _ X)]. intros x. unfold qp_tables. rewrite mkfs_In. split; apply Permutation_in; [assumption|now symmetry].
  Qed.
End DPP.
Lemma generate_keyerror {C N P I K} (clt : C -> C -> bool) (card : list nat -> N) (cost : qp C N P I K -> C) filters_for used_columns (indexes_on : K -> list I) joins_between joins_tables scan_ops join_ops iter (R : nat -> nat -> Prop) (tabs : list nat) :
  (forall S, S = mkfs S -> Permutation (iter S) S) -> (forall x y, R x y -> R y x) -> NoDup tabs ->
  (forall j, sublist j tabs -> 2 <= length j -> (joins_tables j = true <-> hangs_together R j)) ->
  (exists op, considered join_ops op) -> (forall t, In t tabs -> exists op ix bm, scan_option used_columns indexes_on scan_ops t op ix bm) -> ~ hangs_together R tabs ->
  dp_generate clt card cost filters_for used_columns indexes_on joins_between joins_tables scan_ops join_ops iter tabs = Raise KeyError.
Proof.
  intros Hiter Rsym Hnd Hjt Hop Hsc Hn. set (Fc := False_ind (cost_order clt)). set (Hm := False_ind (monotone card cost filters_for used_columns indexes_on joins_between scan_ops clt R (considered join_ops))).
  pose proof (generate_disconnected False clt Fc card cost filters_for used_columns indexes_on joins_between joins_tables scan_ops join_ops iter Hiter R Rsym tabs Hnd Hjt Hm Hn) as Hno.
  unfold dp_generate in *. destruct (base_paths_ok False clt Fc card cost filters_for used_columns indexes_on scan_ops tabs [] Hsc) as [dp0 E0]. rewrite E0 in *. cbn [rbind] in *.
  pose proof (base_good False clt Fc card cost filters_for used_columns indexes_on joins_between scan_ops join_ops R tabs dp0 E0) as Hg.
  destruct (levels_total False clt Fc card cost filters_for used_columns indexes_on joins_between joins_tables scan_ops join_ops iter Hiter R Rsym tabs Hnd Hjt Hm (length tabs - 1) Hop 1 dp0 (Nat.le_refl 1) Hg) as [dp E1]. rewrite E1 in *. cbn [rbind] in *.
  destruct (dget dp (mkfs tabs)) as [p|]; [|reflexivity]. exfalso. exact (Hno p eq_refl).
Qed.
