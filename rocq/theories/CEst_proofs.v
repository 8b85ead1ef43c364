(** Lemmas for C99-C102. *)
From Coq Require Import List Bool Arith ZArith Lia QArith Lqa.
From Verif Require Import PyBase Collections_model Collections_spec Collections_proofs FSet Pred_model Pred_spec Pred_proofs QPred_model QPred_spec QPred_proofs QPred2_proofs QPred3_proofs QPred_props Card_model Card_proofs Hint_model Hint_proofs DP_proofs JT_model CEst_model CEst_spec.
Import ListNotations.
Local Open Scope nat_scope.

Lemma filterR_ok {A} (f : A -> res bool) (g : A -> bool) l : (forall a, In a l -> f a = Ok (g a)) -> filterR f l = Ok (filter g l).
Proof.
  induction l as [|a l IH]; cbn; intros H; [reflexivity|]. rewrite (H a) by now left. cbn [rbind]. rewrite IH by (intros b Hb; apply H; now right). cbn [rbind]. now destruct (g a).
Qed.
Lemma chain_ext {A} (R : A -> A -> Prop) l m x y : seteq l m -> chain R l x y -> chain R m x y.
Proof. intros H C. induction C as [x Hx|x y z C IH Hr Hz]; [constructor; now apply H|]. apply (chain_step R m x y z); auto. now apply H. Qed.
Lemma connected_ext {E} (ecols : E -> list col) js l m : seteq l m -> tables_connected ecols js l -> tables_connected ecols js m.
Proof. intros H C t u Ht Hu. apply (chain_ext _ l m); [exact H|]. apply C; now apply H. Qed.
Lemma NoDup_map_inj {A B} (f : A -> B) l : NoDup l -> (forall a b, In a l -> In b l -> f a = f b -> a = b) -> NoDup (map f l).
Proof.
  induction 1 as [|a l Ha Hl IH]; cbn; intros H; constructor.
  - intros Hx. apply in_map_iff in Hx as (b & Hb & Hi). apply Ha. rewrite <- (H b a); auto.
  - apply IH. intros; apply H; auto.
Qed.

Section Gen.
  Context {E : Type} (ecols : E -> list col) (tabs : list nat) (Hn : NoDup tabs) (preds : option (list (pred E) * list nat)).
  Lemma generate_with (cross : bool) (g : list nat -> bool) (P : list nat -> Prop) :
    (forall j, sublist j tabs -> j <> [] -> (if cross then Ok true else query_joins ecols preds j) = Ok (g j) /\ (g j = true <-> P j)) ->
    (forall l m, seteq l m -> P l -> P m) ->
    exists l, generate_intermediates ecols tabs preds cross = Ok l /\ NoDup l /\ forall s, In s l <-> exists j, j <> [] /\ incl j tabs /\ NoDup j /\ s = mkfs j /\ P j.
  Proof.
    intros H Hp. unfold generate_intermediates. rewrite (filterR_ok _ (fun j => match j with [] => false | _ => g j end)).
    2:{ intros j Hj. apply powerset_complete in Hj. destruct j as [|a j]; [reflexivity|]. apply H; [exact Hj|discriminate]. }
    cbn [rmap rbind]. eexists. split; [reflexivity|]. split.
    - apply NoDup_map_inj; [apply NoDup_filter, powerset_NoDup, Hn|]. intros a b Ha Hb Hab. apply filter_In in Ha as [Ha _]. apply filter_In in Hb as [Hb _]. apply powerset_complete in Ha. apply powerset_complete in Hb.
      apply (sublist_ext tabs a b Hn Ha Hb). rewrite mkfs_eq in Hab. exact Hab.
    - intros s. rewrite in_map_iff. split.
      + intros (j & <- & Hj). apply filter_In in Hj as [Hj Hg]. apply powerset_complete in Hj. exists j. assert (Hne : j <> []) by (intros ->; discriminate). split; [exact Hne|]. split; [intros x Hx; now apply (sublist_In j tabs x)|]. split; [now apply (sublist_NoDup j tabs)|]. split; [reflexivity|].
        destruct (H j Hj Hne) as [_ <-]. destruct j; [congruence|exact Hg].
      + intros (j & Hne & Hi & Hd & -> & Hj). destruct (powerset_unique tabs (fun x => mem x j) Hn) as (k & (Hk1 & Hk2) & _). assert (S : seteq j k). { intros x. rewrite Hk2, mem_In. split; [intros Hx; split; auto|intros [_ Hx]; exact Hx]. }
        exists k. split; [symmetry; now apply mkfs_eq|]. apply filter_In. split; [exact Hk1|]. assert (Hk : k <> []) by (intros ->; destruct j as [|x j]; [congruence|]; specialize (S x); cbn in S; tauto).
        apply powerset_complete in Hk1. destruct (H k Hk1 Hk) as [_ Hg]. destruct k; [congruence|]. apply Hg. now apply (Hp j).
  Qed.
End Gen.

Section Est.
  Context {W : Type} (est : fs -> res card).
  Lemma cget_nan c f : cget c = Ok f -> (f = FNan <-> c = CNan).
  Proof. destruct c as [| |z]; cbn; intros H; [injection H as <-; tauto|injection H as <-; split; discriminate|]. apply float_of_int_fin in H as (m & e & ->). split; discriminate. Qed.
  Lemma add_ok l : (forall j, In j l -> mkfs j = j /\ exists c f, est j = Ok c /\ cget c = Ok f) -> forall p : pparams card W,
    exists p', add_estimates est l p = Ok p' /\ pp_workers p' = pp_workers p /\ pp_settings p' = pp_settings p /\ pp_mode p' = pp_mode p /\
      forall s, dget (pp_cards p') s = if mem s l then match est s with Ok CNan => dget (pp_cards p) s | Ok c => Some c | Raise _ => None end else dget (pp_cards p) s.
  Proof.
    induction l as [|j l IH]; intros H p; cbn [add_estimates].
    - exists p. repeat split.
    - destruct (H j (or_introl eq_refl)) as (Hj & c & f & E1 & E2). unfold add_estimate. rewrite E1. cbn [rbind]. rewrite E2. cbn [rbind]. destruct (cget_nan c f E2) as [N1 N2].
      assert (Hl : forall j, In j l -> mkfs j = j /\ exists c f, est j = Ok c /\ cget c = Ok f) by (intros k Hk; apply H; now right).
      set (p1 := match f with FNan => p | _ => pp_add_card p j c end). replace (match f with FNan => Ok p | _ => Ok (pp_add_card p j c) end) with (Ok p1) by (unfold p1; now destruct f). cbn [rbind].
      destruct (IH Hl p1) as (p' & -> & A & B & C & D). exists p'. split; [reflexivity|].
      split; [rewrite A; unfold p1; now destruct f|]. split; [rewrite B; unfold p1; now destruct f|]. split; [rewrite C; unfold p1; now destruct f|].
      intros s. rewrite D. assert (P1 : dget (pp_cards p1) s = if eqd s j then match c with CNan => dget (pp_cards p) s | _ => Some c end else dget (pp_cards p) s).
      { unfold p1. destruct f as [|b|m e]; [rewrite (N1 eq_refl); now destruct (eqd s j)| |].
        - cbn [pp_add_card pp_cards]. rewrite dset_spec, Hj. destruct (eqd s j); [|reflexivity]. destruct c; auto. discriminate (N2 eq_refl).
        - cbn [pp_add_card pp_cards]. rewrite dset_spec, Hj. destruct (eqd s j); [|reflexivity]. destruct c; auto. discriminate (N2 eq_refl). }
      rewrite P1. destruct (eqd s j) as [->|Hs].
      + assert (M : mem j (j :: l) = true) by (apply mem_In; now left). rewrite M, E1. destruct (mem j l), c; reflexivity.
      + assert (M : mem s (j :: l) = mem s l) by (unfold mem; cbn [existsb]; unfold deqb at 1; destruct (eqd s j); [contradiction|]; reflexivity). rewrite M. reflexivity.
  Qed.
End Est.

Section Precise.
  Context {Q D : Type} {EQ : EqD Q} (count : D -> Q -> res card) (enabled : bool).
  Lemma session_ok l : forall stale cache d, reset_after_change stale l -> (stale = false -> forall q c, dget cache q = Some c -> count d q = Ok c) ->
    session count enabled cache d l = current count d l.
  Proof.
    induction l as [|[q|d'|] l IH]; intros stale cache d H Hc; cbn [session current] in *; [reflexivity| | |].
    - destruct H as [-> H]. specialize (Hc eq_refl). unfold calculate. destruct (dget cache q) as [c|] eqn:E1.
      + rewrite (Hc q c E1). f_equal. now apply (IH false).
      + destruct (count d q) as [c|e] eqn:E2; cbn [rmap rbind]; f_equal; apply (IH false); auto. intros _ q' c'. rewrite dset_spec. destruct (eqd q' q) as [->|]; [now intros [= <-]|apply Hc].
    - apply (IH true); [exact H|discriminate].
    - apply (IH false); [exact H|discriminate].
  Qed.
  (** Whatever happens, an answer has been right at some time. *)
  Lemma session_past l : forall cache d seen, In d seen -> (forall q c, dget cache q = Some c -> exists d', In d' seen /\ count d' q = Ok c) ->
    Forall (fun '(q, r) => exists d', In d' (seen ++ flat_map (fun x => match x with Change d' => [d'] | _ => [] end) l) /\ count d' q = r)
      (combine (flat_map (fun x : command => match x with Estimate q => [q] | _ => [] end) l) (session count enabled cache d l)).
  Proof.
    induction l as [|[q|d'|] l IH]; intros cache d seen Hd Hc; cbn [session flat_map app combine] in *; [constructor| | |].
    - unfold calculate. destruct (dget cache q) as [c|] eqn:E1; cbn [app combine].
      + constructor; [|now apply IH]. destruct (Hc q c E1) as (d' & A & B). exists d'. split; [apply in_or_app; now left|exact B].
      + destruct (count d q) as [c|e] eqn:E2; cbn [rmap rbind combine]; constructor; try (exists d; split; [apply in_or_app; now left|exact E2]); apply IH; auto.
        intros q' c'. rewrite dset_spec. destruct (eqd q' q) as [->|]; [intros [= <-]; eauto|apply Hc].
    - specialize (IH cache d' (seen ++ [d'])). rewrite <- app_assoc in IH. cbn [app] in IH. apply IH; [apply in_or_app; right; now left|]. intros q c H. destruct (Hc q c H) as (d1 & A & B). exists d1. split; [apply in_or_app; now left|exact B].
    - apply IH; [exact Hd|discriminate].
  Qed.
End Precise.

(** ** Pre-computed cardinalities *)
Definition loaded (t : table) : list sample := map (fun '(l, s, c) => Sample l (CSet s) c) t.
Lemma read_file t : read_csv (as_file t) = Ok (loaded t).
Proof. unfold read_csv, as_file, loaded. induction t as [|[[l s] c] t IH]; cbn; [reflexivity|]. rewrite IH. reflexivity. Qed.
Definition entry (label : nat) (s : fs) (x : nat * fs * card) : bool := let '(l, s', _) := x in (l =? label) && (if eqd s' s then true else false).
Lemma lookup_filter t label s : one_each t ->
  filter (matches label s) (loaded t) = match lookup t label s with Some c => [Sample label (CSet s) c] | None => [] end.
Proof.
  unfold one_each, lookup, loaded. induction t as [|[[l s'] c] t IH]; cbn [map filter find fst]; intros H; [reflexivity|]. inversion H as [|? ? Hx Hn]; subst. unfold matches at 1. cbn [s_label s_tabs]. unfold deqb.
  destruct ((l =? label) && (if eqd s' s then true else false)) eqn:E; [|now apply IH]. apply andb_true_iff in E as [E1 E2]. apply Nat.eqb_eq in E1 as ->. destruct (eqd s' s) as [->|]; [|discriminate]. f_equal. rewrite IH by exact Hn.
  destruct (find _ t) as [[[l' s1] c']|] eqn:F; [|reflexivity]. apply find_some in F as [F1 F2]. apply andb_true_iff in F2 as [F2 F3]. apply Nat.eqb_eq in F2 as ->. destruct (eqd s1 s) as [->|]; [|discriminate]. exfalso. apply Hx. apply in_map_iff. exists (label, s, c'). auto.
Qed.

(** ** Distortion *)
Lemma mul_between z m e lo hi : (Z.abs z < 2 ^ 53)%Z -> (Z.abs (z * fnum m e) < 2 ^ 53 * fden e)%Z -> (lo * fden e <= z * fnum m e <= hi * fden e)%Z ->
  exists c, cop Mul (CVal z) (ONum (NFlt (FFin m e))) = Ok (CVal c) /\ (lo <= c <= hi)%Z.
Proof.
  intros Hz Hb Hl. destruct (float_of_int_small z Hz) as (m0 & e0 & E1 & E2). unfold cop. cbn [cget oget nget]. rewrite E1. cbn [rbind fop fmul]. rewrite E2. pose proof (fden_pos e0) as P0. pose proof (fden_pos e) as P1.
  destruct (card_between (z * fden e0 * fnum m e) (fden e0 * fden e) lo hi) as (c & A & B).
  - apply Z.mul_pos_pos; assumption.
  - replace (z * fden e0 * fnum m e)%Z with (fden e0 * (z * fnum m e))%Z by ring. rewrite Z.abs_mul, (Z.abs_eq (fden e0)) by lia. replace (2 ^ 53 * (fden e0 * fden e))%Z with (fden e0 * (2 ^ 53 * fden e))%Z by ring. apply Z.mul_lt_mono_pos_l; assumption.
  - replace (z * fden e0 * fnum m e)%Z with (fden e0 * (z * fnum m e))%Z by ring. replace (lo * (fden e0 * fden e))%Z with (fden e0 * (lo * fden e))%Z by ring. replace (hi * (fden e0 * fden e))%Z with (fden e0 * (hi * fden e))%Z by ring.
    split; apply Z.mul_le_mono_nonneg_l; lia.
  - exists c. cbn [rmap rbind]. rewrite A. auto.
Qed.
