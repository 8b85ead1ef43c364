From Coq Require Import List Bool Arith ZArith Lia.
From Verif Require Import PyBase Dicts_model.
Import ListNotations.

Section DictProofs.
  Context {K V : Type} {EK : EqD K} {EV : EqD V}.
  Implicit Types a b d : dict K V.

  Lemma difference_get a b k : dget (difference a b) k = if dmem b k then None else dget a k.
  Proof.
    unfold difference. rewrite dget_filter by reflexivity. simpl. destruct (dget a k), (dmem b k); reflexivity.
  Qed.
  Lemma intersection_get a b k : dget (intersection a b) k = if dmem b k then dget a k else None.
  Proof.
    unfold intersection. rewrite dget_filter by reflexivity. simpl. destruct (dget a k), (dmem b k); reflexivity.
  Qed.
  Lemma merge_default_get a b k : dwf a -> dwf b ->
    dget (merge a b None) k = match dget b k with Some v => Some v | None => dget a k end.
  Proof. intros Ha Hb. simpl. rewrite dict_of_spec, lastval_app, !lastval_wf by assumption. reflexivity. Qed.
  Lemma dget_dict_of_wf a k : dwf a -> dget (dict_of a) k = dget a k.
  Proof. intros. rewrite dict_of_spec. apply lastval_wf. assumption. Qed.
  Lemma merge_updater_get a b u k : dwf a -> dwf b ->
    dget (merge a b (Some u)) k =
    match dget a k, dget b k with
    | Some x, Some y => Some (u k x y)
    | Some x, None => Some x
    | None, o => o
    end.
  Proof.
    intros Ha Hb. simpl.
    assert (G : forall b m, dwf b ->
      dget (fold_left (fun merged '(k, v) => match dget merged k with Some w => dset merged k (u k w v) | None => dset merged k v end) b m) k =
      match dget m k, dget b k with Some x, Some y => Some (u k x y) | Some x, None => Some x | None, o => o end).
    { clear. intros b. induction b as [|[k' v] b IH]; intros m Hb; simpl.
      - destruct (dget m k); reflexivity.
      - inversion Hb as [|? ? Hk Hb']; subst. rewrite IH by assumption.
        assert (N : k = k' -> dget b k = None) by (intros ->; apply dget_None; exact Hk).
        destruct (eqd k k') as [->|ne].
        + rewrite (N eq_refl). destruct (dget m k') as [w|]; rewrite dset_same; reflexivity.
        + destruct (dget m k') as [w|]; rewrite dset_other by assumption; reflexivity. }
    rewrite G by assumption. rewrite dget_dict_of_wf by assumption. reflexivity.
  Qed.

  Lemma explode_In (d : dict K (list V)) k v : In (k, v) (explode d) <-> exists vs, In (k, vs) d /\ In v vs.
  Proof.
    unfold explode. rewrite in_flat_map. split.
    - intros ([k' vs] & H & H'). apply in_map_iff in H' as (w & [= -> ->] & H'). eauto.
    - intros (vs & H & H'). exists (k, vs). split; [assumption|]. apply in_map_iff. eauto.
  Qed.

  (** multi dictionaries *)
  Definition values_for (l : list (K * V)) (k : K) : list V := map snd (filter (fun e => deqb k (fst e)) l).
  Lemma multi_append_get {A B} {EA : EqD A} (c : dict A (list B)) k v k' :
    dget (multi_append c k v) k' = if eqd k' k then Some (match dget c k with Some l => l | None => [] end ++ [v]) else dget c k'.
  Proof. unfold multi_append. rewrite dset_spec. destruct (eqd k' k); [destruct (dget c k); reflexivity|reflexivity]. Qed.
  Definition oapp {B} (o : option (list B)) (m : list B) : option (list B) :=
    match m with [] => o | _ => Some (match o with Some l => l | None => [] end ++ m) end.
  Lemma fold_multi_get entries c k :
    dget (fold_left (fun c '(k, v) => multi_append c k v) entries c) k = oapp (dget c k) (values_for entries k).
  Proof.
    revert c. induction entries as [|[k' v] r IH]; intros c; simpl; [reflexivity|].
    rewrite IH, multi_append_get. unfold values_for. simpl. unfold deqb. destruct (eqd k k') as [->|ne]; [|reflexivity].
    simpl. set (m := map snd _). destruct (dget c k'), m; simpl; rewrite ?app_nil_r; try reflexivity; rewrite <- ?app_assoc; reflexivity.
  Qed.
  Lemma generate_multi_get entries k :
    dget (generate_multi entries) k = match values_for entries k with [] => None | l => Some l end.
  Proof. unfold generate_multi. rewrite fold_multi_get. simpl. destruct (values_for entries k); reflexivity. Qed.
  Lemma values_for_app l m k : values_for (l ++ m) k = values_for l k ++ values_for m k.
  Proof. unfold values_for. rewrite filter_app, map_app. reflexivity. Qed.
  Lemma aggregate_get ds k : dget (aggregate ds) k = match values_for (concat ds) k with [] => None | l => Some l end.
  Proof.
    unfold aggregate.
    assert (G : forall ds c, fold_left (fun c d => fold_left (fun c '(k, v) => multi_append c k v) d c) ds c =
                fold_left (fun (c : dict K (list V)) '(k, v) => multi_append c k v) (concat ds) c).
    { induction ds0 as [|d r IH]; intros c; simpl; [reflexivity|]. rewrite fold_left_app. apply IH. }
    rewrite G. apply generate_multi_get.
  Qed.

  (** invert_multi *)
  Lemma invert_multi_get (m : dict K (list V)) v : NoDup (map snd m) ->
    forall k, In k (match dget (invert_multi m) v with Some l => l | None => [] end) <-> exists vs, In (k, vs) m /\ In v vs.
  Proof.
    intros Hn k. unfold invert_multi.
    set (swapped := map (fun '(k, vs) => (vs, k)) m).
    assert (Hw : NoDup (map fst swapped)).
    { unfold swapped. rewrite map_map. erewrite map_ext; [exact Hn|]. intros [? ?]; reflexivity. }
    assert (L1 : forall e, In e (dict_of swapped) <-> In e swapped).
    { intros [vs x].
      rewrite <- (dget_iff (dict_of swapped) vs x (dwf_dict_of swapped)), dict_of_spec, lastval_wf by exact Hw.
      apply dget_iff. exact Hw. }
    assert (G : forall l1 c, In k (match dget (fold_left (fun l2 '(vs, k) => fold_left (fun l2 v => multi_append l2 v k) vs l2) l1 c) v with Some l => l | None => [] end) <->
       In k (match dget c v with Some l => l | None => [] end) \/ exists vs, In (vs, k) l1 /\ In v vs).
    { clear. induction l1 as [|[vs x] l1 IH]; intros c; simpl.
      - split; [auto|]. intros [H|(vs & [] & _)]; assumption.
      - rewrite IH.
        assert (G2 : forall vs c, In k (match dget (fold_left (fun l2 v => multi_append l2 v x) vs c) v with Some l => l | None => [] end) <->
                     In k (match dget c v with Some l => l | None => [] end) \/ (k = x /\ In v vs)).
        { clear. induction vs as [|w vs IH]; intros c; simpl; [tauto|].
          rewrite IH, multi_append_get. destruct (eqd v w) as [->|ne].
          - rewrite in_app_iff. simpl. intuition.
          - intuition congruence. }
        rewrite G2. split.
        + intros [[H|[-> H]]|(vs' & H & H')]; [auto|right; exists vs; auto|right; exists vs'; auto].
        + intros [H|(vs' & [[= <- <-]|H] & H')]; [auto|auto|right; exists vs'; auto]. }
    rewrite G. simpl. split.
    - intros [[]|(vs & H & H')]. apply L1 in H. unfold swapped in H. apply in_map_iff in H as ([k' vs'] & [= -> ->] & H). eauto.
    - intros (vs & H & H'). right. exists vs. split; [|assumption]. apply L1. unfold swapped. apply in_map_iff. exists (k, vs). auto.
  Qed.

  (** hash_dict is a function of the ordered items only *)
  Lemma hash_dict_wf_perm hk hv ht d d' : d = d' -> hash_dict hk hv ht d = hash_dict hk hv ht d'.
  Proof. intros ->. reflexivity. Qed.
End DictProofs.

(** argmin / argmax *)
Lemma fold_min {K} (r : list (K * Z)) e :
  let b := fold_left (fun best e => if (snd e <? snd best)%Z then e else best) r e in
  In b (e :: r) /\ (forall x, In x (e :: r) -> (snd b <= snd x)%Z).
Proof.
  revert e. induction r as [|x r IH]; intros e; cbn [fold_left].
  - simpl. split; [auto|]. intros y [<-|[]]. lia.
  - destruct (Z.ltb_spec (snd x) (snd e)) as [L|L].
    + destruct (IH x) as [H1 H2]. split; [simpl in *; tauto|].
      intros y [<-|H]; [|apply H2; exact H]. specialize (H2 x (or_introl eq_refl)). lia.
    + destruct (IH e) as [H1 H2]. split; [simpl in *; tauto|].
      intros y [<-|[<-|H]]; [apply H2; simpl; auto| |apply H2; simpl; auto]. specialize (H2 e (or_introl eq_refl)). lia.
Qed.
Lemma fold_max {K} (r : list (K * Z)) e :
  let b := fold_left (fun best e => if (snd e >? snd best)%Z then e else best) r e in
  In b (e :: r) /\ (forall x, In x (e :: r) -> (snd x <= snd b)%Z).
Proof.
  revert e. induction r as [|x r IH]; intros e; cbn [fold_left].
  - simpl. split; [auto|]. intros y [<-|[]]. lia.
  - rewrite Z.gtb_ltb. destruct (Z.ltb_spec (snd e) (snd x)) as [L|L].
    + destruct (IH x) as [H1 H2]. split; [simpl in *; tauto|].
      intros y [<-|H]; [|apply H2; exact H]. specialize (H2 x (or_introl eq_refl)). lia.
    + destruct (IH e) as [H1 H2]. split; [simpl in *; tauto|].
      intros y [<-|[<-|H]]; [apply H2; simpl; auto| |apply H2; simpl; auto]. specialize (H2 e (or_introl eq_refl)). lia.
Qed.
Lemma argmin_spec {K} (d : dict K Z) : d <> [] ->
  exists k v, argmin d = Ok k /\ In (k, v) d /\ (forall k' v', In (k', v') d -> (v <= v')%Z).
Proof.
  destruct d as [|[k v] r]; [congruence|]. intros _. destruct (fold_min r (k, v)) as [H1 H2].
  unfold argmin. destruct (fold_left _ r (k, v)) as [k' v'] eqn:E. exists k', v'. split; [reflexivity|].
  split; [assumption|]. intros k2 v2 H. apply (H2 (k2, v2) H).
Qed.
Lemma argmax_spec {K} (d : dict K Z) : d <> [] ->
  exists k v, argmax d = Ok k /\ In (k, v) d /\ (forall k' v', In (k', v') d -> (v' <= v)%Z).
Proof.
  destruct d as [|[k v] r]; [congruence|]. intros _. destruct (fold_max r (k, v)) as [H1 H2].
  unfold argmax. destruct (fold_left _ r (k, v)) as [k' v'] eqn:E. exists k', v'. split; [reflexivity|].
  split; [assumption|]. intros k2 v2 H. apply (H2 (k2, v2) H).
Qed.

(** CustomHashDict: with an injective hash it behaves like a dictionary *)
Lemma chd_get_set {K V} {EK : EqD K} (h : K -> Z) (d : dict Z V) k v k' :
  (forall x y, h x = h y -> x = y) ->
  chd_get h (chd_set h d k v) k' = if eqd k' k then Ok v else chd_get h d k'.
Proof.
  intros Hi. unfold chd_get, chd_set. rewrite dset_spec. destruct (eqd (h k') (h k)) as [e|ne], (eqd k' k) as [->|ne']; try reflexivity.
  - apply Hi in e. congruence.
  - congruence.
Qed.
