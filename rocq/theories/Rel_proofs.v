(** Lemmas about the meaning of relational algebra trees. *)
From Coq Require Import List Bool Arith Permutation Lia.
From Verif Require Import PyBase Collections_proofs Pred_model Pred_spec Rel_model Rel_spec.
Import ListNotations.

Lemma perm_filter {A} (f : A -> bool) l l' : Permutation l l' -> Permutation (filter f l) (filter f l').
Proof.
  induction 1 as [|x l l' H IH|x y l|l l' l'' H1 IH1 H2 IH2]; cbn; [constructor| | |etransitivity; eassumption].
  - destruct (f x); [constructor|]; assumption.
  - destruct (f x), (f y); try reflexivity. constructor.
Qed.
Lemma perm_flat_map_pt {A B} (f g : A -> list B) l : (forall x, In x l -> Permutation (f x) (g x)) -> Permutation (flat_map f l) (flat_map g l).
Proof.
  induction l as [|x l IH]; intros H; cbn; [constructor|]. apply Permutation_app; [apply H; now left|apply IH; intros; apply H; now right].
Qed.
Lemma perm_flat_map {A B} (f : A -> list B) l l' : Permutation l l' -> Permutation (flat_map f l) (flat_map f l').
Proof.
  induction 1 as [|x l l' H IH|x y l|l l' l'' H1 IH1 H2 IH2]; cbn; [constructor| | |etransitivity; eassumption].
  - now apply Permutation_app_head.
  - rewrite !app_assoc. apply Permutation_app_tail, Permutation_app_comm.
Qed.
Lemma filter_filter {A} (f g : A -> bool) l : filter f (filter g l) = filter (fun x => f x && g x) l.
Proof. induction l as [|x l IH]; cbn; [reflexivity|]. destruct (g x) eqn:E; cbn; rewrite ?IH, ?andb_true_r, ?andb_false_r; [destruct (f x)|]; reflexivity. Qed.
Lemma map_flat_map {A B C} (f : B -> C) (g : A -> list B) l : map f (flat_map g l) = flat_map (fun x => map f (g x)) l.
Proof. induction l as [|x l IH]; cbn; [reflexivity|]. now rewrite map_app, IH. Qed.
Lemma flat_map_map {A B C} (f : A -> B) (g : B -> list C) l : flat_map g (map f l) = flat_map (fun x => g (f x)) l.
Proof. induction l as [|x l IH]; cbn; [reflexivity|]. now rewrite IH. Qed.
Lemma filter_map_comm {A B} (f : A -> B) (p : B -> bool) (q : A -> bool) l :
  (forall x, In x l -> p (f x) = q x) -> filter p (map f l) = map f (filter q l).
Proof.
  induction l as [|x l IH]; intros H; cbn; [reflexivity|]. rewrite H by now left. rewrite IH by (intros; apply H; now right). destruct (q x); reflexivity.
Qed.
Lemma flat_map_ext_in {A B} (f g : A -> list B) l : (forall x, In x l -> f x = g x) -> flat_map f l = flat_map g l.
Proof. induction l as [|x l IH]; intros H; cbn; [reflexivity|]. rewrite H by now left. f_equal. apply IH. intros; apply H; now right. Qed.
Lemma perm_flat_swap {A B C} (f : A -> B -> list C) l m :
  Permutation (flat_map (fun x => flat_map (f x) m) l) (flat_map (fun y => flat_map (fun x => f x y) l) m).
Proof.
  induction l as [|x l IH]; cbn.
  - induction m; cbn; [constructor|assumption].
  - rewrite IH. clear IH. induction m as [|y m IHm]; cbn; [constructor|].
    rewrite <- IHm. rewrite !app_assoc. apply Permutation_app_tail. rewrite <- !app_assoc. apply Permutation_app_head, Permutation_app_comm.
Qed.

Lemma filter_all_true {A} (f : A -> bool) l : (forall x, f x = true) -> filter f l = l.
Proof. intros H. induction l as [|x l IH]; cbn; [reflexivity|]. now rewrite H, IH. Qed.

Section Bags.
  Context {V : Type} {EV : EqD V} (null : V) (M : rsem V) (db : tbl -> list (tuple (V := V))).
  Notation row := (row (V := V)).
  Notation group := (group (V := V)).
  Notation read := (read (V := V)).
  Notation same_bag := (same_bag (V := V)).

  Lemma same_refl L : same_bag L L. Proof. intros cs. reflexivity. Qed.
  Lemma same_sym L L' : same_bag L L' -> same_bag L' L. Proof. intros H cs. symmetry. apply H. Qed.
  Lemma same_trans L1 L2 L3 : same_bag L1 L2 -> same_bag L2 L3 -> same_bag L1 L3.
  Proof. intros H1 H2 cs. etransitivity; [apply H1|apply H2]. Qed.
  Lemma same_perm L L' : Permutation L L' -> same_bag L L'.
  Proof. intros H cs. now apply Permutation_map. Qed.

  (** A row rebuilt from what was read. *)
  Fixpoint row_of (cs : list col) (vs : list V) : row :=
    fun c => match cs, vs with d :: cs', v :: vs' => if eqd c d then v else row_of cs' vs' c | _, _ => null end.
  Lemma row_of_read cs (r : row) c : In c cs -> row_of cs (map r cs) c = r c.
  Proof.
    induction cs as [|d cs IH]; [intros []|]. intros Hc. cbn. destruct (eqd c d) as [->|Hn]; [reflexivity|].
    apply IH. destruct Hc; congruence.
  Qed.
  Lemma read_row_of cs ds (r : row) : incl ds cs -> map (row_of cs (map r cs)) ds = map r ds.
  Proof. intros H. apply map_ext_in. intros c Hc. apply row_of_read, H, Hc. Qed.
  Lemma read_regroup cs ds (g : group) : incl ds cs -> read ds (map (row_of cs) (read cs g)) = read ds g.
  Proof. intros H. unfold Rel_spec.read. rewrite !map_map. apply map_ext. intros r. apply read_row_of, H. Qed.

  (** A function of groups that only looks at some columns. *)
  Definition looks {X} (f : group -> X) (cs : list col) : Prop := forall g h, read cs g = read cs h -> f g = f h.
  Lemma looks_incl {X} (f : group -> X) cs ds : incl cs ds -> looks f cs -> looks f ds.
  Proof.
    intros Hi Hf g h E. apply Hf. rewrite <- (read_regroup ds cs g), <- (read_regroup ds cs h) by exact Hi. now rewrite E.
  Qed.
  Lemma looks_eq {X} (f : group -> X) cs : looks f cs -> forall g, f g = f (map (row_of cs) (read cs g)).
  Proof. intros H g. apply H. symmetry. apply read_regroup, incl_refl. Qed.

  Lemma same_map {X} (f : group -> X) cs L L' : looks f cs -> same_bag L L' -> Permutation (map f L) (map f L').
  Proof.
    intros Hf H. rewrite (map_ext _ _ (looks_eq f cs Hf) L), (map_ext _ _ (looks_eq f cs Hf) L').
    rewrite <- (map_map (read cs) (fun x => f (map (row_of cs) x)) L), <- (map_map (read cs) (fun x => f (map (row_of cs) x)) L').
    apply Permutation_map, H.
  Qed.
  Lemma same_filter f cs L L' : looks f cs -> same_bag L L' -> same_bag (filter f L) (filter f L').
  Proof.
    intros Hf H ds. set (es := cs ++ ds).
    assert (Hf' : looks f es) by (eapply looks_incl; [|exact Hf]; apply incl_appl, incl_refl).
    assert (K : forall X, map (read ds) (filter f X) = map (fun x => read ds (map (row_of es) x)) (filter (fun x => f (map (row_of es) x)) (map (read es) X))).
    { intros X. rewrite (filter_map_comm (read es) _ f X); [|intros x _; symmetry; apply looks_eq, Hf'].
      rewrite map_map. apply map_ext. intros g. symmetry. apply read_regroup, incl_appr, incl_refl. }
    rewrite !K. apply Permutation_map, perm_filter, H.
  Qed.
  Lemma filter_looks_ext f g (L : list group) : (forall x, In x L -> f x = g x) -> filter f L = filter g L.
  Proof. induction L as [|x L IH]; intros H; cbn; [reflexivity|]. rewrite H by now left. rewrite IH by (intros; apply H; now right). reflexivity. Qed.

  (** *** Products *)
  Lemma read_merge cs ts (r s : row) : map (merge ts r s) cs = map (merge ts (row_of cs (map r cs)) (row_of cs (map s cs))) cs.
  Proof. apply map_ext_in. intros c Hc. unfold merge. destruct (owned ts c); symmetry; now apply row_of_read. Qed.
  Definition vmerge cs ts (a b : list (list V)) : list (list V) :=
    flat_map (fun x => map (fun y => map (merge ts (row_of cs x) (row_of cs y)) cs) b) a.
  Lemma read_gmerge cs ts g h : read cs (gmerge ts g h) = vmerge cs ts (read cs g) (read cs h).
  Proof.
    unfold Rel_spec.read, gmerge, vmerge. rewrite map_flat_map, flat_map_map. apply flat_map_ext. intros r.
    rewrite !map_map. apply map_ext. intros s. apply read_merge.
  Qed.
  Lemma read_cross cs ts L R :
    map (read cs) (cross ts L R) = flat_map (fun x => map (vmerge cs ts x) (map (read cs) R)) (map (read cs) L).
  Proof.
    unfold cross. rewrite map_flat_map, flat_map_map. apply flat_map_ext. intros g. rewrite !map_map. apply map_ext. intros h. apply read_gmerge.
  Qed.
  Lemma same_cross ts L L' R R' : same_bag L L' -> same_bag R R' -> same_bag (cross ts L R) (cross ts L' R').
  Proof.
    intros HL HR cs. rewrite !read_cross. etransitivity; [apply perm_flat_map, HL|].
    apply perm_flat_map_pt. intros x _. apply Permutation_map, HR.
  Qed.

  (** Rows that agree on all columns. *)
  Definition req (r s : row) : Prop := forall c, r c = s c.
  Lemma req_same (l l' : list row) : Forall2 req l l' -> same_bag (map (fun r => [r]) l) (map (fun r => [r]) l').
  Proof.
    intros H cs. replace (map (read cs) (map (fun r => [r]) l')) with (map (read cs) (map (fun r => [r]) l)); [reflexivity|].
    induction H as [|r s l l' E H IH]; [reflexivity|]. cbn [map]. rewrite IH. f_equal. unfold Rel_spec.read. cbn. f_equal. apply map_ext, E.
  Qed.
  Lemma combos_other ts (r : row) c : In r (combos null db ts) -> owned ts c = false -> r c = null.
  Proof.
    revert r. induction ts as [|t ts IH]; intros r Hr Ho; cbn in Hr; [destruct Hr as [<-|[]]; reflexivity|].
    apply in_flat_map in Hr as (u & Hu & Hr). apply in_map_iff in Hr as (s & <- & Hs).
    unfold bind. unfold owned in *. destruct (c_tab c) as [x|] eqn:E.
    - rewrite <- not_true_iff_false, mem_In in Ho. destruct (eqd (Some x) (Some t)) as [E'|]; [injection E' as ->; destruct Ho; now left|].
      apply IH; [exact Hs|]. rewrite <- not_true_iff_false, mem_In. intros Hx. apply Ho. now right.
    - destruct (eqd None (Some t)); [discriminate|]. now apply IH.
  Qed.
  Lemma Forall2_flat_map {A B C} (P : B -> C -> Prop) (f : A -> list B) (g : A -> list C) l :
    (forall x, In x l -> Forall2 P (f x) (g x)) -> Forall2 P (flat_map f l) (flat_map g l).
  Proof. induction l as [|x l IH]; intros H; cbn; [constructor|]. apply Forall2_app; [apply H; now left|apply IH; intros; apply H; now right]. Qed.
  Lemma Forall2_map2 {A B C} (P : B -> C -> Prop) (f : A -> B) (g : A -> C) l :
    (forall x, In x l -> P (f x) (g x)) -> Forall2 P (map f l) (map g l).
  Proof. induction l as [|x l IH]; intros H; cbn; constructor; [apply H; now left|apply IH; intros; apply H; now right]. Qed.
  Lemma singles_cross ts (l m : list row) :
    cross ts (map (fun r => [r]) l) (map (fun r => [r]) m) = map (fun r => [r]) (flat_map (fun r => map (merge ts r) m) l).
  Proof. unfold cross. rewrite flat_map_map, map_flat_map. apply flat_map_ext. intros r. rewrite !map_map. reflexivity. Qed.
  Lemma Forall2_map_same {A B C D} (P : C -> D -> Prop) (Q : A -> B -> Prop) (f : A -> C) (g : B -> D) l m :
    (forall x y, Q x y -> P (f x) (g y)) -> Forall2 Q l m -> Forall2 P (map f l) (map g m).
  Proof. intros H. induction 1; cbn; constructor; auto. Qed.
  Lemma Forall2_trans {A} (P : A -> A -> Prop) : (forall x y z, P x y -> P y z -> P x z) -> forall l m k, Forall2 P l m -> Forall2 P m k -> Forall2 P l k.
  Proof. intros T l m k H. revert k. induction H as [|x y l m E H IH]; intros k Hk; inversion Hk; subst; constructor; eauto. Qed.
  (** The combinations of two lists of tables. *)
  Lemma combos_app_req ts us :
    Forall2 req (combos null db (ts ++ us)) (flat_map (fun r => map (merge ts r) (combos null db us)) (combos null db ts)).
  Proof.
    induction ts as [|t ts IH]; cbn [combos app].
    - cbn. rewrite app_nil_r. rewrite <- (map_id (combos null db us)) at 1. apply Forall2_map2. intros r _ c. unfold merge, owned. destruct (c_tab c); reflexivity.
    - assert (E : forall l, flat_map (fun r => map (merge (t :: ts) r) (combos null db us)) (flat_map (fun u => map (bind t u) l) (db t))
                  = flat_map (fun u => flat_map (fun r => map (merge (t :: ts) (bind t u r)) (combos null db us)) l) (db t)).
      { intros l. induction (db t) as [|u us' IHu]; cbn; [reflexivity|]. rewrite flat_map_app, IHu, flat_map_map. reflexivity. }
      rewrite E. apply Forall2_flat_map. intros u _.
      assert (E2 : Forall2 req (map (bind t u) (combos null db (ts ++ us))) (map (bind t u) (flat_map (fun r => map (merge ts r) (combos null db us)) (combos null db ts)))).
      { eapply Forall2_map_same; [|exact IH]. intros x y Hxy c. unfold bind. destruct (eqd (c_tab c) (Some t)); [reflexivity|apply Hxy]. }
      eapply Forall2_trans; [intros x y z H1 H2 c; now rewrite H1|exact E2|]. rewrite map_flat_map. apply Forall2_flat_map. intros r _. rewrite map_map.
      apply Forall2_map2. intros s _ c. unfold bind, merge, owned. destruct (c_tab c) as [x|] eqn:Ex; [|destruct (eqd None (Some t)); [discriminate|reflexivity]].
      destruct (eqd (Some x) (Some t)) as [Et|Et].
      + injection Et as ->. assert (mem t (t :: ts) = true) as -> by (apply mem_In; now left). reflexivity.
      + assert (mem x (t :: ts) = mem x ts) as ->; [|reflexivity]. apply eq_true_iff_eq. rewrite !mem_In. cbn. split; [intros [->|H]; [congruence|exact H]|now right].
  Qed.
  Notation singles l := (map (fun r : row => [r]) l).
  Lemma combos_app ts us : same_bag (singles (combos null db (ts ++ us))) (cross ts (singles (combos null db ts)) (singles (combos null db us))).
  Proof. rewrite singles_cross. apply req_same, combos_app_req. Qed.
  Lemma combos_cons t ts : same_bag (singles (combos null db (t :: ts))) (cross [t] (singles (combos null db [t])) (singles (combos null db ts))).
  Proof. apply (combos_app [t] ts). Qed.
  Lemma combos_perm ts us : Permutation ts us -> NoDup ts -> same_bag (singles (combos null db ts)) (singles (combos null db us)).
  Proof.
    induction 1 as [|t ts us H IH|x y l|l1 l2 l3 H1 IH1 H2 IH2]; intros Hn.
    - apply same_refl.
    - inversion Hn; subst. eapply same_trans; [apply combos_cons|]. eapply same_trans; [|apply same_sym, combos_cons].
      apply same_cross; [apply same_refl|now apply IH].
    - inversion Hn as [|? ? Hy Hn']; subst. assert (Hxy : x <> y) by (intros ->; apply Hy; now left).
      cbn [combos]. intros cs. rewrite !map_map.
      set (C := combos null db l).
      assert (E : forall a b, map (fun r : row => read cs [r]) (flat_map (fun u => map (bind a u) (flat_map (fun v => map (bind b v) C) (db b))) (db a))
                  = flat_map (fun u => flat_map (fun v => map (fun r => read cs [bind a u (bind b v r)]) C) (db b)) (db a)).
      { intros a b. rewrite map_flat_map. apply flat_map_ext. intros u. rewrite map_map, map_flat_map. apply flat_map_ext. intros v. now rewrite map_map. }
      rewrite !E. etransitivity; [apply perm_flat_swap|]. apply perm_flat_map_pt. intros u _. apply perm_flat_map_pt. intros v _.
      erewrite map_ext; [reflexivity|]. intros r. unfold Rel_spec.read. cbn. f_equal. apply map_ext. intros c. unfold bind.
      destruct (eqd (c_tab c) (Some y)) as [Ey|], (eqd (c_tab c) (Some x)) as [Ex|]; try reflexivity. congruence.
    - eapply same_trans; [now apply IH1|]. apply IH2. eapply Permutation_NoDup; eassumption.
  Qed.

  (** *** Predicates *)
  Lemma pcols_pexprs (p : rpred) : pcols xcols p = flat_map xcols (pexprs p).
  Proof.
    induction p as [op a b|a lo hi|a vs|op a|p IH|ps IH|ps IH] using pred_ind'; cbn; rewrite ?app_nil_r; try reflexivity; [exact IH| |];
      (induction IH as [|q ps Hq _ IHps]; cbn; [reflexivity|]; now rewrite flat_map_app, Hq, IHps).
  Qed.
  Lemma psem_ext (f g : rx -> V) p : (forall e, In e (pexprs p) -> f e = g e) -> psem M f p = psem M g p.
  Proof.
    induction p as [op a b|a lo hi|a vs|op a|p IH|ps IH|ps IH] using pred_ind'; cbn; intros H.
    - now rewrite !H by auto.
    - now rewrite !H by auto.
    - f_equal. apply map_ext_in. intros v Hv. now rewrite !H by auto.
    - now rewrite !H by auto.
    - now rewrite IH.
    - f_equal. apply map_ext_in. intros q Hq. rewrite Forall_forall in IH. apply IH; [exact Hq|]. intros e He. apply H, in_flat_map. eauto.
    - f_equal. apply map_ext_in. intros q Hq. rewrite Forall_forall in IH. apply IH; [exact Hq|]. intros e He. apply H, in_flat_map. eauto.
  Qed.
  Context (HM : local_sem M).
  Lemma gval_looks e : looks (fun g => gval M g e) (xcols e).
  Proof. intros g h E. apply HM. now rewrite E. Qed.
  Lemma holds_looks p : looks (holds M p) (pcols xcols p).
  Proof.
    intros g h E. unfold holds. rewrite (psem_ext (gval M g) (gval M h) p); [reflexivity|]. intros e He.
    apply (looks_incl (fun g => gval M g e) (xcols e) (pcols xcols p)); [|apply gval_looks|exact E].
    rewrite pcols_pexprs. intros c Hc. apply in_flat_map. eauto.
  Qed.
  Definition all_hold (A : list rpred) (g : group) : bool := forallb (fun p => holds M p g) A.
  Lemma all_hold_looks A : looks (all_hold A) (flat_map (pcols xcols) A).
  Proof.
    intros g h E. unfold all_hold. induction A as [|p A IH]; cbn; [reflexivity|]. cbn in E. f_equal.
    - exact (looks_incl (holds M p) (pcols xcols p) _ (incl_appl _ (incl_refl _)) (holds_looks p) g h E).
    - apply IH. rewrite <- (read_regroup (pcols xcols p ++ flat_map (pcols xcols) A) (flat_map (pcols xcols) A) g),
        <- (read_regroup (pcols xcols p ++ flat_map (pcols xcols) A) (flat_map (pcols xcols) A) h); [now rewrite E|apply incl_appr, incl_refl..].
  Qed.
  Lemma cross_filter ts f g h (L R : list group) : (forall x y, In x L -> In y R -> h (gmerge ts x y) = f x && g y) ->
    cross ts (filter f L) (filter g R) = filter h (cross ts L R).
  Proof.
    intros H. unfold cross. induction L as [|x L IH]; cbn; [reflexivity|]. rewrite filter_app, <- IH by (intros; apply H; [now right|assumption]).
    assert (E : filter h (map (gmerge ts x) R) = if f x then map (gmerge ts x) (filter g R) else []).
    { assert (H' : forall y, In y R -> h (gmerge ts x y) = f x && g y) by (intros; apply H; [now left|assumption]). clear -H'.
      induction R as [|y R IHR]; cbn; [now destruct (f x)|]. rewrite H' by now left. rewrite IHR by (intros; apply H'; now right).
      destruct (f x), (g y); reflexivity. }
    rewrite E. destruct (f x); reflexivity.
  Qed.

  (** *** Trees without grouping *)
  Definition owns (ts : list tbl) (cs : list col) : Prop := forall c, In c cs -> owned ts c = true.
  Fixpoint wfn (n : rnode) : Prop :=
    match n with
    | NRel _ _ => True
    | NSel m p => wfn m /\ owns (ntabs m) (pcols xcols p)
    | NMap m _ => wfn m
    | NCross l r => wfn l /\ wfn r /\ (forall t, In t (ntabs l) -> ~ In t (ntabs r))
    | NTheta l r p => wfn l /\ wfn r /\ (forall t, In t (ntabs l) -> ~ In t (ntabs r)) /\ owns (ntabs l ++ ntabs r) (pcols xcols p)
    | _ => False
    end.
  Fixpoint applied (n : rnode) : list rpred :=
    match n with
    | NSel m p => p :: applied m
    | NMap m _ => applied m
    | NCross l r => applied l ++ applied r
    | NTheta l r p => p :: applied l ++ applied r
    | _ => []
    end.
  Lemma rels_ntabs n : rels n = ntabs n.
  Proof. induction n; cbn; congruence. Qed.
  Lemma owned_app ts us c : owned (ts ++ us) c = owned ts c || owned us c.
  Proof. unfold owned. destruct (c_tab c); [|reflexivity]. apply eq_true_iff_eq. rewrite orb_true_iff, !mem_In, in_app_iff. tauto. Qed.
  Lemma wfn_owns n : wfn n -> forall p, In p (applied n) -> owns (ntabs n) (pcols xcols p).
  Proof.
    induction n as [t cs|n IH q|l IHl r IHr|l IHl r IHr q|n IH es|n IH gc ag|n IH ks|n IH ts|l IHl r IHr|l IHl r IHr|l IHl r IHr|n IH]; cbn; intros W p Hp; try contradiction.
    - destruct W as [W1 W2]. destruct Hp as [<-|Hp]; [exact W2|]. now apply IH.
    - destruct W as (W1 & W2 & _). intros c Hc. rewrite owned_app, orb_true_iff. apply in_app_iff in Hp as [Hp|Hp]; [left; now apply (IHl W1 p Hp)|right; now apply (IHr W2 p Hp)].
    - destruct W as (W1 & W2 & _ & W3). destruct Hp as [<-|Hp]; [exact W3|]. intros c Hc. rewrite owned_app, orb_true_iff. apply in_app_iff in Hp as [Hp|Hp]; [left; now apply (IHl W1 p Hp)|right; now apply (IHr W2 p Hp)].
    - now apply IH.
  Qed.
  Lemma wfn_nodup n : wfn n -> NoDup (ntabs n).
  Proof.
    induction n as [t cs|n IH q|l IHl r IHr|l IHl r IHr q|n IH es|n IH gc ag|n IH ks|n IH ts|l IHl r IHr|l IHl r IHr|l IHl r IHr|n IH]; cbn; intros W; try contradiction; try tauto.
    - repeat constructor. intros [].
    - destruct W as (W1 & W2 & W3). apply NoDup_app_intro; auto.
    - destruct W as (W1 & W2 & W3 & _). apply NoDup_app_intro; auto.
  Qed.
  Lemma holds_left ts p (r s : row) : owns ts (pcols xcols p) -> holds M p [merge ts r s] = holds M p [r].
  Proof.
    intros H. apply holds_looks. unfold Rel_spec.read. cbn. f_equal. apply map_ext_in. intros c Hc. unfold merge. now rewrite (H c Hc).
  Qed.
  Lemma holds_right ts us p (r s : row) : (forall t, In t ts -> ~ In t us) -> owns us (pcols xcols p) -> holds M p [merge ts r s] = holds M p [s].
  Proof.
    intros Hd H. apply holds_looks. unfold Rel_spec.read. cbn. f_equal. apply map_ext_in. intros c Hc. unfold merge.
    specialize (H c Hc). unfold owned in *. destruct (c_tab c) as [t|]; [|discriminate]. apply mem_In in H.
    destruct (mem t ts) eqn:E; [|reflexivity]. apply mem_In in E. now destruct (Hd t E).
  Qed.
  Lemma sel_cross ts us A B (l m : list row) : (forall t, In t ts -> ~ In t us) ->
    (forall p, In p A -> owns ts (pcols xcols p)) -> (forall p, In p B -> owns us (pcols xcols p)) ->
    cross ts (filter (all_hold A) (singles l)) (filter (all_hold B) (singles m)) = filter (all_hold (A ++ B)) (cross ts (singles l) (singles m)).
  Proof.
    intros Hd HA HB. apply cross_filter. intros x y Hx Hy. apply in_map_iff in Hx as (r & <- & _). apply in_map_iff in Hy as (s & <- & _).
    change (gmerge ts [r] [s]) with [merge ts r s]. unfold all_hold. rewrite forallb_app. f_equal.
    - clear HB. induction A as [|p A IH]; cbn; [reflexivity|]. rewrite (holds_left ts p) by (apply HA; now left). f_equal. apply IH. intros; apply HA; now right.
    - clear HA. induction B as [|p B IH]; cbn; [reflexivity|]. rewrite (holds_right ts us p) by (exact Hd || (apply HB; now left)). f_equal. apply IH. intros; apply HB; now right.
  Qed.
  (** A tree of relations, selections and joins computes the combinations of its tables that satisfy its predicates. *)
  Theorem wfn_eval n : wfn n -> same_bag (eval null M db n) (filter (all_hold (applied n)) (singles (combos null db (ntabs n)))).
  Proof.
    assert (C : forall l r, wfn l -> wfn r -> (forall t, In t (ntabs l) -> ~ In t (ntabs r)) ->
      same_bag (eval null M db l) (filter (all_hold (applied l)) (singles (combos null db (ntabs l)))) ->
      same_bag (eval null M db r) (filter (all_hold (applied r)) (singles (combos null db (ntabs r)))) ->
      same_bag (cross (rels l) (eval null M db l) (eval null M db r)) (filter (all_hold (applied l ++ applied r)) (singles (combos null db (ntabs l ++ ntabs r))))).
    { intros l r Wl Wr Hd El Er. rewrite rels_ntabs. eapply same_trans; [apply same_cross; eassumption|].
      rewrite (sel_cross (ntabs l) (ntabs r)); [|exact Hd|now apply wfn_owns|now apply wfn_owns].
      eapply same_filter; [apply all_hold_looks|]. apply same_sym, combos_app. }
    induction n as [t cs|n IH q|l IHl r IHr|l IHl r IHr q|n IH es|n IH gc ag|n IH ks|n IH ts|l IHl r IHr|l IHl r IHr|l IHl r IHr|n IH]; cbn [wfn]; intros W; try contradiction.
    - cbn [eval applied ntabs combos]. intros cs'. 
      assert (E : filter (all_hold []) (singles (flat_map (fun u => map (bind t u) [fun _ : col => null]) (db t))) = map (fun u => [bind t u (fun _ => null)]) (db t)).
      { rewrite filter_all_true by reflexivity. rewrite map_flat_map. cbn. induction (db t) as [|u us IHu]; cbn; [reflexivity|]. now rewrite IHu. }
      rewrite E. reflexivity.
    - destruct W as [W1 W2]. cbn [eval applied ntabs]. eapply same_trans; [eapply same_filter; [apply holds_looks|apply IH, W1]|].
      rewrite filter_filter. apply same_refl.
    - destruct W as (W1 & W2 & W3). cbn [eval applied ntabs]. apply C; auto.
    - destruct W as (W1 & W2 & W3 & W4). cbn [eval applied ntabs]. eapply same_trans; [eapply same_filter; [apply holds_looks|apply C; auto]|].
      rewrite filter_filter. apply same_refl.
    - cbn [eval applied ntabs]. now apply IH.
  Qed.
End Bags.
