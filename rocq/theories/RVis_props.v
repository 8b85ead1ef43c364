(** C278 and C279: visitors of relational algebra, base tables of predicates. *)
From Coq Require Import List Bool Arith Lia.
From Verif Require Import PyBase RVis_model RVis_spec.
Import ListNotations.

(** ** C278 *)
Theorem C278_accept_partial : forall k n, fst (accept k n) = k /\ (~ In k [KUnion; KIntersection; KDifference] -> snd (accept k n) = ANode n).
Proof. intros [] n; (split; [reflexivity|]); intros H; try reflexivity; exfalso; apply H; cbn; tauto. Qed.
Print Assumptions C278_accept_partial.
Theorem C278_accept_refuted : forall k n, In k [KUnion; KIntersection; KDifference] -> snd (accept k n) = AVisitor.
Proof. intros k n [<-|[<-|[<-|[]]]]; reflexivity. Qed.
Print Assumptions C278_accept_refuted.
Example C278_ex : accept KThetaJoin 3 = (KThetaJoin, ANode 3) /\ accept KUnion 3 = (KUnion, AVisitor).
Proof. split; reflexivity. Qed.

(** ** C279 *)
Section Ind.
  Context (P : ex -> Prop) (H1 : forall o, P (Leaf o)) (H2 : forall l, Forall P l -> P (Window l)) (H3 : forall e, P e -> P (One e)) (H4 : forall a l, Forall P l -> P (Group a l)) (H5 : forall u i, P (Sub u i)).
  Fixpoint ex_ind' (e : ex) : P e :=
    let all := fix all (l : list ex) : Forall P l := match l with [] => Forall_nil P | x :: r => Forall_cons x (ex_ind' x) (all r) end in
    match e with Leaf o => H1 o | Window l => H2 l (all l) | One e => H3 e (ex_ind' e) | Group a l => H4 a l (all l) | Sub u i => H5 u i end.
End Ind.
Lemma lookup_group a l : lookup (Group a l) = rbind (rmapM lookup l) (fetch a).
Proof.
  cbn [lookup]. f_equal. induction l as [|x l IH]; [reflexivity|]. cbn. destruct (lookup x); [|reflexivity]. cbn. rewrite IH. destruct (rmapM lookup l); reflexivity.
Qed.
Lemma somes_In l t : In t (somes l) <-> In (Some t) l.
Proof. unfold somes. rewrite in_flat_map. split; [intros ([u|] & I0 & H); [destruct H as [->|[]]; exact I0 | contradiction] | intros I0; exists (Some t); split; [exact I0 | left; reflexivity]]. Qed.
Lemma single (l : list nat) t : NoDup l -> (forall u, In u l <-> u = t) -> l = [t].
Proof.
  intros N H. destruct l as [|x l]; [exfalso; apply (proj2 (H t) eq_refl)|]. assert (x = t) by (apply H; left; reflexivity). subst x. destruct l as [|y l]; [reflexivity|].
  exfalso. assert (y = t) by (apply H; right; left; reflexivity). subst y. inversion N. apply H2. left. reflexivity.
Qed.
Lemma fetch_spec a l : match fetch a l with Ok (Some t) => forall u, In (Some u) l <-> u = t | Ok None => False | Raise _ => ~ exists t, forall u, In (Some u) l <-> u = t end.
Proof.
  unfold fetch. assert (D : forall u, In u (dedup (somes l)) <-> In (Some u) l) by (intros u; rewrite dedup_In; apply somes_In). assert (N := dedup_NoDup (somes l)).
  destruct (dedup (somes l)) as [|t [|t' r]].
  - cbn. intros [t H]. apply (proj2 (D t)). apply H. reflexivity.
  - cbn. rewrite andb_false_r. intros u. rewrite <- D. cbn. intuition congruence.
  - cbn. intros [u H]. assert (E : t :: t' :: r = [u]) by (apply single; [exact N | intros v; rewrite D; apply H]). discriminate.
Qed.
Lemma rmapM_spec l os : rmapM lookup l = Ok os -> Forall2 (fun x o => lookup x = Ok o) l os.
Proof.
  revert os. induction l as [|x l IH]; intros os H; cbn in H; [injection H as <-; constructor|]. destruct (lookup x) as [o|] eqn:L; [|discriminate]. cbn in H. destruct (rmapM lookup l) as [r|]; [|discriminate]. injection H as <-. constructor; [exact L | apply IH; reflexivity].
Qed.
Definition right_table (o : option nat) (e : ex) : Prop := match o with Some t => forall u, outer u e <-> u = t | None => forall u, ~ outer u e end.
(* The visitor itself: what it finds is the one table of the predicate. *)
Theorem C279_visitor : forall e o, plain e -> lookup e = Ok o -> right_table o e.
Proof.
  induction e as [o'|l F|e IH|a l F|u i] using ex_ind'; intros o P H.
  - injection H as ->. destruct o as [t|]; cbn; intros u; [split; [intros O; inversion O; reflexivity | intros ->; constructor] | intros O; inversion O].
  - inversion P.
  - inversion P; subst. cbn in H. specialize (IH o H1 H). destruct o as [t|]; cbn in *; intros u; [rewrite <- IH; split; [intros O; inversion O; assumption | intros O; constructor; exact O] | intros O; inversion O; subst; apply (IH u); assumption].
  - inversion P as [| |? ? PL|]; subst. rewrite lookup_group in H. destruct (rmapM lookup l) as [os|] eqn:M; [|discriminate]. cbn [rbind] in H. apply rmapM_spec in M.
    assert (S := fetch_spec a os). rewrite H in S. destruct o as [t|]; [|contradiction]. cbn. intros u. rewrite <- S. clear S H. rewrite Forall_forall in F. split.
    + intros O. inversion O as [| | |? ? x ? I0 O'|]; subst. clear O P. revert I0. induction M as [|y o l os L M IHM]; intros I0; [contradiction|]. destruct I0 as [->|I0].
      * left. specialize (F x (or_introl eq_refl) o (PL x (or_introl eq_refl)) L). destruct o as [v|]; cbn in F; [f_equal; symmetry; apply F; exact O' | exfalso; apply (F u O')].
      * right. apply IHM; try exact I0; intros z Z0; first [apply PL; right; exact Z0 | apply F; right; exact Z0].
    + intros I0. assert (G : exists x, In x l /\ outer u x).
      { clear P. induction M as [|y o l os L M IHM]; [contradiction|]. destruct I0 as [->|I0].
        - exists y. split; [left; reflexivity|]. apply (F y (or_introl eq_refl) (Some u) (PL y (or_introl eq_refl)) L). reflexivity.
        - destruct IHM as (x & X & O); try exact I0; try (intros z Z0; first [apply PL; right; exact Z0 | apply F; right; exact Z0]). exists x. split; [right; exact X | exact O]. }
      destruct G as (x & X & O). apply (o_group u a x l X O).
  - cbn in H. destruct u as [|t0 u]; [injection H as <-; intros v O; inversion O; contradiction|]. assert (S := fetch_spec true (map Some (t0 :: u))). rewrite H in S. destruct o as [t|]; [|contradiction].
    cbn. intros v. rewrite <- S, in_map_iff. split; [intros O; inversion O; subst; exists v; auto | intros (w & [= ->] & I0); constructor; exact I0].
Qed.
Print Assumptions C279_visitor.
Lemma tight_ok e : tight e -> (forall t u, outer t e -> outer u e -> t = u) -> exists o, lookup e = Ok o.
Proof.
  induction e as [o'|l F|e IH|a l F|u i] using ex_ind'; intros T U.
  - exists o'. reflexivity.
  - inversion T.
  - inversion T; subst. cbn. apply IH; [assumption|]. intros t u O1 O2. apply U; constructor; assumption.
  - inversion T as [| |? ? TL (t & O)|]; subst. rewrite lookup_group. rewrite Forall_forall in F.
    assert (M : exists os, rmapM lookup l = Ok os).
    { assert (UL : forall x, In x l -> forall t u, outer t x -> outer u x -> t = u) by (intros x X t1 u1 O1 O2; apply U; apply (o_group _ a x l X); assumption).
      clear - F TL UL. induction l as [|x l IHl]; [exists []; reflexivity|]. cbn. destruct (F x (or_introl eq_refl) (TL x (or_introl eq_refl)) (UL x (or_introl eq_refl))) as [o ->]. cbn.
      destruct IHl as [os ->]; [intros y Y; apply F; right; exact Y | intros y Y; apply TL; right; exact Y | intros y Y; apply UL; right; exact Y|]. exists (o :: os). reflexivity. }
    destruct M as [os M]. rewrite M. cbn [rbind]. assert (S := fetch_spec a os). destruct (fetch a os) as [o|e]; [exists o; reflexivity|]. exfalso. apply S. exists t. apply rmapM_spec in M.
    assert (PX : forall x, In x l -> plain x).
    { assert (TP : forall e, tight e -> plain e) by (induction 1; constructor; assumption). intros x X. apply TP. apply TL. exact X. }
    assert (R : Forall2 (fun x o => right_table o x) l os) by (clear - M PX; induction M as [|x o l os L M IHM]; constructor; [apply C279_visitor; [apply PX; left; reflexivity | exact L] | apply IHM; intros y Y; apply PX; right; exact Y]).
    intros u. split.
    + intros I0. assert (G : exists x, In x l /\ outer u x).
      { clear - R I0. induction R as [|x o l os H R IHR]; [contradiction|]. destruct I0 as [->|I0]; [exists x; split; [left; reflexivity | apply H; reflexivity]|]. destruct (IHR I0) as (y & Y & O). exists y. split; [right; exact Y | exact O]. }
      destruct G as (x & X & O'). apply U; [apply (o_group _ a x l X O') | exact O].
    + intros ->. inversion O as [| | |? ? x ? I0 O'|]; subst. clear - R I0 O'. induction R as [|y o l os H R IHR]; [contradiction|]. destruct I0 as [->|I0]; [|right; apply IHR; exact I0].
      left. destruct o as [v|]; cbn in H; [f_equal; symmetry; apply H; exact O' | exfalso; apply (H t O')].
  - cbn. destruct u as [|t0 u]; [exists None; reflexivity|]. assert (S := fetch_spec true (map Some (t0 :: u))). destruct (fetch true (map Some (t0 :: u))) as [o|e]; [exists o; reflexivity|]. exfalso. apply S. exists t0.
    intros v. rewrite in_map_iff. split; [intros (w & [= ->] & I0); apply U; constructor; [exact I0 | left; reflexivity] | intros ->; exists t0; split; [reflexivity | left; reflexivity]].
Qed.
Lemma outer_all t e : outer t e -> In t (all_tables e).
Proof.
  induction 1 as [t|t x l X O IH|t e O IH|t a x l X O IH|t u i I0]; cbn.
  - left. reflexivity.
  - induction l as [|y l IHl]; [contradiction|]. apply in_app_iff. destruct X as [->|X]; [left; exact IH | right; apply IHl; exact X].
  - exact IH.
  - induction l as [|y l IHl]; [contradiction|]. apply in_app_iff. destruct X as [->|X]; [left; exact IH | right; apply IHl; exact X].
  - apply in_app_iff. left. exact I0.
Qed.
Lemma tight_plain e : tight e -> plain e.
Proof. induction 1; constructor; assumption. Qed.
(* If every operator of the predicate refers to some table and all of them to the same one, that table is found. *)
Theorem C279_lookup_partial : forall e t, tight e -> (forall u, outer u e <-> u = t) -> base_table false e = Ok t.
Proof.
  intros e t T O. unfold base_table. destruct (tight_ok e T) as [o L]; [intros a b A B; apply O in A, B; congruence|].
  assert (V := C279_visitor e o (tight_plain e T) L). assert (E : o = Some t).
  { destruct o as [v|]; cbn in V; [f_equal; symmetry; apply V; apply O; reflexivity | exfalso; apply (V t); apply O; reflexivity]. }
  subst o. assert (I0 : In t (all_tables e)) by (apply outer_all; apply O; reflexivity). rewrite L. cbn [rbind].
  assert (D := proj2 (dedup_In (all_tables e) t) I0). destruct (dedup (all_tables e)) as [|u [|v r]]; [contradiction | destruct D as [->|[]]; reflexivity | reflexivity].
Qed.
Print Assumptions C279_lookup_partial.
(* a.x = f(1) AND a.y > (SELECT ... FROM b WHERE ... a.z): operators on constants only are rejected, *)
Definition constant_function : ex := Group false [Group false [Leaf (Some 1); Group true [Leaf None]]; Group false [Leaf (Some 1); Sub [1] [2]]].
(* and a predicate without a table of its query gets one from inside a subquery. *)
Theorem C279_lookup_refuted : base_table false constant_function = Raise ValueError /\ (forall u, outer u constant_function <-> u = 1)
  /\ base_table false (Group false [Leaf None; Sub [] [2]]) = Ok 2 /\ (forall u, ~ outer u (Group false [Leaf None; Sub [] [2]])).
Proof.
  unfold constant_function. repeat split.
  - intros O. repeat match goal with H : False |- _ => contradiction | H : _ \/ _ |- _ => destruct H; subst | H : In _ (_ :: _) |- _ => cbn in H | H : In _ [] |- _ => cbn in H | H : outer _ _ |- _ => inversion H; clear H; subst end; reflexivity.
  - intros ->. apply (o_group _ _ (Group false [Leaf (Some 1); Group true [Leaf None]])); [left; reflexivity|]. apply (o_group _ _ (Leaf (Some 1))); [left; reflexivity | constructor].
  - intros u O. repeat match goal with H : False |- _ => contradiction | H : _ \/ _ |- _ => destruct H; subst | H : In _ (_ :: _) |- _ => cbn in H | H : In _ [] |- _ => cbn in H | H : outer _ _ |- _ => inversion H; clear H; subst end.
Qed.
Print Assumptions C279_lookup_refuted.
(* Window functions are skipped, whatever they refer to. *)
Theorem C279_window_refuted : base_table false (Group false [Leaf (Some 1); Window [Leaf (Some 2)]]) = Ok 1
  /\ outer 1 (Group false [Leaf (Some 1); Window [Leaf (Some 2)]]) /\ outer 2 (Group false [Leaf (Some 1); Window [Leaf (Some 2)]]).
Proof.
  split; [reflexivity|]. split; [apply (o_group _ _ (Leaf (Some 1))); [left; reflexivity|constructor]|].
  apply (o_group _ _ (Window [Leaf (Some 2)])); [right; left; reflexivity|]. apply (o_window _ (Leaf (Some 2))); [left; reflexivity|constructor].
Qed.
Print Assumptions C279_window_refuted.
(* For all predicates: joins have no base table, and a table that is returned is used in the predicate or within its subqueries. *)
Lemma lookup_outer : forall e t, lookup e = Ok (Some t) -> outer t e.
Proof.
  induction e as [o'|l F|e IH|a l F|u i] using ex_ind'; intros t H.
  - injection H as ->. constructor.
  - discriminate.
  - constructor. apply IH. exact H.
  - rewrite lookup_group in H. destruct (rmapM lookup l) as [os|] eqn:M; [|discriminate]. cbn [rbind] in H. apply rmapM_spec in M.
    assert (S := fetch_spec a os). rewrite H in S. assert (I0 : In (Some t) os) by (apply S; reflexivity). clear S H.
    assert (G : exists x, In x l /\ outer t x).
    { induction M as [|y o l os L M IHM]; [contradiction|]. inversion F; subst. destruct I0 as [->|I0].
      - exists y. split; [left; reflexivity|auto].
      - destruct (IHM H2 I0) as (x & X & O). exists x. split; [right; exact X|exact O]. }
    destruct G as (x & X & O). exact (o_group _ _ x _ X O).
  - cbn [lookup] in H. destruct u as [|v u]; [discriminate|]. assert (S := fetch_spec true (map Some (v :: u))). rewrite H in S.
    assert (I0 : In (Some t) (map Some (v :: u))) by (apply S; reflexivity). apply in_map_iff in I0 as (w & W & I0). injection W as ->. constructor. exact I0.
Qed.
Theorem C279_sound : forall j e t, base_table j e = Ok t -> j = false /\ (outer t e \/ forall u, outer u e -> u = t).
Proof.
  intros j e t H. unfold base_table in H. destruct j; [discriminate|]. split; [reflexivity|].
  assert (O : forall u, outer u e -> In u (dedup (all_tables e))) by (intros u U; apply dedup_In; apply outer_all; exact U).
  destruct (dedup (all_tables e)) as [|v [|w r]].
  - left. destruct (lookup e) as [[v|]|] eqn:L; try discriminate. cbn in H. injection H as <-. apply lookup_outer. exact L.
  - injection H as ->. right. intros u U. destruct (O u U) as [->|[]]. reflexivity.
  - left. destruct (lookup e) as [[x|]|] eqn:L; try discriminate. cbn in H. injection H as <-. apply lookup_outer. exact L.
Qed.
Print Assumptions C279_sound.
Theorem C279_no_table : forall j t n, base_table j (Leaf None) = Raise ValueError /\ base_table true (Leaf (Some t)) = Raise ValueError /\ base_table j (One (Sub [] [])) = Raise ValueError
  /\ base_table j (Group n []) = Raise ValueError.
Proof. intros [] t []; repeat split. Qed.
Print Assumptions C279_no_table.
Example C279_ex : base_table false (Group false [Leaf (Some 1); One (Leaf None); Sub [1] [2; 3]]) = Ok 1 /\ base_table false (Group false [Leaf (Some 1); Sub [2] [3]]) = Raise ValueError.
Proof. split; reflexivity. Qed.
