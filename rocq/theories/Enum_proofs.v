From Coq Require Import List Bool Arith Lia Sorting.Permutation.
From Verif Require Import PyBase Graph QPred_spec QPred_proofs DP_spec DP_proofs Enum_model Enum_spec.
Import ListNotations.

Lemma Permutation_filter {A} (f : A -> bool) (l m : list A) : Permutation l m -> Permutation (filter f l) (filter f m).
Proof.
  induction 1 as [|x l m H IH|x y l|l m n H1 IH1 H2 IH2]; cbn; [constructor| | |etransitivity; eassumption].
  - destruct (f x); [constructor|]; assumption.
  - destruct (f x), (f y); try apply Permutation_refl. constructor.
Qed.
Lemma Permutation_flat_map' {A B} (f : A -> list B) (l m : list A) : Permutation l m -> Permutation (flat_map f l) (flat_map f m).
Proof.
  induction 1 as [|x l m H IH|x y l|l m n H1 IH1 H2 IH2]; cbn; [constructor| | |etransitivity; eassumption].
  - now apply Permutation_app_head.
  - rewrite !app_assoc. apply Permutation_app_tail, Permutation_app_comm.
Qed.

Lemma partners_sym es x y : partners es x y -> partners es y x.
Proof. unfold partners. tauto. Qed.
Lemma leaves_ne t : exists x, In x (leaves t).
Proof. induction t as [x|o [x Hx] i _]; [exists x; now left|exists x; cbn; apply in_or_app; now left]. Qed.
Fixpoint tsize (t : jtree) : nat := match t with Leaf _ => 1 | Node o i => S (tsize o + tsize i) end.

Section Enum.
  Context (ns : list nat) (es : list (nat * nat)) (Hsimple : simple_graph ns es).
  Notation R := (partners es).
  (** An undirected edge of a contracted graph. *)
  Definition tedge (g : graph) (a b : jtree) : Prop := In (a, b) (snd g) \/ In (b, a) (snd g).
  Definition linked (a b : jtree) : Prop := exists x y, In x (leaves a) /\ In y (leaves b) /\ R x y.
  Definition inv (g : graph) : Prop :=
    Permutation (flat_map leaves (fst g)) ns /\ (forall t, In t (fst g) -> no_cross R t) /\
    (forall a b, tedge g a b <-> In a (fst g) /\ In b (fst g) /\ a <> b /\ linked a b).

  Lemma leaf_disjoint (g : graph) x y p : Permutation (flat_map leaves (fst g)) ns -> In x (fst g) -> In y (fst g) -> In p (leaves x) -> In p (leaves y) -> x = y.
  Proof.
    intros Hp. assert (Hnd : NoDup (flat_map leaves (fst g))) by (eapply Permutation_NoDup; [symmetry; exact Hp|apply Hsimple]). clear Hp. revert Hnd. induction (fst g) as [|z l IH]; [contradiction|].
    cbn. intros Hnd Hx Hy Hpx Hpy. assert (Hz : forall w q, In w l -> In q (leaves w) -> ~ In q (leaves z)).
    { intros w q Hw Hq Hqz. revert Hnd Hqz. assert (Hin : In q (flat_map leaves l)) by (apply in_flat_map; eauto). clear - Hin. induction (leaves z) as [|a r IH]; [contradiction|]. cbn. intros Hnd [<-|Hr]; inversion Hnd as [|? ? Hn Hnd']; subst.
      - apply Hn. apply in_or_app. now right.
      - auto. }
    assert (Hl : NoDup (flat_map leaves l)). { revert Hnd. clear. induction (leaves z) as [|a r IH]; [auto|]. cbn. intros H. inversion H. auto. }
    destruct Hx as [<-|Hx], Hy as [<-|Hy]; [reflexivity| | |now apply IH]; exfalso; eapply Hz; eassumption.
  Qed.
  Lemma nodes_NoDup (g : graph) : Permutation (flat_map leaves (fst g)) ns -> NoDup (fst g).
  Proof.
    intros Hp. assert (Hnd : NoDup (flat_map leaves (fst g))) by (eapply Permutation_NoDup; [symmetry; exact Hp|apply Hsimple]). clear Hp. revert Hnd. induction (fst g) as [|z l IH]; [constructor|]. cbn. intros Hnd. constructor.
    - intros Hz. destruct (leaves_ne z) as [q Hq]. assert (Hin : In q (flat_map leaves l)) by (apply in_flat_map; eauto). revert Hnd Hq. clear - Hin. induction (leaves z) as [|a r IH]; [contradiction|]. cbn. intros Hnd [<-|Hr]; inversion Hnd as [|? ? Hn Hnd']; subst; [|auto]. apply Hn. apply in_or_app. now right.
    - apply IH. revert Hnd. clear. induction (leaves z) as [|a r IH]; [auto|]. cbn. intros H. inversion H. auto.
  Qed.

  Lemma has_edge_iff l e : has_edge l e = true <-> In e l \/ In (snd e, fst e) l.
  Proof. unfold has_edge. rewrite orb_true_iff, !mem_In. reflexivity. Qed.
  Lemma simple_edges_iff l a b : (In (a, b) (simple_edges l) \/ In (b, a) (simple_edges l)) <-> (In (a, b) l \/ In (b, a) l).
  Proof.
    induction l as [|[x y] l IH]; [reflexivity|]. cbn [simple_edges]. destruct (has_edge (simple_edges l) (x, y)) eqn:E.
    - apply has_edge_iff in E. cbn in E. rewrite IH. cbn. split; [tauto|]. intros [[[= -> ->]|H]|[[= -> ->]|H]]; try tauto.
    - cbn. rewrite <- !(or_assoc _ _ _) in *. split.
      + intros H. assert (H' : (x, y) = (a, b) \/ (x, y) = (b, a) \/ (In (a, b) (simple_edges l) \/ In (b, a) (simple_edges l))) by tauto. rewrite IH in H'. tauto.
      + intros H. assert (H' : (x, y) = (a, b) \/ (x, y) = (b, a) \/ (In (a, b) l \/ In (b, a) l)) by tauto. rewrite <- IH in H'. tauto.
  Qed.

  Section Contract.
    Context (g : graph) (Hg : inv g) (u v w : jtree) (Hw : w = Node u v \/ w = Node v u) (He : tedge g u v).
    Let g' := contract u v w g.
    Lemma uv : In u (fst g) /\ In v (fst g) /\ u <> v /\ linked u v. Proof. apply Hg, He. Qed.
    Lemma w_leaves p : In p (leaves w) <-> In p (leaves u) \/ In p (leaves v).
    Proof. destruct Hw as [-> | ->]; cbn; rewrite in_app_iff; tauto. Qed.
    Lemma w_fresh : ~ In w (fst g).
    Proof.
      intros H. destruct uv as (Hu & Hv & Hne & _). destruct Hg as [Hp _]. destruct (leaves_ne u) as [p Hpu]. destruct (leaves_ne v) as [q Hqv].
      assert (w = u) by (apply (leaf_disjoint g w u p Hp H Hu); [apply w_leaves; now left|assumption]). assert (w = v) by (apply (leaf_disjoint g w v q Hp H Hv); [apply w_leaves; now right|assumption]). congruence.
    Qed.
    Lemma contract_nodes : exists rest, Permutation (fst g) (u :: v :: rest) /\ Permutation (fst g') (w :: rest) /\ ~ In u rest /\ ~ In v rest.
    Proof.
      destruct uv as (Hu & Hv & Hne & _). pose proof (nodes_NoDup g (proj1 Hg)) as Hnd. apply in_split in Hu as (l1 & l2 & E). assert (P1 : Permutation (fst g) (u :: l1 ++ l2)) by (rewrite E; symmetry; apply Permutation_middle).
      assert (Hv' : In v (l1 ++ l2)). { apply (Permutation_in _ P1) in Hv. destruct Hv; [congruence|assumption]. } apply in_split in Hv' as (m1 & m2 & E2).
      assert (P2 : Permutation (fst g) (u :: v :: m1 ++ m2)) by (rewrite P1, E2; constructor; symmetry; apply Permutation_middle). exists (m1 ++ m2).
      assert (Hnd' := Permutation_NoDup P2 Hnd). inversion Hnd' as [|? ? Hnu Hnd2]; subst. inversion Hnd2 as [|? ? Hnv Hnd3]; subst.
      assert (Hnu' : ~ In u (m1 ++ m2)) by (intros H; apply Hnu; now right). split; [assumption|]. split; [|auto].
      unfold g', contract. cbn [fst]. rewrite (Permutation_map (subst_node u v w) (Permutation_filter (fun x => negb (deqb x v)) _ _ P2)). cbn [filter].
      destruct (deqb u v) eqn:Euv; [apply deqb_true in Euv; contradiction|]. rewrite deqb_refl. cbn [negb map].
      unfold subst_node at 1. rewrite deqb_refl. constructor. apply Permutation_refl'.
      assert (Hall : forall l, (forall x, In x l -> x <> u /\ x <> v) -> map (subst_node u v w) (filter (fun x => negb (deqb x v)) l) = l).
      { induction l as [|x l IH]; intros Hl; [reflexivity|]. cbn. destruct (Hl x (or_introl eq_refl)) as [H1 H2]. destruct (deqb x v) eqn:E1; [apply deqb_true in E1; contradiction|]. cbn. unfold subst_node at 1. rewrite E1.
        destruct (deqb x u) eqn:E3; [apply deqb_true in E3; contradiction|]. f_equal. apply IH. intros y Hy. apply Hl. now right. }
      apply Hall. intros x Hx; split; intros ->; contradiction.
    Qed.
    Lemma subst_u : subst_node u v w u = w. Proof. unfold subst_node. now rewrite deqb_refl. Qed.
    Lemma subst_v : subst_node u v w v = w. Proof. unfold subst_node. rewrite deqb_refl. now destruct (deqb v u). Qed.
    Lemma subst_o x : x <> u -> x <> v -> subst_node u v w x = x.
    Proof. intros H1 H2. unfold subst_node. destruct (deqb x u) eqn:E; [apply deqb_true in E; contradiction|]. destruct (deqb x v) eqn:F; [apply deqb_true in F; contradiction|reflexivity]. Qed.
    Lemma node'_iff a : In a (fst g') <-> a = w \/ (In a (fst g) /\ a <> u /\ a <> v).
    Proof.
      destruct contract_nodes as (rest & P1 & P2 & Hu & Hv). split.
      - intros H. apply (Permutation_in _ P2) in H as [<-|H]; [auto|]. right. split; [apply (Permutation_in _ (Permutation_sym P1)); right; now right|]. split; intros ->; contradiction.
      - intros [-> |(H & H1 & H2)]; apply (Permutation_in _ (Permutation_sym P2)); [now left|]. apply (Permutation_in _ P1) in H as [H|[H|H]]; [congruence|congruence|now right].
    Qed.
    Lemma subst_In x : In x (fst g) -> In (subst_node u v w x) (fst g').
    Proof.
      intros H. apply node'_iff. destruct (eqd x u) as [->|H1]; [left; apply subst_u|]. destruct (eqd x v) as [->|H2]; [left; apply subst_v|]. right. rewrite subst_o by assumption. auto.
    Qed.
    Lemma subst_leaves x p : In p (leaves x) -> In p (leaves (subst_node u v w x)).
    Proof.
      intros H. destruct (eqd x u) as [->|H1]; [rewrite subst_u; apply w_leaves; auto|]. destruct (eqd x v) as [->|H2]; [rewrite subst_v; apply w_leaves; auto|]. now rewrite subst_o.
    Qed.
    Lemma preimage a p : In a (fst g') -> In p (leaves a) -> exists x, In x (fst g) /\ subst_node u v w x = a /\ In p (leaves x).
    Proof.
      intros Ha Hp. apply node'_iff in Ha as [-> |(H & H1 & H2)].
      - apply w_leaves in Hp as [Hp|Hp]; [exists u|exists v]; (split; [apply uv|]); (split; [|assumption]); [apply subst_u|apply subst_v].
      - exists a. split; [assumption|]. split; [now apply subst_o|assumption].
    Qed.
    Lemma contract_inv : inv g'.
    Proof.
      destruct uv as (Hu & Hv & Hne & p0 & q0 & Hp0 & Hq0 & Hr0). destruct contract_nodes as (rest & P1 & P2 & _). split; [|split].
      - destruct Hg as [Hp _]. rewrite (Permutation_flat_map' leaves _ _ P2), <- Hp, (Permutation_flat_map' leaves _ _ P1). cbn. rewrite app_assoc. apply Permutation_app_tail. destruct Hw as [-> | ->]; cbn; [reflexivity|apply Permutation_app_comm].
      - intros t Ht. apply node'_iff in Ht as [-> |(H & _)]; [|now apply Hg]. destruct Hw as [-> | ->].
        + apply (nc_node _ _ _ p0 q0); try assumption; now apply Hg.
        + apply (nc_node _ _ _ q0 p0); try assumption; try (now apply Hg). now apply partners_sym.
      - intros a b. unfold tedge, g', contract. cbn [snd]. rewrite simple_edges_iff. fold g'. destruct Hg as (_ & _ & Hge).
        set (L := map _ _). assert (HL : forall a b, In (a, b) L <-> exists x y, In (x, y) (snd g) /\ (x, y) <> (u, v) /\ (x, y) <> (v, u) /\ subst_node u v w x = a /\ subst_node u v w y = b).
        { intros c d. unfold L. rewrite in_map_iff. split.
          - intros ([x y] & [= E1 E2] & H). apply filter_In in H as [H1 H2]. apply negb_true_iff, orb_false_iff in H2 as [H2 H3]. exists x, y. split; [assumption|]. split; [intros E; rewrite E, deqb_refl in H2; discriminate|]. split; [intros E; rewrite E, deqb_refl in H3; discriminate|auto].
          - intros (x & y & H1 & H2 & H3 & H4 & H5). exists (x, y). split; [cbn; congruence|]. apply filter_In. split; [assumption|]. apply negb_true_iff, orb_false_iff. split; (destruct (deqb _ _) eqn:E; [apply deqb_true in E; contradiction|reflexivity]). }
        assert (Hto : forall a b, In (a, b) L -> In a (fst g') /\ In b (fst g') /\ a <> b /\ linked a b).
        { intros c d H. apply HL in H as (x & y & H1 & H2 & H3 & <- & <-). destruct (proj1 (Hge x y) (or_introl H1)) as (Hx & Hy & Hxy & p & q & Hp & Hq & Hr).
          split; [now apply subst_In|]. split; [now apply subst_In|]. split.
          - destruct (eqd x u) as [->|X1]; [|destruct (eqd x v) as [->|X2]]; (destruct (eqd y u) as [->|Y1]; [|destruct (eqd y v) as [->|Y2]]); rewrite ?subst_u, ?subst_v, ?subst_o by assumption; try congruence; intros E; apply w_fresh; (rewrite E; assumption) || (rewrite <- E; assumption).
          - exists p, q. split; [now apply subst_leaves|]. split; [now apply subst_leaves|assumption]. }
        split.
        + intros [H|H]; [now apply Hto|]. destruct (Hto _ _ H) as (X1 & X2 & X3 & p & q & Hp & Hq & Hr). split; [assumption|]. split; [assumption|]. split; [congruence|]. exists q, p. split; [assumption|]. split; [assumption|now apply partners_sym].
        + intros (Ha & Hb & Hab & p & q & Hp & Hq & Hr). destruct (preimage a p Ha Hp) as (x & Hx & Ex & Hpx). destruct (preimage b q Hb Hq) as (y & Hy & Ey & Hqy).
          assert (Hxy : x <> y) by congruence. assert (Hn : forall c d, (c, d) = (u, v) \/ (c, d) = (v, u) -> subst_node u v w c = subst_node u v w d) by (intros c d [[= -> ->]|[= -> ->]]; now rewrite subst_u, subst_v).
          destruct (proj2 (Hge x y)) as [H|H]; [split; [assumption|]; split; [assumption|]; split; [assumption|]; exists p, q; auto|left|right]; apply HL.
          * exists x, y. split; [assumption|]. split; [intros E; apply Hab; rewrite <- Ex, <- Ey; auto|]. split; [intros E; apply Hab; rewrite <- Ex, <- Ey; auto|auto].
          * exists y, x. split; [assumption|]. split; [intros E; apply Hab; rewrite <- Ex, <- Ey; symmetry; auto|]. split; [intros E; apply Hab; rewrite <- Ex, <- Ey; symmetry; auto|auto].
    Qed.
    Lemma contract_length : length (fst g) = S (length (fst g')).
    Proof. destruct contract_nodes as (rest & P1 & P2 & _). rewrite (Permutation_length P1), (Permutation_length P2). reflexivity. Qed.
  End Contract.

  Lemma lift_inv : inv (lift ns es).
  Proof.
    unfold inv, lift. cbn [fst snd]. split; [|split].
    - apply Permutation_refl'. clear. induction ns as [|x l IH]; cbn; [reflexivity|now f_equal].
    - intros t Ht. apply in_map_iff in Ht as (x & <- & _). constructor.
    - intros a b. unfold tedge. cbn [snd]. destruct Hsimple as [_ Hs].
      assert (H : forall a b, In (a, b) (map (fun e => (Leaf (fst e), Leaf (snd e))) es) <-> exists x y, a = Leaf x /\ b = Leaf y /\ In (x, y) es).
      { intros c d. rewrite in_map_iff. split; [intros ([x y] & [= <- <-] & H); exists x, y; auto|intros (x & y & -> & -> & H); exists (x, y); auto]. }
      rewrite !H. split.
      + intros [(x & y & -> & -> & Hxy)|(y & x & -> & -> & Hxy)]; destruct (Hs _ _ Hxy) as (H1 & H2 & H3); (split; [now apply in_map|]); (split; [now apply in_map|]); (split; [congruence|]); exists x, y; cbn; unfold partners; tauto.
      + intros (Ha & Hb & Hab & x & y & Hx & Hy & [Hr|Hr]); apply in_map_iff in Ha as (a' & <- & Ha), Hb as (b' & <- & Hb); cbn in Hx, Hy; destruct Hx as [->|[]], Hy as [->|[]]; [left|right]; eexists _, _; eauto.
  Qed.

  (** ** Exhaustive enumeration *)
  Lemma enumerate_sound fuel : forall g t, inv g -> In t (enumerate fuel g) -> join_order ns es t.
  Proof.
    induction fuel as [|fuel IH]; intros g t Hg; [contradiction|]. cbn [enumerate]. 
    assert (Hrec : In t (flat_map (fun e => enumerate fuel (contract (fst e) (snd e) (Node (fst e) (snd e)) g) ++ enumerate fuel (contract (fst e) (snd e) (Node (snd e) (fst e)) g)) (snd g)) -> join_order ns es t).
    { intros H. apply in_flat_map in H as ([u v] & He & H). cbn [fst snd] in H. apply in_app_or in H as [H|H]; eapply IH; try exact H; apply contract_inv; auto; now left. }
    destruct (fst g) as [|x [|y l]] eqn:E; [exact Hrec| |exact Hrec]. intros [<-|[]]. destruct Hg as (Hp & Hx & _). rewrite E in *. split; [cbn in Hp; rewrite app_nil_r in Hp; exact Hp|]. apply Hx. now left.
  Qed.
  Inductive cut : jtree -> list jtree -> Prop := cut_self t : cut t [t] | cut_node o i A B : cut o A -> cut i B -> cut (Node o i) (A ++ B).
  Lemma cut_ne t A : cut t A -> A <> [].
  Proof. induction 1 as [t|o i A B H1 IH1 H2 IH2]; [discriminate|]. intros E. apply app_eq_nil in E. tauto. Qed.
  Lemma cut_one t x : cut t [x] -> x = t.
  Proof.
    intros H. inversion H as [|o i A B H1 H2 E1 E2]; [reflexivity|]. exfalso. apply cut_ne in H1, H2. destruct A as [|a [|b A]], B; cbn in E2; congruence.
  Qed.
  Lemma cut_sub t A : cut t A -> forall s, In s A -> subtree s t.
  Proof. induction 1 as [t|o i A B H1 IH1 H2 IH2]; intros s Hs; [destruct Hs as [<-|[]]; constructor|]. apply in_app_or in Hs as [Hs|Hs]; [apply st_o|apply st_i]; auto. Qed.
  Lemma cut_deep t A : cut t A -> 2 <= length A -> exists a b A1 A2, A = A1 ++ a :: b :: A2 /\ cut t (A1 ++ Node a b :: A2).
  Proof.
    induction 1 as [t|o i A B H1 IH1 H2 IH2]; [cbn; lia|]. intros Hl. destruct (le_lt_dec 2 (length A)) as [L|L].
    - destruct (IH1 L) as (a & b & A1 & A2 & -> & H). exists a, b, A1, (A2 ++ B). split; [now rewrite <- app_assoc|]. replace (A1 ++ Node a b :: A2 ++ B) with ((A1 ++ Node a b :: A2) ++ B) by now rewrite <- app_assoc. now constructor.
    - destruct (le_lt_dec 2 (length B)) as [M|M].
      + destruct (IH2 M) as (a & b & B1 & B2 & -> & H). exists a, b, (A ++ B1), B2. rewrite <- !app_assoc. split; [reflexivity|]. now constructor.
      + pose proof (cut_ne _ _ H1). pose proof (cut_ne _ _ H2). destruct A as [|x [|y A]]; [contradiction| |cbn in L; lia]. destruct B as [|z [|y B]]; [contradiction| |cbn in M; lia].
        apply cut_one in H1, H2. subst. exists o, i, [], []. split; [reflexivity|]. constructor.
  Qed.
  Lemma no_cross_sub s t : subtree s t -> no_cross R t -> no_cross R s.
  Proof. induction 1; intros H'; [assumption| |]; inversion H'; auto. Qed.
  Lemma enumerate_complete fuel : forall g t A, inv g -> length (fst g) <= fuel -> no_cross R t -> cut t A -> Permutation A (fst g) -> In t (enumerate fuel g).
  Proof.
    induction fuel as [|fuel IH]; intros g t A Hg Hl Hx Hc Hp.
    - exfalso. apply cut_ne in Hc. apply Permutation_length in Hp. destruct A; [contradiction|cbn in Hp; lia].
    - destruct (le_lt_dec 2 (length A)) as [L|L].
      + destruct (cut_deep t A Hc L) as (a & b & A1 & A2 & -> & Hc'). assert (Hsub : no_cross R (Node a b)) by (eapply no_cross_sub; [eapply cut_sub; [exact Hc'|apply in_or_app; right; now left]|assumption]).
        assert (Hab : tedge g a b).
        { apply Hg. inversion Hsub as [|o i x y N1 N2 Hx1 Hy1 Hr1]; subst. assert (Hin : forall z, In z (A1 ++ a :: b :: A2) -> In z (fst g)) by (intros z; apply Permutation_in; assumption).
          split; [apply Hin, in_or_app; right; now left|]. split; [apply Hin, in_or_app; right; right; now left|]. split; [|exists x, y; auto]. intros ->.
          assert (Hnd := nodes_NoDup g (proj1 Hg)). apply (Permutation_NoDup (Permutation_sym Hp)) in Hnd. apply NoDup_remove_2 in Hnd. apply Hnd. apply in_or_app. right. now left. }
        assert (Hcand : In t (flat_map (fun e => enumerate fuel (contract (fst e) (snd e) (Node (fst e) (snd e)) g) ++ enumerate fuel (contract (fst e) (snd e) (Node (snd e) (fst e)) g)) (snd g))).
        { assert (Hgo : forall u v, tedge g u v -> (u = a /\ v = b) \/ (u = b /\ v = a) -> In t (enumerate fuel (contract u v (Node a b) g))).
          { intros u v Huv Hor. assert (Hw : Node a b = Node u v \/ Node a b = Node v u) by (destruct Hor as [[-> ->]|[-> ->]]; auto). pose proof (contract_length g Hg u v (Node a b) Huv) as Hlen.
            apply (IH _ _ (A1 ++ Node a b :: A2)); [apply contract_inv; assumption|lia|assumption|assumption|]. destruct (contract_nodes g Hg u v (Node a b) Huv) as (rest & P1 & P2 & _). rewrite P2. symmetry. rewrite <- Permutation_middle. constructor.
            assert (P3 : Permutation (u :: v :: A1 ++ A2) (u :: v :: rest)).
            { rewrite <- P1, <- Hp. destruct Hor as [[-> ->]|[-> ->]]; [|rewrite perm_swap]; rewrite <- !Permutation_middle; reflexivity. }
            symmetry. apply Permutation_cons_inv in P3. now apply Permutation_cons_inv in P3. }
          destruct Hab as [Hab|Hab]; apply in_flat_map.
          - exists (a, b). split; [assumption|]. cbn [fst snd]. apply in_or_app. left. apply Hgo; [now left|auto].
          - exists (b, a). split; [assumption|]. cbn [fst snd]. apply in_or_app. right. apply Hgo; [now left|auto]. }
        cbn [enumerate]. apply Permutation_length in Hp. rewrite app_length in Hp. cbn [length] in Hp. destruct (fst g) as [|x [|y l]]; try exact Hcand. cbn in Hp. lia.
      + pose proof (cut_ne _ _ Hc). destruct A as [|x [|y A]]; [contradiction| |cbn in L; lia]. apply cut_one in Hc. subst x. apply Permutation_length_1_inv in Hp. cbn [enumerate]. rewrite Hp. now left.
  Qed.
  Lemma cut_leaves t : cut t (map Leaf (leaves t)).
  Proof. induction t as [x|o IHo i IHi]; cbn; [constructor|]. rewrite map_app. now constructor. Qed.
  Lemma enumerate_iff t : In t (enumerate (length ns) (lift ns es)) <-> join_order ns es t.
  Proof.
    split; [apply enumerate_sound, lift_inv|]. intros [Hp Hx]. apply (enumerate_complete _ _ _ (map Leaf (leaves t))); [apply lift_inv|cbn; now rewrite map_length|assumption|apply cut_leaves|]. cbn. now apply Permutation_map.
  Qed.

  (** ** Random contraction *)
  Context (Hconn : hangs_together R ns).
  Lemma choose_ok {A} c (l : list A) : l <> [] -> exists x, choose c l = Ok x /\ In x l.
  Proof. destruct l as [|x l]; [contradiction|]. intros _. eexists. split; [reflexivity|]. apply nth_In. apply Nat.mod_upper_bound. discriminate. Qed.
  Lemma edge_exists g : inv g -> forall u, In u (fst g) -> 2 <= length (fst g) -> exists v, tedge g u v.
  Proof.
    intros Hg u Hu Hl. destruct Hg as (Hp & Hx & He). pose proof (nodes_NoDup g Hp) as Hnd.
    assert (Hv : exists v, In v (fst g) /\ v <> u). { destruct (fst g) as [|x [|y l]]; cbn in Hl; try lia. destruct (eqd x u) as [->|]; [|exists x; split; [now left|assumption]]. exists y. split; [right; now left|]. inversion Hnd as [|? ? Hn _]; subst. intros ->. apply Hn. now left. }
    destruct Hv as (v & Hv & Hvu). destruct (leaves_ne u) as [p Hpu]. destruct (leaves_ne v) as [q Hqv].
    assert (Hin : forall t z, In t (fst g) -> In z (leaves t) -> In z ns) by (intros t z Ht Hz; apply (Permutation_in _ Hp); apply in_flat_map; eauto).
    destruct (crossing R ns (leaves u) Hconn p q) as (x & y & Hxn & Hxu & Hyn & Hyu & Hr); [eauto|assumption|eauto| |].
    { intros Hqu. apply Hvu. apply (leaf_disjoint g v u q Hp); assumption. }
    apply (Permutation_in _ (Permutation_sym Hp)) in Hyn. apply in_flat_map in Hyn as (t & Ht & Hyt). exists t. apply He. split; [assumption|]. split; [assumption|]. split; [intros <-; contradiction|]. exists x, y. auto.
  Qed.
  Lemma sample_loop_ok fuel : forall cs k g, inv g -> fst g <> [] -> length (fst g) <= fuel -> exists t, sample_loop fuel cs k g = Ok t /\ join_order ns es t.
  Proof.
    induction fuel as [|fuel IH]; intros cs k g Hg Hne Hl; [destruct (fst g); [contradiction|cbn in Hl; lia]|].
    cbn [sample_loop]. destruct (fst g) as [|x [|y l]] eqn:E; [contradiction| |].
    - exists x. split; [reflexivity|]. destruct Hg as (Hp & Hx & _). rewrite E in *. split; [cbn in Hp; rewrite app_nil_r in Hp; exact Hp|]. apply Hx. now left.
    - destruct (edge_exists g Hg x) as [v Hv]; [rewrite E; now left|rewrite E; cbn; lia|]. assert (Hs : snd g <> []) by (destruct Hv as [Hv|Hv]; intros E0; rewrite E0 in Hv; destruct Hv).
      unfold sample_step. destruct (choose_ok (fst (cs k)) _ Hs) as ([a b] & -> & Hab). cbn [rmap rbind fst snd]. set (w := if snd (cs k) then Node a b else Node b a). assert (Hw : w = Node a b \/ w = Node b a) by (unfold w; destruct (snd (cs k)); auto).
      assert (Ht : tedge g a b) by now left. pose proof (contract_length g Hg a b w Ht) as Hlen. rewrite E in Hlen. apply IH; [apply contract_inv; assumption| |cbn in *; lia].
      intros E0. rewrite E0 in Hlen. cbn in Hlen. lia.
  Qed.
  Lemma subtree_trans s t r : subtree s t -> subtree t r -> subtree s r.
  Proof. intros H1 H2. induction H2; [assumption|apply st_o; auto|apply st_i; auto]. Qed.
  (** A node of the graph is part of the drawn tree. *)
  Lemma sample_loop_sub fuel : forall cs k g t, inv g -> sample_loop fuel cs k g = Ok t -> forall s, In s (fst g) -> subtree s t.
  Proof.
    induction fuel as [|fuel IH]; intros cs k g t Hg; cbn [sample_loop]; [discriminate|]. 
    assert (Hrec : rbind (sample_step (fst (cs k)) (snd (cs k)) g) (sample_loop fuel cs (S k)) = Ok t -> forall s, In s (fst g) -> subtree s t).
    { unfold sample_step. intros H s Hs. destruct (choose (fst (cs k)) (snd g)) as [[a b]|] eqn:Ec; [|discriminate]. cbn [rmap rbind fst snd] in H. set (w := if snd (cs k) then Node a b else Node b a) in *. assert (Hw : w = Node a b \/ w = Node b a) by (unfold w; destruct (snd (cs k)); auto).
      assert (Hab : In (a, b) (snd g)). { destruct (snd g) as [|e l] eqn:Es; [discriminate|]. rewrite <- Es in *. destruct (choose_ok (fst (cs k)) (snd g)) as (x & Hx & Hin); [rewrite Es; discriminate|]. congruence. }
      assert (Ht : tedge g a b) by now left. pose proof (IH _ _ _ _ (contract_inv g Hg a b w Hw Ht) H) as Hsub. assert (Hwsub : forall s, (s = a \/ s = b) -> subtree s w) by (intros z Hz; unfold w; destruct (snd (cs k)), Hz as [-> | ->]; ((apply st_o; constructor) || (apply st_i; constructor))).
      destruct (eqd s a) as [->|Ha]; [eapply subtree_trans; [apply Hwsub; now left|apply Hsub, (node'_iff g Hg); auto]|]. destruct (eqd s b) as [->|Hb]; [eapply subtree_trans; [apply Hwsub; now right|apply Hsub, (node'_iff g Hg); auto]|].
      apply Hsub, (node'_iff g Hg); auto. }
    destruct (fst g) as [|x [|y l]] eqn:E; [discriminate| |exact Hrec]. intros [= <-] s [<-|[]]. constructor.
  Qed.
  Lemma draw_bushy_ok cs : ns <> [] -> exists t, draw_bushy (length ns) cs ns es None = Ok t /\ join_order ns es t.
  Proof. intros Hne. apply sample_loop_ok; [apply lift_inv|destruct ns; [contradiction|discriminate]|cbn; now rewrite map_length]. Qed.
  Lemma draw_bushy_base cs b : In b ns -> 2 <= length ns -> exists t p, draw_bushy (length ns) cs ns es (Some b) = Ok t /\ join_order ns es t /\ R b p /\ (subtree (Node (Leaf b) (Leaf p)) t \/ subtree (Node (Leaf p) (Leaf b)) t).
  Proof.
    intros Hb Hl. unfold draw_bushy, sample_graph, tadj. assert (Hbin : In (Leaf b) (fst (lift ns es))) by (cbn; now apply in_map). rewrite (proj2 (mem_In _ _) Hbin). cbn [rbind]. set (nb := dedup _).
    assert (Hnb : forall x, In x nb <-> tedge (lift ns es) (Leaf b) x).
    { intros x. unfold nb, tedge. rewrite dedup_In, in_flat_map. split.
      - intros ([c d] & Hin & H). cbn [fst snd] in H. apply in_app_or in H as [H|H]; (destruct (deqb _ _) eqn:E; [|contradiction]); apply deqb_true in E; destruct H as [<-|[]]; subst; auto.
      - intros [H|H]; eexists; (split; [exact H|]); cbn [fst snd]; apply in_or_app; [left|right]; rewrite deqb_refl; now left. }
    destruct (edge_exists _ lift_inv (Leaf b) Hbin) as [v Hv]; [cbn; now rewrite map_length|]. destruct (choose_ok (fst (cs 0)) nb) as (p & -> & Hp); [intros E; apply Hnb in Hv; rewrite E in Hv; destruct Hv|]. cbn [rbind]. apply Hnb in Hp.
    set (w := if snd (cs 0) then Node (Leaf b) p else Node p (Leaf b)). assert (Hw : w = Node (Leaf b) p \/ w = Node p (Leaf b)) by (unfold w; destruct (snd (cs 0)); auto).
    pose proof (contract_length _ lift_inv (Leaf b) p w Hp) as Hlen. assert (Hls : length (fst (lift ns es)) = length ns) by (cbn; apply map_length). 
    destruct (sample_loop_ok (length ns) cs 1 (contract (Leaf b) p w (lift ns es))) as (t & Ht & Hj); [apply contract_inv; auto using lift_inv|intros E; rewrite E in Hlen; cbn [length] in Hlen; lia|lia|].
    destruct (proj1 (proj2 (proj2 lift_inv) (Leaf b) p) Hp) as (_ & Hpin & _ & x & y & Hx & Hy & Hr). cbn in Hpin. apply in_map_iff in Hpin as (p' & <- & Hp'). cbn in Hx, Hy. destruct Hx as [->|[]], Hy as [->|[]].
    exists t, y. split; [exact Ht|]. split; [assumption|]. split; [assumption|].
    assert (Hsub : subtree w t) by (eapply sample_loop_sub; [apply contract_inv; [apply lift_inv|exact Hw|exact Hp]|exact Ht|apply node'_iff; auto using lift_inv]). destruct Hw as [E|E]; rewrite E in Hsub; auto.
  Qed.
End Enum.
