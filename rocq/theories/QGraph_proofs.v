(** Lemmas about annotated join graphs. *)
From Coq Require Import List Bool Arith Lia.
From Verif Require Import PyBase Graph Pred_model Pred_spec Pred_proofs QPred_model QPred_spec QPred_proofs QPred2_proofs QPred3_proofs Expr_model QGraph_model QGraph_spec.
Import ListNotations.

Section NX.
  Context {N A L : Type} {EN : EqD N}.
  Notation edge := (N * N * L)%type.

  Lemma same_edge_iff u v a b (l : L) : same_edge u v (a, b, l) = true <-> (u = a /\ v = b) \/ (u = b /\ v = a).
  Proof. cbn. rewrite orb_true_iff, !andb_true_iff, !deqb_eq. tauto. Qed.
  Lemma same_edge_trans u v (e : edge) x y (l : L) : same_edge u v e = true -> same_edge x y e = same_edge x y (u, v, l).
  Proof.
    destruct e as [[a b] k]. intros H. apply same_edge_iff in H.
    apply Bool.eq_iff_eq_true. rewrite !same_edge_iff. destruct H as [[-> ->]|[-> ->]]; tauto.
  Qed.
  Lemma same_edge_flip u v (e : edge) : same_edge u v e = same_edge v u e.
  Proof. destruct e as [[a b] l]. apply Bool.eq_iff_eq_true. rewrite !same_edge_iff. tauto. Qed.
  Lemma has_edge_label (es : list edge) u v : has_edge es u v = true <-> edge_label es u v <> None.
  Proof.
    unfold has_edge, edge_label. induction es as [|e es IH]; cbn; [split; [discriminate|congruence]|].
    destruct (same_edge u v e); cbn; [split; [discriminate|reflexivity]|exact IH].
  Qed.
  Lemma edge_label_flip (es : list edge) u v : edge_label es u v = edge_label es v u.
  Proof. unfold edge_label. f_equal. induction es as [|e es IH]; cbn; [reflexivity|]. now rewrite (same_edge_flip u v), IH. Qed.
  Lemma edge_label_In (es : list edge) u v l : edge_label es u v = Some l -> In (u, v, l) es \/ In (v, u, l) es.
  Proof.
    unfold edge_label. destruct (find _ es) as [[[a b] k]|] eqn:F; [|discriminate]. cbn. intros [= <-].
    apply find_some in F as [F S1]. apply same_edge_iff in S1 as [[-> ->]|[-> ->]]; auto.
  Qed.
  Lemma In_edge_label (es : list edge) u v l : In (u, v, l) es -> exists k, edge_label es u v = Some k.
  Proof.
    intros H. unfold edge_label. destruct (find (same_edge u v) es) as [e|] eqn:F; [cbn; eauto|].
    pose proof (find_none _ _ F _ H) as K. assert (same_edge u v (u, v, l) = true) by (apply same_edge_iff; auto). congruence.
  Qed.

  Lemma add_edge_label (g : nxgraph N A L) u v l a b :
    edge_label (g_edges (add_edge g u v l)) a b = if same_edge a b (u, v, l) then Some l else edge_label (g_edges g) a b.
  Proof.
    unfold add_edge; cbn [g_edges]. generalize (g_edges g). intros es. destruct (has_edge es u v) eqn:Hh.
    - unfold edge_label, has_edge in *. destruct (same_edge a b (u, v, l)) eqn:S1.
      + assert (K : forall e : edge, same_edge a b e = same_edge u v e).
        { intros [[p q] k]. apply Bool.eq_iff_eq_true. apply same_edge_iff in S1. rewrite !same_edge_iff. destruct S1 as [[-> ->]|[-> ->]]; tauto. }
        induction es as [|e es IH]; cbn in *; [discriminate|]. destruct (same_edge u v e) eqn:S2.
        * destruct e as [[p q] k]. cbn in S2 |- *. specialize (K (p, q, l)). cbn in K. rewrite K. now rewrite S2.
        * rewrite K, S2. apply IH. exact Hh.
      + assert (K : forall e : edge, same_edge u v e = true -> same_edge a b e = false).
        { intros e S2. rewrite (same_edge_trans u v e a b l S2). exact S1. }
        clear Hh. induction es as [|e es IH]; cbn; [reflexivity|]. destruct (same_edge u v e) eqn:S2.
        * destruct e as [[p q] k]. cbn [fst]. pose proof (K _ S2) as K2. assert (K3 : same_edge a b (p, q, l) = false) by exact K2.
          rewrite K2, K3. exact IH.
        * destruct (same_edge a b e); [reflexivity|exact IH].
    - unfold edge_label. destruct (same_edge a b (u, v, l)) eqn:S1.
      + assert (K : forall e, In e es -> same_edge a b e = false).
        { intros e He. destruct (same_edge a b e) eqn:S2; [|reflexivity]. exfalso.
          assert (has_edge es u v = true); [|congruence]. apply existsb_exists. exists e. split; [assumption|].
          destruct e as [[p q] k]. apply same_edge_iff in S2. apply same_edge_iff in S1. apply same_edge_iff. destruct S1 as [[-> ->]|[-> ->]]; tauto. }
        clear Hh. induction es as [|e es IH]; cbn [find app].
        * now rewrite S1.
        * rewrite (K e) by (now left). apply IH. intros; apply K; now right.
      + clear Hh. induction es as [|e es IH]; cbn [find app]; [now rewrite S1|]. destruct (same_edge a b e); [reflexivity|exact IH].
  Qed.
  Lemma touch_get (ns : dict N (option A)) n k : dget (touch ns n) k = match dget ns k with Some a => Some a | None => if eqd k n then Some None else None end.
  Proof.
    unfold touch. destruct (dmem ns n) eqn:M.
    - destruct (dget ns k) eqn:G; [reflexivity|]. destruct (eqd k n) as [->|]; [|reflexivity]. apply dmem_In in M. apply dget_None in G. contradiction.
    - rewrite dset_spec. destruct (eqd k n) as [->|]; [|now destruct (dget ns k)].
      apply dmem_nIn in M. apply dget_None in M. now rewrite M.
  Qed.
  Lemma add_edge_node (g : nxgraph N A L) u v l k : dget (g_nodes (add_edge g u v l)) k =
    match dget (g_nodes g) k with Some a => Some a | None => if eqd k u then Some None else if eqd k v then Some None else None end.
  Proof. unfold add_edge; cbn [g_nodes]. rewrite !touch_get. destruct (dget (g_nodes g) k); [reflexivity|]. destruct (eqd k u); reflexivity. Qed.

  (** Contraction, as a statement about pairs of end points. *)
  Definition joined (g : nxgraph N A L) a b l := In (a, b, l) (g_edges g) \/ In (b, a, l) (g_edges g).
  Lemma joined_add g u v l a b k : joined (add_edge g u v l) a b k -> (joined g a b k /\ True) \/ (k = l /\ ((a = u /\ b = v) \/ (a = v /\ b = u))).
  Proof.
    unfold joined, add_edge; cbn [g_edges].
    assert (K : forall x y m, In (x, y, m) (if has_edge (g_edges g) u v then map (fun e => if same_edge u v e then (fst e, l) else e) (g_edges g) else g_edges g ++ [(u, v, l)]) ->
      In (x, y, m) (g_edges g) \/ (m = l /\ ((x = u /\ y = v) \/ (x = v /\ y = u)))).
    { intros x y m. destruct (has_edge _ u v).
      - intros H. apply in_map_iff in H as ([[p q] w] & H & Hin). destruct (same_edge u v (p, q, w)) eqn:S1.
        + injection H as <- <- <-. apply same_edge_iff in S1. right. split; [reflexivity|]. destruct S1 as [[-> ->]|[-> ->]]; auto.
        + injection H as <- <- <-. auto.
      - intros H. apply in_app_iff in H as [H|[H|[]]]; [auto|]. injection H as <- <- <-. auto. }
    intros [H|H]; apply K in H; tauto.
  Qed.
  Lemma joined_label g a b : (exists l, joined g a b l) <-> edge_label (g_edges g) a b <> None.
  Proof.
    split.
    - intros (l & [H|H]); apply In_edge_label in H as (k & H); [congruence|]. rewrite edge_label_flip. congruence.
    - destruct (edge_label (g_edges g) a b) as [l|] eqn:H; [|congruence]. intros _. exists l. apply edge_label_In. exact H.
  Qed.
  Lemma contract_spec g u v h : contract g u v = Ok h ->
    let r (n : N) := if deqb n v then u else n in
    (forall a b l, joined h a b l -> exists p q, r p = a /\ r q = b /\ joined g p q l) /\
    (forall p q l, joined g p q l -> exists k, joined h (r p) (r q) k) /\
    (forall n, n <> v -> dmem (g_nodes g) n = true -> dmem (g_nodes h) n = true).
  Proof.
    unfold contract. destruct (dmem (g_nodes g) v) eqn:Hv; cbn [negb]; [|discriminate]. cbv zeta. intros H. injection H as <-.
    set (r := fun n : N => if deqb n v then u else n).
    set (at_v := fun e : edge => let '(a, b, _) := e in deqb a v || deqb b v).
    set (step := fun (h : nxgraph N A L) (e : edge) => let '(a, b, l) := e in if has_edge (g_edges h) (r a) (r b) then h else add_edge h (r a) (r b) l).
    assert (F : forall es h0,
      (forall a b l, joined (fold_left step es h0) a b l -> joined h0 a b l \/ exists p q, r p = a /\ r q = b /\ (In (p, q, l) es \/ In (q, p, l) es)) /\
      (forall a b l, joined h0 a b l -> exists k, joined (fold_left step es h0) a b k) /\
      (forall p q l, In (p, q, l) es -> exists k, joined (fold_left step es h0) (r p) (r q) k) /\
      (forall n, dmem (g_nodes h0) n = true -> dmem (g_nodes (fold_left step es h0)) n = true)).
    { induction es as [|[[p q] l] es IH]; intros h0; cbn [fold_left].
      - split; [auto|]. split; [eauto|]. split; [intros ? ? ? []|auto].
      - destruct (IH (step h0 (p, q, l))) as (I1 & I2 & I3 & I4).
        assert (J1 : forall a b k, joined (step h0 (p, q, l)) a b k -> joined h0 a b k \/ (k = l /\ ((a = r p /\ b = r q) \/ (a = r q /\ b = r p)))).
        { intros a b k H. unfold step in H. destruct (has_edge (g_edges h0) (r p) (r q)); [auto|]. apply joined_add in H. tauto. }
        assert (J2 : forall a b, (exists k, joined h0 a b k) -> exists k, joined (step h0 (p, q, l)) a b k).
        { intros a b H. apply joined_label in H. apply joined_label. unfold step. destruct (has_edge (g_edges h0) (r p) (r q)); [exact H|].
          rewrite add_edge_label. destruct (same_edge _ _ _); [discriminate|exact H]. }
        assert (J3 : exists k, joined (step h0 (p, q, l)) (r p) (r q) k).
        { apply joined_label. unfold step. destruct (has_edge (g_edges h0) (r p) (r q)) eqn:Hh; [apply has_edge_label; exact Hh|].
          rewrite add_edge_label. replace (same_edge (r p) (r q) (r p, r q, l)) with true; [discriminate|]. symmetry. apply same_edge_iff. auto. }
        split; [|split; [|split]].
        + intros a b k H. apply I1 in H as [H|(p' & q' & E1 & E2 & H)].
          * apply J1 in H as [H|[-> [[-> ->]|[-> ->]]]]; [auto| |]; right.
            -- exists p, q. split; [reflexivity|]. split; [reflexivity|]. left; now left.
            -- exists q, p. split; [reflexivity|]. split; [reflexivity|]. right; now left.
          * right. exists p', q'. split; [assumption|]. split; [assumption|]. destruct H as [H|H]; [left|right]; now right.
        + intros a b k H. destruct (J2 a b (ex_intro _ k H)) as (k' & H'). eapply I2. exact H'.
        + intros p' q' k [H|H].
          * injection H as <- <- <-. destruct J3 as (k' & H'). eapply I2. exact H'.
          * eapply I3. exact H.
        + intros n Hn. apply I4. unfold step. destruct (has_edge (g_edges h0) (r p) (r q)); [exact Hn|].
          apply dmem_In. apply dget_key. rewrite add_edge_node. apply dmem_In in Hn. apply dget_key in Hn. destruct (dget (g_nodes h0) n); [discriminate|congruence]. }
    destruct (F (filter at_v (g_edges g)) (mkg (ddel (g_nodes g) v) (filter (fun e => negb (at_v e)) (g_edges g)))) as (F1 & F2 & F3 & F4).
    assert (Hn : forall p q l, In (p, q, l) (filter (fun e => negb (at_v e)) (g_edges g)) -> In (p, q, l) (g_edges g) /\ r p = p /\ r q = q).
    { intros p q l H. apply filter_In in H as [H K]. split; [assumption|]. unfold at_v in K. apply negb_true_iff, orb_false_iff in K as [K1 K2].
      unfold r. rewrite K1, K2. auto. }
    split; [|split].
    - intros a b l H. apply F1 in H as [H|(p & q & E1 & E2 & H)].
      + unfold joined in H; cbn [g_edges] in H. destruct H as [H|H]; apply Hn in H as (H & R1 & R2); exists a, b; unfold joined; auto.
      + exists p, q. split; [assumption|]. split; [assumption|]. unfold joined. destruct H as [H|H]; apply filter_In in H as [H _]; auto.
    - assert (G1 : forall p q l, In (p, q, l) (g_edges g) -> exists k, joined (fold_left step (filter at_v (g_edges g)) (mkg (ddel (g_nodes g) v) (filter (fun e => negb (at_v e)) (g_edges g)))) (r p) (r q) k).
      { intros p q l H. destruct (at_v (p, q, l)) eqn:Hat.
        - eapply F3. apply filter_In. split; [exact H|exact Hat].
        - assert (H' : In (p, q, l) (filter (fun e => negb (at_v e)) (g_edges g))) by (apply filter_In; now rewrite Hat).
          destruct (Hn _ _ _ H') as (_ & R1 & R2). eapply F2. left. rewrite R1, R2. exact H'. }
      intros p q l [H|H]; [eapply G1; exact H|]. destruct (G1 _ _ _ H) as (k & [K|K]); exists k; [right|left]; exact K.
    - intros n Hnv H. apply F4. cbn [g_nodes]. apply dmem_In, dget_key. rewrite ddel_spec. destruct (eqd n v); [contradiction|]. now apply dget_key, dmem_In.
  Qed.
  Lemma contract_ok g u v : dmem (g_nodes g) v = true -> exists h : nxgraph N A L, contract g u v = Ok h.
  Proof. intros H. unfold contract. rewrite H. cbn [negb]. eauto. Qed.
  Lemma contract_all_spec u vs : ~ In u vs -> NoDup vs -> forall g, (forall v, In v vs -> dmem (g_nodes g) v = true) -> exists h, contract_all g u vs = Ok h /\
    let r (n : N) := if mem n vs then u else n in
    (forall a b l, joined h a b l -> exists p q, r p = a /\ r q = b /\ joined g p q l) /\
    (forall p q l, joined g p q l -> exists k, joined h (r p) (r q) k) /\
    (forall n, ~ In n vs -> dmem (g_nodes g) n = true -> dmem (g_nodes h) n = true).
  Proof.
    induction vs as [|v vs IH]; intros Hu Hnd g Hv; cbn [contract_all].
    - exists g. split; [reflexivity|]. cbn. split; [intros a b l H; exists a, b; auto|]. split; [eauto|auto].
    - destruct (contract_ok g u v (Hv v (or_introl eq_refl))) as (h1 & E1). rewrite E1. cbn [rbind].
      destruct (contract_spec g u v h1 E1) as (A1 & A2 & A3). inversion Hnd as [|? ? Hn1 Hn2]; subst.
      destruct (IH (fun K => Hu (or_intror K)) Hn2 h1) as (h & E2 & B1 & B2 & B3).
      { intros w Hw. apply A3; [intros ->; contradiction|]. apply Hv. now right. }
      exists h. split; [exact E2|]. cbv zeta.
      assert (R : forall n, (if mem (if deqb n v then u else n) vs then u else (if deqb n v then u else n)) = (if mem n (v :: vs) then u else n)).
      { intros n. assert (Mc : mem n (v :: vs) = deqb n v || mem n vs) by reflexivity. rewrite Mc. destruct (deqb n v) eqn:D; cbn [orb].
        - assert (mem u vs = false). { destruct (mem u vs) eqn:M; [|reflexivity]. apply mem_In in M. destruct Hu. now right. } now rewrite H.
        - reflexivity. }
      split; [|split].
      + intros a b l H. apply B1 in H as (p & q & P1 & P2 & H). apply A1 in H as (p' & q' & P3 & P4 & H).
        exists p', q'. rewrite <- !R. rewrite P3, P4. auto.
      + intros p q l H. apply A2 in H as (k & H). apply B2 in H as (k' & H). exists k'. rewrite !R in H. exact H.
      + intros n Hn H. apply B3; [intros K; apply Hn; now right|]. apply A3; [intros ->; apply Hn; now left|]. exact H.
  Qed.
End NX.
