(** Lemmas about the mutable join graph. *)
From Coq Require Import List Bool Arith Lia.
From Verif Require Import PyBase JG_model JG_spec.
Import ListNotations.

Section Lemmas.
  Context {T C : Type} {ET : EqD T} {EC : EqD C} (tab : C -> T).
  Lemma update_length : forall {A} (l : list A) i x, length (update l i x) = length l.
  Proof. intros A l. induction l as [|y l IH]; intros [|i] x; cbn; congruence. Qed.
  Lemma update_nth : forall {A} (l : list A) i x j d, nth j (update l i x) d = if (j =? i) && (i <? length l) then x else nth j l d.
  Proof.
    intros A l. induction l as [|y l IH]; intros i x j d.
    - cbn. destruct j; now rewrite andb_false_r.
    - destruct i as [|i], j as [|j]; cbn [update nth]; try reflexivity. rewrite IH. reflexivity.
  Qed.

  (** Changes to the index information of one graph. *)
  Definition ixstep (g : @jg T C) (h h' : heap) : Prop :=
    h_free h' = h_free h /\ length (h_index h') = length (h_index h) /\
    forall a, ix_kind (index_at h' a) = ix_kind (index_at h a) /\ (ix_invalid (index_at h a) = true -> ix_invalid (index_at h' a) = true) /\ (~ In a (dvalues (g_index g)) -> index_at h' a = index_at h a).
  Lemma ixstep_refl : forall g h, ixstep g h h.
  Proof. intros g h. repeat split; auto. Qed.
  Lemma ixstep_trans : forall g a b c, ixstep g a b -> ixstep g b c -> ixstep g a c.
  Proof.
    intros g a b c (H1 & H2 & H3) (G1 & G2 & G3). split; [congruence|]. split; [congruence|]. intros x. destruct (H3 x) as (A1 & A2 & A3), (G3 x) as (B1 & B2 & B3). split; [congruence|]. split; [auto|]. intros Hn. rewrite B3, A3; auto.
  Qed.
  Lemma set_invalid_step : forall g h a, In a (dvalues (g_index g)) -> ixstep g h (set_invalid h a).
  Proof.
    intros g h a Hin. split; [reflexivity|]. split; [apply update_length|]. intros x.
    assert (Hx : index_at (set_invalid h a) x = if (x =? a) && (a <? length (h_index h)) then mkix (ix_kind (index_at h a)) true else index_at h x) by (unfold set_invalid, index_at; cbn [h_index]; now rewrite update_nth).
    rewrite Hx. clear Hx. destruct (Nat.eqb_spec x a) as [Hxa|Hne]; [subst x|]; cbn [andb].
    - destruct (a <? length (h_index h)); cbn; (split; [reflexivity|split; [auto|intros Hn; contradiction]]).
    - split; [reflexivity|]. split; auto.
  Qed.
  Lemma invalidate_step : forall g h c, ixstep g h (fst (invalidate h g c)).
  Proof.
    intros g h c. unfold invalidate. destruct (dget (g_index g) c) as [a|] eqn:E; [|apply ixstep_refl]. cbn. apply set_invalid_step. apply dget_In in E. unfold dvalues. apply in_map_iff. now exists (c, a).
  Qed.
  Lemma invalidate_on_step : forall g h t, ixstep g h (invalidate_on tab h g t).
  Proof.
    intros g h t. unfold invalidate_on. assert (Hgen : forall l h, incl (map snd l) (dvalues (g_index g)) -> ixstep g h (fold_left (fun h e => if deqb (tab (fst e)) t then set_invalid h (snd e) else h) l h)).
    { induction l as [|e l IH]; intros h0 Hi; [apply ixstep_refl|]. cbn. eapply ixstep_trans; [|apply IH; intros x Hx; apply Hi; now right]. destruct (deqb (tab (fst e)) t); [|apply ixstep_refl]. apply set_invalid_step, Hi. now left. }
    apply Hgen. intros x Hx. exact Hx.
  Qed.
  Lemma invalidate_pairs_step : forall g cur pk fk ps h, ixstep g h (fst (invalidate_pairs tab h g cur pk fk ps)).
  Proof.
    intros g cur pk fk ps. induction ps as [|[c1 c2] ps IH]; intros h; cbn [invalidate_pairs]; [apply ixstep_refl|].
    destruct (if deqb (tab c1) cur then (c1, c2) else (c2, c1)) as [j p].
    set (r := if pk then invalidate h g p else if fk then invalidate h g j else match invalidate h g p with (h0, Some e) => (h0, Some e) | (h0, None) => invalidate h0 g j end).
    assert (Hr : ixstep g h (fst r)).
    { subst r. destruct pk; [apply invalidate_step|]. destruct fk; [apply invalidate_step|]. pose proof (invalidate_step g h p) as H1. destruct (invalidate h g p) as [h0 [e|]]; cbn in H1 |- *; [exact H1|]. eapply ixstep_trans; [exact H1|apply invalidate_step]. }
    destruct r as [h0 [e|]]; cbn in Hr |- *; [exact Hr|]. eapply ixstep_trans; [exact Hr|apply IH].
  Qed.
  Lemma partners_loop_step : forall g edge partners cur h, ixstep g h (fst (partners_loop tab h g cur edge partners)).
  Proof.
    intros g edge partners. induction partners as [|p ps IH]; intros cur h; cbn [partners_loop]; [apply ixstep_refl|].
    destruct (is_pk_fk_join tab h g cur p && is_pk_fk_join tab h g p cur); [apply IH|].
    pose proof (invalidate_pairs_step g cur (is_pk_fk_join tab h g cur p) (is_pk_fk_join tab h g p cur) edge h) as H1. destruct (invalidate_pairs tab h g cur _ _ edge) as [h0 [e|]]; cbn in H1 |- *; [exact H1|].
    eapply ixstep_trans; [exact H1|]. destruct (is_pk_fk_join tab h g cur p); [apply IH|]. cbn zeta.
    assert (Hf : forall l h1, ixstep g h1 (fold_left (fun h t => if free_in h g t || deqb t p then h else invalidate_on tab h g t) l h1)).
    { induction l as [|t l IHl]; intros h1; [apply ixstep_refl|]. cbn. eapply ixstep_trans; [|apply IHl]. destruct (free_in h1 g t || deqb t p); [apply ixstep_refl|apply invalidate_on_step]. }
    eapply ixstep_trans; [apply Hf|apply IH].
  Qed.
  Lemma mark_step : forall between order h g t edge,
    match dget (g_nodes g) t with
    | None => mark_joined tab between order h g t edge = (h, Some KeyError)
    | Some a => ixstep g (set_free h a false) (fst (mark_joined tab between order h g t edge))
    end.
  Proof.
    intros between order h g t edge. unfold mark_joined. destruct (dget (g_nodes g) t) as [a|]; [|reflexivity]. cbn zeta. destruct (length (joined_tables (set_free h a false) g) =? 1); [apply ixstep_refl|].
    destruct (match edge with Some e => Some e | None => _ end) as [e|]; [|apply ixstep_refl]. apply partners_loop_step.
  Qed.

  (** Allocation. *)
  Lemma alloc_free_spec : forall (ts : list T) vs h d h', length ts = length vs -> alloc_free ts vs h = (d, h') ->
    dkeys d = ts /\ dvalues d = seq (length (h_free h)) (length ts) /\ h_free h' = h_free h ++ vs /\ h_index h' = h_index h.
  Proof.
    induction ts as [|t ts IH]; intros [|v vs] h d h' Hl E; try discriminate; cbn in E.
    - injection E as <- <-. rewrite app_nil_r. auto.
    - destruct (alloc_free ts vs _) as [d0 h0] eqn:E0. injection E as <- <-. apply IH in E0; [|now injection Hl]. cbn in E0. destruct E0 as (A & B & D & F). unfold dkeys, dvalues in *. cbn. rewrite A, B, D, F. rewrite app_length. cbn. rewrite Nat.add_1_r, <- app_assoc. auto.
  Qed.
  Lemma alloc_index_spec : forall (cs : list C) vs h d h', length cs = length vs -> alloc_index (C := C) cs vs h = (d, h') ->
    dkeys d = cs /\ dvalues d = seq (length (h_index h)) (length cs) /\ h_index h' = h_index h ++ vs /\ h_free h' = h_free h.
  Proof.
    induction cs as [|t cs IH]; intros [|v vs] h d h' Hl E; try discriminate; cbn in E.
    - injection E as <- <-. rewrite app_nil_r. auto.
    - destruct (alloc_index cs vs _) as [d0 h0] eqn:E0. injection E as <- <-. apply IH in E0; [|now injection Hl]. cbn in E0. destruct E0 as (A & B & D & F). unfold dkeys, dvalues in *. cbn. rewrite A, B, D, F. rewrite app_length. cbn. rewrite Nat.add_1_r, <- app_assoc. auto.
  Qed.

  (** What can be observed of a graph: which tables are free, and the index information of its columns. *)
  Definition same_view (h : heap) (g : @jg T C) (h' : heap) (g' : @jg T C) : Prop :=
    g_edges g = g_edges g' /\ dkeys (g_nodes g) = dkeys (g_nodes g') /\ (forall t, free_in h g t = free_in h' g' t) /\ (forall c, info h g c = info h' g' c) /\ dkeys (g_index g) = dkeys (g_index g').

  Definition graph_ok (h : heap) (g : @jg T C) : Prop :=
    dwf (g_nodes g) /\ dwf (g_index g) /\ NoDup (dvalues (g_nodes g)) /\ NoDup (dvalues (g_index g)) /\ (forall a, In a (dvalues (g_nodes g)) -> a < length (h_free h)) /\ (forall a, In a (dvalues (g_index g)) -> a < length (h_index h)).
  Definition apart (g g' : @jg T C) : Prop := (forall a, In a (dvalues (g_nodes g)) -> ~ In a (dvalues (g_nodes g'))) /\ (forall a, In a (dvalues (g_index g)) -> ~ In a (dvalues (g_index g'))).
  Definition world_ok (w : @world T C) : Prop :=
    (forall i g, nth_error (w_graphs w) i = Some g -> graph_ok (w_heap w) g) /\ forall i j g g', nth_error (w_graphs w) i = Some g -> nth_error (w_graphs w) j = Some g' -> i <> j -> apart g g'.

  Lemma dget_nth : forall {K V} {E : EqD K} (d : dict K V) k v, dget d k = Some v -> exists n, nth_error (dkeys d) n = Some k /\ nth_error (dvalues d) n = Some v.
  Proof.
    intros K V E d k v H. apply dget_In in H. apply In_nth_error in H as [n Hn]. exists n. unfold dkeys, dvalues. split; [now rewrite (map_nth_error fst n d Hn)|now rewrite (map_nth_error snd n d Hn)].
  Qed.
  Lemma nth_dget : forall {K V} {E : EqD K} (d : dict K V) n k v, dwf d -> nth_error (dkeys d) n = Some k -> nth_error (dvalues d) n = Some v -> dget d k = Some v.
  Proof.
    intros K V E d n k v Hw H1 H2. unfold dkeys, dvalues in *. rewrite nth_error_map in H1, H2. destruct (nth_error d n) as [[k' v']|] eqn:En; [|discriminate]. cbn in *. injection H1 as ->. injection H2 as ->. apply In_dget; [exact Hw|]. now apply nth_error_In in En.
  Qed.
  Lemma In_dvalues : forall {K V} {E : EqD K} (d : dict K V) k v, dget d k = Some v -> In v (dvalues d).
  Proof. intros K V E d k v H. apply dget_In in H. unfold dvalues. apply in_map_iff. now exists (k, v). Qed.

  (** A graph only depends on its own cells. *)
  Lemma view_cells : forall h h' g, (forall a, In a (dvalues (g_nodes g)) -> free_at h a = free_at h' a) -> (forall a, In a (dvalues (g_index g)) -> index_at h a = index_at h' a) -> same_view h g h' g.
  Proof.
    intros h h' g H1 H2. split; [reflexivity|]. split; [reflexivity|]. split; [|split; [|reflexivity]].
    - intros t. unfold free_in, is_free. destruct (dget (g_nodes g) t) as [a|] eqn:E; [|reflexivity]. apply H1. now apply In_dvalues in E.
    - intros [c|]; [|reflexivity]. unfold info. destruct (dget (g_index g) c) as [a|] eqn:E; [|reflexivity]. apply H2. now apply In_dvalues in E.
  Qed.
  Lemma clone_spec : forall h g g' h', graph_ok h g -> clone h g = (g', h') ->
    graph_ok h' g' /\ same_view h g h' g' /\ (exists vs, h_free h' = h_free h ++ vs) /\ (exists vs, h_index h' = h_index h ++ vs) /\
    (forall a, In a (dvalues (g_nodes g')) -> length (h_free h) <= a) /\ (forall a, In a (dvalues (g_index g')) -> length (h_index h) <= a).
  Proof.
    intros h g g' h' (W1 & W2 & N1 & N2 & L1 & L2) E. unfold clone in E. destruct (alloc_free _ _ h) as [nodes h1] eqn:E1. destruct (alloc_index _ _ h1) as [ix h2] eqn:E2. injection E as <- <-.
    assert (Hl : forall {K V} (d : dict K V), length (dkeys d) = length (dvalues d)) by (intros; unfold dkeys, dvalues; now rewrite !map_length).
    apply alloc_free_spec in E1; [|rewrite map_length; apply Hl]. destruct E1 as (K1 & V1 & F1 & I1). apply alloc_index_spec in E2; [|rewrite map_length; apply Hl]. destruct E2 as (K2 & V2 & I2 & F2).
    assert (Wn : dwf nodes) by (unfold dwf; now rewrite K1). assert (Wi : dwf ix) by (unfold dwf; now rewrite K2).
    split; [|split; [|split; [|split; [|split]]]]; cbn [g_nodes g_index g_edges].
    - split; [exact Wn|]. split; [exact Wi|]. split; [cbn [g_nodes]; rewrite V1; apply seq_NoDup|]. split; [cbn [g_index]; rewrite V2; apply seq_NoDup|]. split; intros a Ha; cbn [g_nodes g_index] in Ha.
      + rewrite V1 in Ha. apply in_seq in Ha. rewrite F2, F1, app_length, map_length, <- (Hl _ _ (g_nodes g)). lia.
      + rewrite V2 in Ha. apply in_seq in Ha. rewrite I2, app_length, map_length, <- (Hl _ _ (g_index g)). lia.
    - split; [reflexivity|]. split; [now symmetry|]. split; [|split; [|cbn; now symmetry]].
      + intros t. unfold free_in, is_free. cbn [g_nodes]. destruct (dget (g_nodes g) t) as [a|] eqn:Ea.
        * destruct (dget_nth _ _ _ Ea) as (n & H1 & H2). assert (Hn : n < length (dkeys (g_nodes g))) by (apply nth_error_Some; congruence). assert (Hd : dget nodes t = Some (length (h_free h) + n)). { apply (nth_dget nodes n); [exact Wn|now rewrite K1|]. rewrite V1. rewrite nth_error_nth' with (d := 0) by now rewrite seq_length. f_equal. now apply seq_nth. }
          rewrite Hd. unfold free_at. rewrite F2, F1, app_nth2 by lia. replace (length (h_free h) + n - length (h_free h)) with n by lia. symmetry. apply nth_error_nth. rewrite (map_nth_error _ _ _ H2). reflexivity.
        * assert (Hd : dget nodes t = None) by (apply dget_None; rewrite K1; now apply dget_None). now rewrite Hd.
      + intros [c|]; [|reflexivity]. unfold info. cbn [g_index]. destruct (dget (g_index g) c) as [a|] eqn:Ea.
        * destruct (dget_nth _ _ _ Ea) as (n & H1 & H2). assert (Hn : n < length (dkeys (g_index g))) by (apply nth_error_Some; congruence). assert (Hd : dget ix c = Some (length (h_index h1) + n)). { apply (nth_dget ix n); [exact Wi|now rewrite K2|]. rewrite V2. rewrite nth_error_nth' with (d := 0) by now rewrite seq_length. f_equal. now apply seq_nth. }
          rewrite Hd. unfold index_at at 2. rewrite I2, app_nth2 by lia. replace (length (h_index h1) + n - length (h_index h1)) with n by lia. symmetry. apply nth_error_nth. rewrite (map_nth_error _ _ _ H2). unfold index_at. now rewrite I1.
        * assert (Hd : dget ix c = None) by (apply dget_None; rewrite K2; now apply dget_None). now rewrite Hd.
    - exists (map (free_at h) (dvalues (g_nodes g))). congruence.
    - exists (map (index_at h1) (dvalues (g_index g))). congruence.
    - intros a Ha. rewrite V1 in Ha. apply in_seq in Ha. lia.
    - intros a Ha. rewrite V2 in Ha. apply in_seq in Ha. rewrite I1 in Ha. lia.
  Qed.
  Lemma new_spec : forall h tables es kind g h', new_graph h tables es kind = (g, h') -> graph_ok h' g /\ dkeys (g_nodes g) = dedup tables /\ g_edges g = es /\ dkeys (g_index g) = columns_of_edges es /\ (forall t, free_in h' g t = true).
  Proof.
    intros h tables es kind g h' E. unfold new_graph in E. destruct (alloc_free _ _ h) as [nodes h1] eqn:E1. destruct (alloc_index _ _ h1) as [ix h2] eqn:E2. injection E as <- <-.
    apply alloc_free_spec in E1; [|now rewrite map_length]. destruct E1 as (K1 & V1 & F1 & I1). apply alloc_index_spec in E2; [|now rewrite map_length]. destruct E2 as (K2 & V2 & I2 & F2).
    split; [|split; [exact K1|split; [reflexivity|split; [exact K2|]]]].
    - split; [unfold dwf; cbn [g_nodes]; rewrite K1; apply dedup_NoDup|]. split; [unfold dwf; cbn [g_index]; rewrite K2; apply dedup_NoDup|]. split; [cbn [g_nodes]; rewrite V1; apply seq_NoDup|]. split; [cbn [g_index]; rewrite V2; apply seq_NoDup|]. split; intros a Ha; cbn [g_nodes g_index] in Ha.
      + rewrite V1 in Ha. apply in_seq in Ha. rewrite F2, F1, app_length, map_length. lia.
      + rewrite V2 in Ha. apply in_seq in Ha. rewrite I2, app_length, map_length. lia.
    - intros t. unfold free_in, is_free. cbn [g_nodes]. destruct (dget nodes t) as [a|] eqn:Ea; [|reflexivity]. apply In_dvalues in Ea. rewrite V1 in Ea. apply in_seq in Ea. unfold free_at. rewrite F2, F1, app_nth2 by lia. clear. generalize (a - length (h_free h)). induction (dedup tables) as [|x l IH]; intros [|n]; cbn; auto.
  Qed.
End Lemmas.
