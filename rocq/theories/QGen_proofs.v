From Coq Require Import String List Bool Arith Lia Permutation.
From Verif Require Import PyBase QPred_spec Enum_model Enum_spec DP_spec DP_proofs Enum_proofs Walk_proofs QGen_model QGen_spec.
Import ListNotations.

Section QGen.
  Context {V : Type} (falsy : V -> bool).
  Notation gpred := (@gpred V).
  (** ** Basics *)
  Definition gpred_ind' (P : gpred -> Prop) (H1 : forall a b, P (GJoin a b)) (H2 : forall c o v, P (GFilter c o v)) (H3 : forall l, Forall P l -> P (GAnd l)) : forall p, P p :=
    fix go p := match p with GJoin a b => H1 a b | GFilter c o v => H2 c o v
      | GAnd l => H3 l ((fix gol l := match l return Forall P l with [] => Forall_nil _ | p :: r => Forall_cons _ (go p) (gol r) end) l) end.
  Lemma filters_and l : filters_in (GAnd l) = flat_map (@filters_in V) l.
  Proof. induction l as [|p l IH]; [reflexivity|]. cbn [flat_map]. rewrite <- IH. reflexivity. Qed.
  Lemma conj_leaf (p : gpred) q : conjunct p q -> (exists a b, q = GJoin a b) \/ exists c o v, q = GFilter c o v.
  Proof. induction 1; eauto 6. Qed.
  Lemma choose_In {A} c (l : list A) x : choose c l = Ok x -> In x l.
  Proof.
    destruct l as [|y l]; [discriminate|]. intros H. unfold choose in H. injection H as H. rewrite <- H. change (In (nth (c mod length (y :: l)) (y :: l) y) (y :: l)). apply nth_In, Nat.mod_upper_bound. discriminate.
  Qed.
  Lemma choose_some {A} c (l : list A) : l <> [] -> exists x, choose c l = Ok x /\ In x l.
  Proof. intros H. destruct l as [|y l]; [easy|]. eexists. split; [reflexivity|]. eapply choose_In. reflexivity. Qed.
  Lemma randint_range c lo hi : lo <= hi -> lo <= randint c lo hi <= hi.
  Proof. intros H. unfold randint. assert (Hm : c mod (Datatypes.S hi - lo) < Datatypes.S hi - lo) by (apply Nat.mod_upper_bound; lia). lia. Qed.

  (** ** Graphs *)
  Lemma NoDup_map_filter {A B} (f : A -> B) h l : NoDup (map f l) -> NoDup (map f (filter h l)).
  Proof.
    induction l as [|x l IH]; [auto|]. cbn. intros H. apply NoDup_cons_iff in H as [H1 H2]. destruct (h x); [|auto]. cbn. constructor; [|auto].
    intros H. apply H1. apply in_map_iff in H as (y & <- & Hy). apply in_map. apply filter_In in Hy. tauto.
  Qed.
  Lemma restrict_In g keep t : In t (map fst (s_nodes (restrict g keep))) <-> In t (map fst (s_nodes g)) /\ keep t = true.
  Proof.
    unfold restrict. cbn. rewrite !in_map_iff. split.
    - intros (n & <- & Hn). apply filter_In in Hn as [Hn Hk]. eauto.
    - intros [(n & <- & Hn) Hk]. exists n. split; [reflexivity|]. apply filter_In. auto.
  Qed.
  Lemma restrict_edge g keep a b ks : In ((a, b), ks) (s_edges (restrict g keep)) <-> In ((a, b), ks) (s_edges g) /\ keep a = true /\ keep b = true.
  Proof. unfold restrict. cbn. rewrite filter_In, andb_true_iff. cbn. tauto. Qed.
  Lemma restrict_node g keep t cs : In (t, cs) (s_nodes (restrict g keep)) <-> In (t, cs) (s_nodes g) /\ keep t = true.
  Proof. unfold restrict. cbn. rewrite filter_In. cbn. tauto. Qed.
  Lemma restrict_good g keep : good_graph g -> good_graph (restrict g keep).
  Proof.
    intros (N & E & C & K). split; [now apply NoDup_map_filter|]. split; [now apply NoDup_map_filter|]. split.
    - intros t cs H. apply restrict_node in H as [H _]. eauto.
    - intros a b ks H. apply restrict_edge in H as (H & Ha & Hb). destruct (K _ _ _ H) as (Ia & Ib & Hk). rewrite !restrict_In. auto.
  Qed.
  Definition keeps (db : @gdb V) (a : gargs) (t : nat) : bool := negb (mem t (a_ignore a)) && (negb (d_postgres db) || negb (d_internal db t)).
  Lemma graph_node (db : @gdb V) a g t cs : In (t, cs) (s_nodes (graph_for db a g)) <-> In (t, cs) (s_nodes g) /\ keeps db a t = true.
  Proof. unfold graph_for, keeps. destruct (d_postgres db); rewrite ?restrict_node, ?andb_true_iff; cbn [negb orb]; tauto. Qed.
  Lemma graph_edge (db : @gdb V) a g x y ks : In ((x, y), ks) (s_edges (graph_for db a g)) <-> In ((x, y), ks) (s_edges g) /\ keeps db a x = true /\ keeps db a y = true.
  Proof. unfold graph_for, keeps. destruct (d_postgres db); rewrite ?restrict_edge, ?andb_true_iff; cbn [negb orb]; tauto. Qed.
  Lemma graph_In (db : @gdb V) a g t : In t (map fst (s_nodes (graph_for db a g))) <-> usable db a g t.
  Proof.
    unfold usable. transitivity (In t (map fst (s_nodes g)) /\ keeps db a t = true).
    - unfold graph_for, keeps. destruct (d_postgres db); rewrite ?restrict_In, ?andb_true_iff; cbn [negb orb]; tauto.
    - unfold keeps. rewrite andb_true_iff, orb_true_iff, !negb_true_iff. split; intros [H [Hi Hp]]; (split; [assumption|]).
      + split; [intros Hm; apply mem_In in Hm; congruence|]. intros E. destruct Hp; congruence.
      + split; [now apply mem_nIn|]. destruct (d_postgres db); auto.
  Qed.
  Lemma graph_good (db : @gdb V) a g : good_graph g -> good_graph (graph_for db a g).
  Proof. intros H. unfold graph_for. destruct (d_postgres db); auto using restrict_good. Qed.
  Lemma undirected_partners g x y : partners (undirected g) x y <-> linked g x y /\ x <> y.
  Proof.
    unfold partners, undirected, linked. rewrite !filter_In, !in_map_iff, !negb_true_iff, !Nat.eqb_neq. cbn [fst snd]. split.
    - intros [[((p & ks) & E & H) Hn]|[((p & ks) & E & H) Hn]]; cbn in E; subst p; (split; [exists ks; auto|congruence]).
    - intros [(ks & [H|H]) Hn]; [left|right]; (split; [eexists; split; [|exact H]; reflexivity|congruence]).
  Qed.
  Lemma undirected_simple g : good_graph g -> simple_graph (map fst (s_nodes g)) (undirected g).
  Proof.
    intros (N & E & C & K). split; [assumption|]. intros x y H. unfold undirected in H. apply filter_In in H as [H Hn]. apply in_map_iff in H as ((p & ks) & Hp & H). cbn in Hp. subst p.
    apply negb_true_iff, Nat.eqb_neq in Hn. destruct (K _ _ _ H) as (Ia & Ib & _). auto.
  Qed.
  Lemma fk_edge_In g x y ks : fk_edge g x y = Some ks -> In ((x, y), ks) (s_edges g) \/ In ((y, x), ks) (s_edges g).
  Proof. unfold fk_edge, edge_data. destruct (dget (s_edges g) (x, y)) eqn:E; [intros [= <-]; left|intros E'; right]; now apply dget_In. Qed.
  Lemma fk_edge_some g x y : linked g x y -> exists ks, fk_edge g x y = Some ks.
  Proof.
    unfold fk_edge, edge_data. intros (ks & [H|H]); destruct (dget (s_edges g) (x, y)) eqn:E; eauto.
    - apply dget_None in E. exfalso. apply E. unfold dkeys. now apply (in_map fst) in H.
    - destruct (dget (s_edges g) (y, x)) eqn:E'; eauto. apply dget_None in E'. exfalso. apply E'. unfold dkeys. now apply (in_map fst) in H.
  Qed.

  (** ** Join predicates *)
  Notation join_list := (@join_list V).
  Lemma join_sound d g tables l : join_list d g tables = Ok l -> forall p, In p l -> exists f r x y ks, p = GJoin r f /\ In x tables /\ In y tables /\ (In ((x, y), ks) (s_edges g) \/ In ((y, x), ks) (s_edges g)) /\ In (f, r) ks.
  Proof.
    revert l. induction tables as [|t ts IH]; intros l; [intros [= <-]; contradiction|]. cbn [QGen_model.join_list].
    destruct (rmapM _ ts) as [m|] eqn:E; [|discriminate]. cbn [rbind]. destruct (join_list d g ts) as [l'|] eqn:E'; [|discriminate]. cbn. intros [= <-] p Hp.
    apply in_app_iff in Hp as [Hp|Hp].
    - clear IH E'. assert (Hm : forall us m, incl us ts -> rmapM (fun u => match fk_edge g t u with None => Ok [] | Some keys => rmap (fun k => [GJoin (snd k) (fst k)]) (choose (r_key d t u) keys) end) us = Ok m -> In p (List.concat m) ->
        exists f r x y ks, p = GJoin r f /\ x = t /\ In y ts /\ (In ((x, y), ks) (s_edges g) \/ In ((y, x), ks) (s_edges g)) /\ In (f, r) ks).
      { clear. induction us as [|u us IH]; intros m Hi E Hp; [injection E as <-; contradiction|]. cbn [rmapM] in E.
        destruct (match fk_edge g t u with None => Ok [] | Some keys => _ end) as [b|] eqn:Eb; [|discriminate]. cbn [rbind] in E. destruct (rmapM _ us) as [m'|] eqn:Em; [|discriminate]. injection E as <-.
        cbn in Hp. apply in_app_iff in Hp as [Hp|Hp]; [|apply (IH m'); auto; intros z Hz; apply Hi; now right].
        destruct (fk_edge g t u) as [ks|] eqn:Ef; [|injection Eb as <-; contradiction]. destruct (choose (r_key d t u) ks) as [[f r]|] eqn:Ec; [|discriminate]. cbn in Eb. injection Eb as <-.
        destruct Hp as [<-|[]]. exists f, r, t, u, ks. split; [reflexivity|]. split; [reflexivity|]. split; [apply Hi; now left|]. split; [now apply fk_edge_In|]. eapply choose_In; exact Ec. }
      destruct (Hm ts m (incl_refl _) E Hp) as (f & r & x & y & ks & -> & -> & Hy & Hk). exists f, r, t, y, ks. cbn. tauto.
    - destruct (IH l' eq_refl p Hp) as (f & r & x & y & ks & H). exists f, r, x, y, ks. cbn. tauto.
  Qed.
  Lemma join_ok d g tables : good_graph g -> exists l, join_list d g tables = Ok l.
  Proof.
    intros (_ & _ & _ & K). induction tables as [|t ts (l & IH)]; [exists []; reflexivity|]. cbn [QGen_model.join_list].
    assert (Hm : forall us, exists m, rmapM (fun u => match fk_edge g t u with None => Ok [] | Some keys => rmap (fun k => [@GJoin V (snd k) (fst k)]) (choose (r_key d t u) keys) end) us = Ok m).
    { induction us as [|u us (m & IHu)]; [exists []; reflexivity|]. cbn [rmapM]. destruct (fk_edge g t u) as [ks|] eqn:Ef.
      - assert (Hk : ks <> []) by (apply fk_edge_In in Ef as [Ef|Ef]; apply K in Ef; tauto). destruct (choose_some (r_key d t u) ks Hk) as (k & -> & _). cbn. rewrite IHu. cbn. eauto.
      - cbn. rewrite IHu. cbn. eauto. }
    destruct (Hm ts) as (m & ->). cbn [rbind]. rewrite IH. cbn. eauto.
  Qed.
  (** Every pair of linked tables is joined. *)
  Lemma join_complete d g tables l : join_list d g tables = Ok l -> NoDup tables -> forall x y, In x tables -> In y tables -> x <> y -> linked g x y ->
    exists f r ks, In (GJoin r f) l /\ (In ((x, y), ks) (s_edges g) \/ In ((y, x), ks) (s_edges g)) /\ In (f, r) ks.
  Proof.
    revert l. induction tables as [|t ts IH]; intros l; [contradiction|]. cbn [QGen_model.join_list].
    destruct (rmapM _ ts) as [m|] eqn:E; [|discriminate]. cbn [rbind]. destruct (join_list d g ts) as [l'|] eqn:E'; [|discriminate]. cbn [rmap rbind]. intros [= <-] Hnd x y Hx Hy Hxy Hl.
    apply NoDup_cons_iff in Hnd as [_ Hnd].
    assert (Hm : forall us m, rmapM (fun u => match fk_edge g t u with None => Ok [] | Some keys => rmap (fun k => [@GJoin V (snd k) (fst k)]) (choose (r_key d t u) keys) end) us = Ok m ->
      forall u, In u us -> linked g t u -> exists f r ks, In (GJoin r f) (List.concat m) /\ (In ((t, u), ks) (s_edges g) \/ In ((u, t), ks) (s_edges g)) /\ In (f, r) ks).
    { clear. induction us as [|v us IH]; intros m E u Hu Hl; [contradiction|]. cbn [rmapM] in E.
      destruct (match fk_edge g t v with None => Ok [] | Some keys => _ end) as [b|] eqn:Eb; [|discriminate]. cbn [rbind] in E. destruct (rmapM _ us) as [m'|] eqn:Em; [|discriminate]. injection E as <-.
      destruct Hu as [->|Hu].
      - destruct (fk_edge_some g t u Hl) as (ks & Ef). rewrite Ef in Eb. destruct (choose (r_key d t u) ks) as [[f r]|] eqn:Ec; [|discriminate]. cbn in Eb. injection Eb as <-.
        exists f, r, ks. split; [now left|]. split; [now apply fk_edge_In|eapply choose_In; exact Ec].
      - destruct (IH m' eq_refl u Hu Hl) as (f & r & ks & H & Hk). exists f, r, ks. split; [|exact Hk]. cbn. apply in_app_iff. now right. }
    destruct Hx as [->|Hx]; destruct Hy as [->|Hy].
    - contradiction.
    - destruct (Hm ts m E y Hy Hl) as (f & r & ks & H & Hk). exists f, r, ks. split; [apply in_app_iff; now left|exact Hk].
    - assert (Hl' : linked g y x) by (destruct Hl as (ks & H); exists ks; tauto). destruct (Hm ts m E x Hx Hl') as (f & r & ks & H & Hk). exists f, r, ks. split; [apply in_app_iff; now left|tauto].
    - destruct (IH l' eq_refl Hnd x y Hx Hy Hxy Hl) as (f & r & ks & H & Hk). exists f, r, ks. split; [apply in_app_iff; now right|exact Hk].
  Qed.

  (** ** Filters *)
  Lemma gen_filter_spec d (db : gdb) c p : gen_filter falsy d db c = Ok p -> p = None \/ exists o v, p = Some (GFilter c o v) /\ In v (d_values db c).
  Proof.
    unfold gen_filter. destruct (candidates falsy db c) as [|v0 l] eqn:E; [intros [= <-]; now left|]. destruct (choose (r_value d c) (v0 :: l)) as [v|] eqn:Ev; [|discriminate]. cbn [rbind].
    destruct (choose (r_op d c) gops) as [o|]; [|discriminate]. intros [= <-]. right. exists o, v. split; [reflexivity|]. apply choose_In in Ev. rewrite <- E in Ev. revert Ev. unfold candidates.
    destruct (d_values db c) as [|a [|b r]]; [auto| |auto]. destruct (falsy a); cbn; tauto.
  Qed.
  Lemma gen_filter_ok d (db : gdb) c : exists p, gen_filter falsy d db c = Ok p /\ (candidates falsy db c <> [] -> p <> None).
  Proof.
    unfold gen_filter. destruct (candidates falsy db c) as [|v0 l] eqn:E; [exists None; split; [reflexivity|easy]|].
    destruct (choose_some (r_value d c) (v0 :: l)) as (v & -> & _); [discriminate|]. cbn [rbind]. destruct (choose_some (r_op d c) gops) as (o & -> & _); [discriminate|]. cbn. eexists. split; [reflexivity|discriminate].
  Qed.
  Definition is_some {A} (p : option A) : bool := match p with Some _ => true | None => false end.
  (** What is sampled and the filters that remain *)
  Lemma filters_spec d (db : gdb) cols : exists l fl, rmapM (gen_filter falsy d db) cols = Ok l /\ filter is_some l = map (fun f => Some (GFilter (fst (fst f)) (snd (fst f)) (snd f))) fl /\
    (forall f, In f fl -> In (fst (fst f)) cols /\ In (snd f) (d_values db (fst (fst f)))) /\ length fl <= length cols /\
    (NoDup cols -> NoDup (map (fun f => fst (fst f)) fl)) /\ ((forall c, In c cols -> candidates falsy db c <> []) -> map (fun f => fst (fst f)) fl = cols).
  Proof.
    induction cols as [|c cols (l & fl & E & F & S & L & N & A)].
    - exists [], []. cbn. repeat split; try contradiction; auto; constructor.
    - cbn [rmapM]. destruct (gen_filter_ok d db c) as (p & Ep & Hp). rewrite Ep. cbn [rbind]. rewrite E. cbn [rbind]. exists (p :: l). destruct (gen_filter_spec d db c p Ep) as [->|(o & v & -> & Hv)].
      + exists fl. split; [reflexivity|]. split; [exact F|]. split; [intros f Hf; destruct (S f Hf); split; [now right|assumption]|]. split; [cbn; lia|]. split.
        * intros Hn. apply NoDup_cons_iff in Hn. tauto.
        * intros H. exfalso. apply (Hp (H c (or_introl eq_refl))). reflexivity.
      + exists ((c, o, v) :: fl). split; [reflexivity|]. split; [cbn [filter is_some map fst snd]; now rewrite F|]. split; [|split; [cbn; lia|split]].
        * intros f [<-|Hf]; cbn; [auto|]. destruct (S f Hf). auto.
        * intros Hn. apply NoDup_cons_iff in Hn as [H1 H2]. cbn. constructor; [|auto]. intros H. apply in_map_iff in H as (f & <- & Hf). destruct (S f Hf). contradiction.
        * intros H. cbn. f_equal. apply A. intros c' Hc'. apply H. now right.
  Qed.
  Definition as_filter (f : col * gop * V) : gpred := GFilter (fst (fst f)) (snd (fst f)) (snd f).
  (** create_and of a non-empty list *)
  Definition conj_of (l : list gpred) : option gpred := match l with [] => None | [p] => Some p | _ => Some (GAnd l) end.
  Lemma create_and_conj l : l <> [] -> create_and (map Some l) = Ok (conj_of l).
  Proof.
    destruct l as [|p [|q l]]; [easy|reflexivity|]. intros _. cbn [map create_and conj_of]. assert (H : forall l : list gpred, rmapM (fun p => match p with Some p => Ok p | None => Raise AttributeError end) (map Some l) = Ok l).
    { clear. induction l as [|p l IH]; [reflexivity|]. cbn [map rmapM rbind]. rewrite IH. reflexivity. }
    change (Some p :: Some q :: map Some l) with (map Some (p :: q :: l)). rewrite H. reflexivity.
  Qed.
  Lemma filter_predicates_spec d (db : gdb) n cols : samples d -> n <= length cols -> exists fl, filter_predicates falsy d db n cols = Ok (conj_of (map as_filter fl)) /\
    (forall f, In f fl -> In (fst (fst f)) cols /\ In (snd f) (d_values db (fst (fst f)))) /\ length fl <= n /\ (NoDup cols -> NoDup (map (fun f => fst (fst f)) fl)) /\
    ((forall c, In c cols -> candidates falsy db c <> []) -> length fl = n).
  Proof.
    intros Hs Hn. unfold filter_predicates. destruct ((0 <? n) && negb (match cols with [] => true | _ => false end)) eqn:E.
    - destruct (Hs n cols Hn) as (Hl & rest & Hp). destruct (filters_spec d db (r_sample d n cols)) as (l & fl & El & Hf & HS & HL & HN & HA). rewrite El. cbn [rbind]. exists fl.
      assert (Hin : forall c, In c (r_sample d n cols) -> In c cols) by (intros c Hc; apply (Permutation_in _ Hp), in_app_iff; now left).
      split; [|split; [intros f F; destruct (HS f F); auto|split; [lia|split]]].
      + change (fun p : option gpred => match p with Some _ => true | None => false end) with (@is_some gpred). rewrite Hf. replace (map (fun f => Some (GFilter (fst (fst f)) (snd (fst f)) (snd f))) fl) with (map Some (map as_filter fl)) by (rewrite map_map; reflexivity).
        destruct fl as [|f fl]; [reflexivity|]. change (map Some (map as_filter (f :: fl))) with (Some (as_filter f) :: map Some (map as_filter fl)) at 1. cbv beta iota.
        change (Some (as_filter f) :: map Some (map as_filter fl)) with (map Some (map as_filter (f :: fl))). apply create_and_conj. discriminate.
      + intros Hnd. apply HN. apply (Permutation_NoDup (Permutation_sym Hp)) in Hnd. revert Hnd. clear. induction (r_sample d n cols) as [|x s IH]; [constructor|]. cbn. intros H. apply NoDup_cons_iff in H as [H1 H2]. constructor; [|auto]. intros H. apply H1, in_app_iff. now left.
      + intros Hc. rewrite <- Hl. rewrite <- (map_length (fun f : col * gop * V => fst (fst f)) fl). f_equal. apply HA. intros c Hcc. apply Hc, Hin, Hcc.
    - exists []. split; [reflexivity|]. split; [contradiction|]. split; [cbn; lia|]. split; [constructor|]. intros _. cbn. apply andb_false_iff in E as [E|E]; [apply Nat.ltb_ge in E; lia|]. destruct cols; [cbn in Hn; lia|discriminate].
  Qed.

  (** ** The WHERE clause *)
  Definition basic (p : gpred) : Prop := match p with GAnd _ => False | _ => True end.
  Definition kept (jl fl : list gpred) : list gpred := match fl with [_] => jl | _ => fl end.
  Lemma conj_conjuncts l w : Forall basic l -> conj_of l = Some w -> forall p, conjunct w p <-> In p l.
  Proof.
    intros B H p. rewrite Forall_forall in B. assert (Hb : forall q, basic q -> (conjunct q p <-> p = q)) by (intros [a b|c o v|l'] Hq; [| |contradiction]; (split; [now inversion 1|intros ->; constructor])).
    destruct l as [|q [|q' l]]; [discriminate| |].
    - injection H as <-. rewrite Hb by (apply B; now left). cbn. intuition.
    - injection H as <-. split.
      + inversion 1 as [| |? ? ? Hi Hc]; subst. apply Hb in Hc; [now subst|now apply B].
      + intros Hi. econstructor; [exact Hi|]. apply Hb; auto.
  Qed.
  Lemma parts_conj joins l r : Forall basic l -> (joins = conj_of l \/ length l <> 1) -> where_parts joins (conj_of l :: r) = map Some l ++ where_parts joins r.
  Proof. intros B H. destruct l as [|p [|q l]]; [reflexivity| |reflexivity]. destruct H as [H|H]; [|cbn in H; lia]. apply Forall_inv in B. subst joins. destruct p; [reflexivity|reflexivity|contradiction]. Qed.
  Lemma where_spec jl fl : Forall basic jl -> Forall basic fl ->
    where_clause (where_parts (conj_of jl) [conj_of jl; conj_of fl]) =
    match jl, fl with
    | [], [_] => Raise ValueError
    | _, [_] => Ok (conj_of (jl ++ match conj_of jl with Some j => [j] | None => [] end))
    | _, _ => Ok (conj_of (jl ++ fl))
    end.
  Proof.
    intros Bj Bf. rewrite parts_conj by auto. assert (Hgo : forall l, where_clause (map Some l) = Ok (conj_of l)).
    { intros l. destruct l as [|p l]; [reflexivity|]. unfold where_clause. rewrite create_and_conj by discriminate. cbn [map rbind]. destruct l; reflexivity. }
    destruct fl as [|f [|f' fl]].
    - cbn [conj_of where_parts]. rewrite !app_nil_r, Hgo. destruct jl; reflexivity.
    - apply Forall_inv in Bf. destruct f as [a b|c o v|]; [| |contradiction]; cbn [conj_of where_parts]; (destruct jl as [|j jl]; [reflexivity|]); (destruct (conj_of (j :: jl)) as [w|] eqn:E; [|destruct jl; discriminate]);
        change [Some w] with (map Some [w]); rewrite <- map_app, Hgo; reflexivity.
    - rewrite parts_conj by (auto; right; cbn; lia). cbn [where_parts]. rewrite app_nil_r, <- map_app, Hgo. destruct jl; reflexivity.
  Qed.
  (** The predicates and filters that are in the WHERE clause *)
  Lemma where_result jl fl w : Forall basic jl -> Forall basic fl -> where_clause (where_parts (conj_of jl) [conj_of jl; conj_of fl]) = Ok w ->
    (forall p, (exists w', w = Some w' /\ conjunct w' p) <-> In p jl \/ (length fl <> 1 /\ In p fl)) /\ (length fl = 1 -> jl <> []).
  Proof.
    intros Bj Bf. rewrite where_spec by assumption. destruct (Nat.eq_dec (length fl) 1) as [H1|H1].
    - destruct fl as [|f [|]]; try (cbn in H1; lia). destruct jl as [|j jl]; [discriminate|]. intros [= <-]. split; [|discriminate]. intros p.
      destruct jl as [|j' jl]; cbn [conj_of app].
      + assert (Hb : conjunct j p <-> p = j) by (apply Forall_inv in Bj; destruct j; try contradiction; (split; [now inversion 1|intros ->; constructor])). split.
        * intros (w' & [= <-] & H). inversion H as [| |? ? ? Hi Hc]; subst. destruct Hi as [<-|[<-|[]]]; apply Hb in Hc; subst; left; now left.
        * intros [[<-|[]]|[H _]]; [|cbn in H; lia]. eexists. split; [reflexivity|]. econstructor; [now left|]. now apply Hb.
      + assert (Hb : forall q, In q (j :: j' :: jl) -> (conjunct q p <-> p = q)).
        { intros q Hq. rewrite Forall_forall in Bj. apply Bj in Hq. destruct q; try contradiction; (split; [now inversion 1|intros ->; constructor]). }
        split.
        * intros (w' & [= <-] & H). left. inversion H as [| |? ? ? Hi Hc]; subst. change (j :: j' :: jl ++ [GAnd (j :: j' :: jl)]) with ((j :: j' :: jl) ++ [GAnd (j :: j' :: jl)]) in Hi. apply in_app_iff in Hi as [Hi|[<-|[]]].
          -- apply Hb in Hc; [now subst|assumption].
          -- inversion Hc as [| |? ? ? Hi' Hc']; subst. apply Hb in Hc'; [now subst|assumption].
        * intros [Hi|[H _]]; [|cbn in H; lia]. eexists. split; [reflexivity|]. econstructor; [|apply Hb; [exact Hi|reflexivity]]. change (In p ((j :: j' :: jl) ++ [GAnd (j :: j' :: jl)])). apply in_app_iff. now left.
    - intros H. assert (E : w = conj_of (jl ++ fl)) by (destruct jl, fl as [|? [|]]; cbn in H1; try lia; injection H as <-; reflexivity). split; [|lia]. intros p.
      assert (B : Forall basic (jl ++ fl)) by (apply Forall_app; auto). transitivity (In p (jl ++ fl)); [|rewrite in_app_iff; tauto].
      split.
      + intros (w' & -> & Hc). symmetry in E. now apply (conj_conjuncts _ _ B E).
      + intros Hi. destruct w as [w|].
        * exists w. split; [reflexivity|]. symmetry in E. now apply (conj_conjuncts _ _ B E).
        * exfalso. destruct (jl ++ fl) as [|? [|]]; try discriminate. contradiction.
  Qed.
  Lemma where_filters jl fl w : (forall p, In p jl -> exists a b, p = GJoin a b) -> where_clause (where_parts (conj_of jl) [conj_of jl; conj_of (map as_filter fl)]) = Ok w ->
    match w with Some w => filters_in w | None => [] end = match fl with [_] => [] | _ => fl end.
  Proof.
    intros Hj. assert (Bj : Forall basic jl) by (apply Forall_forall; intros p Hp; apply Hj in Hp as (a & b & ->); exact I).
    assert (Bf : Forall basic (map as_filter fl)) by (apply Forall_forall; intros p Hp; apply in_map_iff in Hp as (f & <- & _); exact I).
    rewrite where_spec by assumption. assert (J0 : flat_map (@filters_in V) jl = []) by (clear - Hj; induction jl as [|p jl IH]; [reflexivity|]; cbn [flat_map]; destruct (Hj p (or_introl eq_refl)) as (a & b & ->); cbn; apply IH; intros q Hq; apply Hj; now right).
    assert (F0 : forall fl, flat_map (@filters_in V) (map as_filter fl) = fl) by (clear; induction fl as [|[[c o] v] fl IH]; [reflexivity|]; cbn; now rewrite IH).
    assert (C0 : forall l, match conj_of l with Some w => filters_in w | None => [] end = flat_map (@filters_in V) l).
    { intros l. destruct l as [|p [|q l]]; [reflexivity|cbn; now rewrite app_nil_r|]. cbn [conj_of]. apply filters_and. }
    destruct fl as [|f [|f' fl]]; cbn [map].
    - intros H. assert (E : w = conj_of (jl ++ [])) by (destruct jl; injection H as <-; reflexivity). rewrite E, C0, flat_map_app, J0. reflexivity.
    - destruct jl as [|j jl]; [discriminate|]. intros H. assert (E : w = conj_of ((j :: jl) ++ match conj_of (j :: jl) with Some j => [j] | None => [] end)) by congruence. rewrite E, C0, flat_map_app, J0. cbn [app]. specialize (C0 (j :: jl)). destruct (conj_of (j :: jl)) as [w'|]; [|reflexivity]. cbn [flat_map]. rewrite app_nil_r, C0. exact J0.
    - intros H. assert (E : w = conj_of (jl ++ map as_filter (f :: f' :: fl))) by (destruct jl; injection H as <-; reflexivity). rewrite E, C0, flat_map_app, J0, F0. reflexivity.
  Qed.

  (** ** Rounds *)
  Lemma or_else_pos x k : 1 <= k -> 1 <= or_else x k.
  Proof. intros H. destruct x as [[|n]|]; cbn; lia. Qed.
  Lemma available_In (db : @gdb V) a g tables c : good_graph g -> In c (available db a g tables) -> column_of g c /\ In (fst c) tables /\ may_filter db a c.
  Proof.
    intros (_ & _ & C & _) H. unfold available in H.
    assert (Hs : In c (flat_map snd (filter (fun n => mem (fst n) tables) (s_nodes g))) /\ may_filter db a c).
    { revert H. set (L := flat_map snd _). unfold may_filter. assert (Hn : forall t, is_numeric t = true -> In t ["integer"; "smallint"; "bigint"; "date"; "double precision"; "real"; "numeric"; "decimal"]%string \/ exists r, t = append "time" r).
      { intros t Ht. unfold is_numeric in Ht. apply orb_true_iff in Ht as [Ht|Ht]; [left|right].
        - apply existsb_exists in Ht as (u & Hu & E). apply String.eqb_eq in E. now subst u.
        - revert Ht. clear. intros H. exists (substring 4 (String.length t - 4) t). do 4 (destruct t as [|[[] [] [] [] [] [] [] []] t]; cbn in H; try discriminate). cbn. f_equal. f_equal. f_equal. f_equal.
          clear. rewrite Nat.sub_0_r. induction t as [|x t IH]; [reflexivity|]. cbn. now rewrite <- IH. }
      destruct (a_numeric a), (a_keys a); rewrite ?filter_In, ?andb_true_iff, ?negb_true_iff; intuition (try discriminate); auto. }
    destruct Hs as [Hs Hm]. apply in_flat_map in Hs as ((t & cs) & Hn & Hc). apply filter_In in Hn as [Hn Ht]. cbn in Hc, Ht. apply mem_In in Ht. destruct (C t cs Hn) as [_ Hf]. rewrite (Hf c Hc). repeat split; try apply Hm; auto. exists cs. split; [|exact Hc]. now rewrite (Hf c Hc).
  Qed.
  Lemma available_NoDup (db : @gdb V) a g tables : good_graph g -> NoDup (available db a g tables).
  Proof.
    intros (N & _ & C & _). assert (H : NoDup (flat_map snd (filter (fun n => mem (fst n) tables) (s_nodes g)))).
    { revert N C. induction (s_nodes g) as [|[t cs] ns IH]; intros N C; [constructor|]. cbn in N. apply NoDup_cons_iff in N as [N1 N2]. assert (H' := IH N2 (fun t' cs' H => C t' cs' (or_intror H))).
      cbn. destruct (mem t tables); [|exact H']. cbn. destruct (C t cs (or_introl eq_refl)) as [C1 C2]. apply Collections_proofs.NoDup_app_intro; [assumption|assumption|].
      intros c Hc Hd. apply in_flat_map in Hd as ((u & ds) & Hn & Hd). apply filter_In in Hn as [Hn _]. destruct (C u ds (or_intror Hn)) as [_ C3]. apply C2 in Hc. apply C3 in Hd. apply N1. rewrite <- Hc, Hd. now apply (in_map fst) in Hn. }
    unfold available. destruct (a_numeric a), (a_keys a); auto using NoDup_filter.
  Qed.
  Lemma firstn_len {A} n (l : list A) : n <= length l -> length (firstn n l) = n.
  Proof. intros H. rewrite firstn_length. lia. Qed.
  Lemma firstn_incl {A} n (l : list A) : incl (firstn n l) l.
  Proof. intros x H. rewrite <- (firstn_skipn n l). apply in_app_iff. now left. Qed.
  Lemma NoDup_firstn {A} n (l : list A) : NoDup l -> NoDup (firstn n l).
  Proof. revert l. induction n as [|n IH]; intros [|x l] H; try constructor. - apply NoDup_cons_iff in H as [H _]. intros Hx. apply H. eapply firstn_incl. exact Hx. - apply NoDup_cons_iff in H as [_ H]. auto. Qed.

  Section Round.
    Context (db : @gdb V) (a : gargs) (g : sgraph) (d : draw) (Hg : good_graph g) (Hs : samples d) (Hm : min_tables a <= max_tables a g).
    Let n := randint (r_tables d) (min_tables a) (max_tables a g).
    Lemma min_pos : 1 <= min_tables a. Proof. unfold min_tables. apply or_else_pos. lia. Qed.
    Lemma n_range : 1 <= min_tables a <= n /\ n <= max_tables a g /\ max_tables a g <= length (s_nodes g).
    Proof. assert (H := randint_range (r_tables d) _ _ Hm). assert (H' := min_pos). unfold n. split; [lia|]. split; [lia|]. unfold max_tables. lia. Qed.
    Lemma join_part tables : exists jl, join_list d g tables = Ok jl /\ join_predicates d g tables = match jl with [] => Raise ValueError | _ => Ok (conj_of jl) end.
    Proof.
      destruct (join_ok d g tables Hg) as (jl & E). exists jl. split; [exact E|]. unfold join_predicates. rewrite E. cbn [rbind]. destruct jl as [|j jl]; [reflexivity|]. apply create_and_conj. discriminate.
    Qed.
    Lemma round_cases : exists tables jl,
      NoDup tables /\ incl tables (map fst (s_nodes g)) /\ length tables = n /\ (hangs_together (linked g) (map fst (s_nodes g)) -> walk (linked g) tables) /\
      join_list d g tables = Ok jl /\
      let cols := available db a g tables in let current := Nat.min (max_filters a g) (length cols) in
      round falsy db a g d =
      if (1 <? n) && match jl with [] => true | _ => false end then Raise ValueError
      else if current <=? min_filters a then Ok None
      else rbind (filter_predicates falsy d db (randint (r_filters d) (min_filters a) current) cols) (fun filters =>
           rmap (fun w => Some (mkgq (a_count a) tables w)) (where_clause (where_parts (conj_of (if 1 <? n then jl else [])) [conj_of (if 1 <? n then jl else []); filters]))).
    Proof.
      destruct n_range as (N1 & N2 & N3).
      assert (Hne : map fst (s_nodes g) <> []) by (intros E; apply (f_equal (@length nat)) in E; rewrite map_length in E; cbn in E; lia).
      destruct (random_walk_ok (map fst (s_nodes g)) (undirected g) (undirected_simple g Hg) (r_walk d) None Hne) as (l & El & Hp & Hw & _); [discriminate|].
      rewrite map_length in El. assert (Hl : length l = length (s_nodes g)) by (apply Permutation_length in Hp; now rewrite map_length in Hp).
      set (tables := firstn n l). destruct (join_part tables) as (jl & Ej & Ep). exists tables, jl. split; [apply NoDup_firstn, (Permutation_NoDup (Permutation_sym Hp)), Hg|].
      split; [intros x Hx; apply (Permutation_in _ Hp); eapply firstn_incl; exact Hx|]. split; [unfold tables; rewrite firstn_len; lia|]. split; [|split; [exact Ej|]].
      - intros Hh. assert (Hh' : hangs_together (partners (undirected g)) (map fst (s_nodes g))).
        { intros x y Hx Hy. assert (Hc := Hh x y Hx Hy). clear - Hc. induction Hc as [x Hx|x y z H IH Hr Hz]; [now constructor|]. destruct (Nat.eq_dec y z) as [<-|Hn]; [assumption|]. eapply chain_step; [exact IH| |assumption]. apply undirected_partners. auto. }
        specialize (Hw Hh'). unfold tables. destruct l as [|x l]; [contradiction|]. destruct n as [|k] eqn:En; [lia|]. cbn [firstn]. cbn [walk] in *. revert Hw. clear. revert k. generalize [x] as seen. clear. induction l as [|y l IH]; intros seen k H.
        + destruct k; constructor.
        + destruct k as [|k]; [constructor|]. cbn. inversion H as [|? ? ? z Hz Hr Hgr]; subst. econstructor; [exact Hz| |]; [apply undirected_partners in Hr; apply Hr|auto].
      - cbn zeta. unfold round. fold n. rewrite El. cbn [rbind]. fold tables. destruct (1 <? n) eqn:E1; cbn [andb].
        + rewrite Ep. destruct jl as [|j jl]; [reflexivity|]. cbn [rbind]. destruct (_ <=? _); [reflexivity|]. destruct (filter_predicates _ _ _ _ _) as [f|]; [|reflexivity]. cbn [rbind]. unfold rmap. reflexivity.
        + cbn [rbind]. destruct (_ <=? _); [reflexivity|]. destruct (filter_predicates _ _ _ _ _) as [f|]; [|reflexivity]. cbn [rbind]. unfold rmap. reflexivity.
    Qed.
    (** A query that is generated *)
    Lemma round_some q : round falsy db a g d = Ok (Some q) -> exists jl fl nf,
      g_count q = a_count a /\ NoDup (g_from q) /\ incl (g_from q) (map fst (s_nodes g)) /\ length (g_from q) = n /\
      (hangs_together (linked g) (map fst (s_nodes g)) -> walk (linked g) (g_from q)) /\
      (if 1 <? n then join_list d g (g_from q) = Ok jl /\ jl <> [] else jl = []) /\
      (forall f, In f fl -> In (fst (fst f)) (available db a g (g_from q)) /\ In (snd f) (d_values db (fst (fst f)))) /\
      min_filters a <= nf <= Nat.min (max_filters a g) (length (available db a g (g_from q))) /\
      length fl <= nf /\ NoDup (map (fun f => fst (fst f)) fl) /\ ((forall c, In c (available db a g (g_from q)) -> candidates falsy db c <> []) -> length fl = nf) /\
      where_clause (where_parts (conj_of jl) [conj_of jl; conj_of (map as_filter fl)]) = Ok (g_where q).
    Proof.
      destruct round_cases as (tables & jl & T1 & T2 & T3 & T4 & Ej & E). cbn zeta in E. rewrite E. clear E. intros H.
      destruct ((1 <? n) && match jl with [] => true | _ => false end) eqn:E1; [discriminate|]. destruct (Nat.min (max_filters a g) (length (available db a g tables)) <=? min_filters a) eqn:E2; [discriminate|].
      apply Nat.leb_gt in E2. set (nf := randint (r_filters d) (min_filters a) (Nat.min (max_filters a g) (length (available db a g tables)))) in *.
      assert (Hnf := randint_range (r_filters d) (min_filters a) (Nat.min (max_filters a g) (length (available db a g tables))) (Nat.lt_le_incl _ _ E2)). fold nf in Hnf.
      destruct (filter_predicates_spec d db nf (available db a g tables) Hs) as (fl & Ef & F1 & F2 & F3 & F4); [lia|]. rewrite Ef in H. cbn [rbind] in H.
      destruct (where_clause _) as [w|] eqn:Ew; [|discriminate]. cbn in H. injection H as <-. cbn [g_count g_from g_where].
      exists (if 1 <? n then jl else []), fl, nf. repeat (split; [first [assumption|reflexivity]|]). split.
      - destruct (1 <? n); [|reflexivity]. split; [exact Ej|]. intros ->. discriminate.
      - repeat (split; [first [assumption|lia|auto using available_NoDup]|]). exact Ew.
    Qed.
  End Round.
  Lemma rounds_some (db : @gdb V) a g draws fuel : forall k q k', rounds falsy db a g draws k fuel = Ok (Some (q, k')) -> exists i, k <= i < k + fuel /\ k' = Datatypes.S i /\ round falsy db a g (draws i) = Ok (Some q) /\ forall j, k <= j < i -> round falsy db a g (draws j) = Ok None.
  Proof.
    induction fuel as [|fuel IH]; [discriminate|]. intros k q k'. cbn [rounds]. destruct (round falsy db a g (draws k)) as [[q0|]|] eqn:E; [| |discriminate]; cbn [rbind].
    - intros [= <- <-]. exists k. repeat split; try lia. exact E.
    - intros H. destruct (IH _ _ _ H) as (i & Hi & -> & Hr & Hj). exists i. repeat split; try lia; [exact Hr|]. intros j Hlt. destruct (Nat.eq_dec j k) as [->|Hn]; [exact E|]. apply Hj. lia.
  Qed.
  Lemma generate_some (db : @gdb V) a g draws k fuel q k' : generate falsy db a g draws k fuel = Ok (Some (q, k')) ->
    min_tables a <= max_tables a (graph_for db a g) /\ exists i, round falsy db a (graph_for db a g) (draws i) = Ok (Some q).
  Proof.
    unfold generate. destruct (_ <? _) eqn:E; [discriminate|]. apply Nat.ltb_ge in E. intros H. split; [exact E|]. destruct (rounds_some _ _ _ _ _ _ _ _ H) as (i & _ & _ & Hr & _). eauto.
  Qed.
  (** The tables on a walk hang together. *)
  Lemma grows_hang (R : nat -> nat -> Prop) (Rsym : forall x y, R x y -> R y x) : forall l seen, hangs_together R seen -> grows R seen l -> hangs_together R (seen ++ l).
  Proof.
    induction l as [|x l IH]; intros seen Hh Hgr; [now rewrite app_nil_r|]. inversion Hgr as [|? ? ? y Hy Hr Hgr']; subst.
    apply (hang_seteq R ((x :: seen) ++ l)); [intros z; rewrite !in_app_iff; cbn; tauto|]. apply IH; [|assumption].
    apply (hang_seteq R (seen ++ [x])); [intros z; rewrite !in_app_iff; cbn; tauto|]. eapply hang_join; [assumption|assumption|apply hang_single|exact Hy|now left|exact Hr].
  Qed.
  Lemma walk_hang (R : nat -> nat -> Prop) (Rsym : forall x y, R x y -> R y x) l : walk R l -> hangs_together R l.
  Proof. destruct l as [|x l]; [contradiction|]. cbn. intros H. apply (grows_hang R Rsym l [x]); [apply hang_single|assumption]. Qed.
End QGen.
