(** Properties C214-C218: randomly generated queries. *)
From Coq Require Import String List Bool Arith Lia Permutation.
From Verif Require Import PyBase QPred_spec Enum_model Enum_spec DP_spec DP_proofs QGen_model QGen_spec QGen_proofs.
Import ListNotations.

Section Props.
  Context {V : Type} (falsy : V -> bool) (db : @gdb V) (a : gargs) (g : sgraph) (draws : nat -> draw).
  Context (Hg : good_graph g) (Hs : forall i, samples (draws i)).

  (** ** C214: the tables.  They are usable tables of the schema, no table is used twice and their number is within the limits. *)
  Theorem C214_tables k fuel q k' : generate falsy db a g draws k fuel = Ok (Some (q, k')) ->
    NoDup (g_from q) /\ (forall t, In t (g_from q) -> usable db a g t) /\ 1 <= length (g_from q) /\
    (forall m, a_min_tables a = Some m -> m <= length (g_from q)) /\ (forall m, a_max_tables a = Some m -> m <> 0 -> length (g_from q) <= m) /\ g_count q = a_count a.
  Proof.
    intros H. apply generate_some in H as (Hm & i & H). destruct (round_some falsy db a _ (draws i) (graph_good db a g Hg) (Hs i) Hm q H) as (jl & fl & nf & C & N & I & L & _).
    destruct (n_range a (graph_for db a g) (draws i) Hm) as (N1 & N2 & N3). split; [exact N|]. split; [intros t Ht; apply graph_In; auto|]. rewrite L. split; [lia|]. split; [|split; [|exact C]].
    - intros m E. assert (Hx : m <= min_tables a) by (unfold min_tables, or_else; rewrite E; destruct m; lia). lia.
    - intros m E Hz. assert (Hx : max_tables a (graph_for db a g) <= m) by (unfold max_tables, or_else; rewrite E; destruct m; [contradiction|lia]). lia.
  Qed.

  (** ** C215: the predicates.  Each is a foreign key between two tables of the query or a filter of a column of a table of the
      query with one of its values; filters respect the settings. *)
  Theorem C215_sound k fuel q k' : generate falsy db a g draws k fuel = Ok (Some (q, k')) -> forall p, states q p ->
    (exists f r, p = GJoin r f /\ fk g f r /\ In (fst f) (g_from q) /\ In (fst r) (g_from q)) \/
    (exists c o v, p = GFilter c o v /\ column_of g c /\ In (fst c) (g_from q) /\ may_filter db a c /\ In v (d_values db c)).
  Proof.
    intros H p Hp. apply generate_some in H as (Hm & i & H). assert (Hg' := graph_good db a g Hg). destruct (round_some falsy db a _ (draws i) Hg' (Hs i) Hm q H) as (jl & fl & nf & C & N & I & L & _ & J & F & _ & _ & _ & _ & W).
    assert (Js : forall p, In p jl -> exists f r, p = GJoin r f /\ fk g f r /\ In (fst f) (g_from q) /\ In (fst r) (g_from q)).
    { intros p' Hp'. destruct (1 <? _) eqn:E; [|subst jl; contradiction]. destruct J as [J _]. destruct (join_sound _ _ _ _ J _ Hp') as (f & r & x & y & ks & -> & Hx & Hy & He & Hk).
      destruct Hg as (_ & _ & _ & K). exists f, r. split; [reflexivity|].
      destruct He as [He|He]; apply graph_edge in He as (He & _); destruct (K _ _ _ He) as (_ & _ & _ & K'); destruct (K' f r Hk) as [E1 E2]; (split; [do 3 eexists; split; [exact He|exact Hk]|rewrite E1, E2; auto]). }
    assert (Bj : Forall basic jl) by (apply Forall_forall; intros p' Hp'; destruct (Js p' Hp') as (f & r & -> & _); exact Logic.I).
    assert (Bf : Forall basic (map as_filter fl)) by (apply Forall_forall; intros p' Hp'; apply in_map_iff in Hp' as (f & <- & _); exact Logic.I).
    destruct (where_result jl (map as_filter fl) (g_where q) Bj Bf W) as [R _]. apply R in Hp as [Hp|[_ Hp]]; [left; auto|right].
    apply in_map_iff in Hp as ([[c o] v] & <- & Hf). destruct (F _ Hf) as [F1 F2]. cbn [fst snd] in *. destruct (available_In db a _ _ c Hg' F1) as ((cs & Hc1 & Hc2) & A2 & A3).
    exists c, o, v. split; [reflexivity|]. split; [|auto]. apply graph_node in Hc1 as [Hc1 _]. exists cs. auto.
  Qed.
  (** Whenever two tables of the query have a foreign key, they are joined. *)
  Theorem C215_joins k fuel q k' : generate falsy db a g draws k fuel = Ok (Some (q, k')) -> forall x y, In x (g_from q) -> In y (g_from q) -> x <> y -> linked g x y -> joined_by q x y.
  Proof.
    intros H x y Hx Hy Hn (ks0 & Hl). apply generate_some in H as (Hm & i & H). assert (Hg' := graph_good db a g Hg). destruct (round_some falsy db a _ (draws i) Hg' (Hs i) Hm q H) as (jl & fl & nf & C & N & I & L & _ & J & F & _ & _ & _ & _ & W).
    assert (Hk : forall t, In t (g_from q) -> keeps db a t = true).
    { intros t Ht. apply I in Ht. apply in_map_iff in Ht as ((t' & cs) & <- & Ht). apply graph_node in Ht. apply Ht. }
    assert (E1 : (1 <? randint (r_tables (draws i)) (min_tables a) (max_tables a (graph_for db a g))) = true).
    { apply Nat.ltb_lt. rewrite <- L. destruct (g_from q) as [|t1 [|t2 r]]; [contradiction| |cbn; lia]. destruct Hx as [<-|[]], Hy as [<-|[]]. contradiction. }
    rewrite E1 in J. destruct J as [J _].
    assert (Hl' : linked (graph_for db a g) x y) by (exists ks0; destruct Hl as [Hl|Hl]; [left|right]; apply graph_edge; auto).
    destruct (join_complete _ _ _ _ J N x y Hx Hy Hn Hl') as (f & r & ks & Hi & He & Hf).
    assert (Bj : Forall basic jl) by (apply Forall_forall; intros p' Hp'; destruct (join_sound _ _ _ _ J _ Hp') as (? & ? & ? & ? & ? & -> & _); exact Logic.I).
    assert (Bf : Forall basic (map as_filter fl)) by (apply Forall_forall; intros p' Hp'; apply in_map_iff in Hp' as (? & <- & _); exact Logic.I).
    destruct (where_result jl (map as_filter fl) (g_where q) Bj Bf W) as [R _]. exists r, f. split; [apply R; now left|].
    destruct Hg as (_ & _ & _ & K). destruct He as [He|He]; apply graph_edge in He as (He & _); destruct (K _ _ _ He) as (_ & _ & _ & K'); destruct (K' f r Hf); auto.
  Qed.

  (** ** C216: the tables are connected, if the usable tables of the schema are. *)
  Theorem C216_connected_partial k fuel q k' L : generate falsy db a g draws k fuel = Ok (Some (q, k')) -> (forall t, In t L <-> usable db a g t) -> hangs_together (linked g) L -> hangs_together (joined_by q) (g_from q).
  Proof.
    intros H HL Hh. assert (Hj := C215_joins k fuel q k' H). apply generate_some in H as (Hm & i & H). assert (Hg' := graph_good db a g Hg).
    destruct (round_some falsy db a _ (draws i) Hg' (Hs i) Hm q H) as (jl & fl & nf & C & N & I & _ & Hw & _).
    assert (Hkeep : forall t, In t L -> keeps db a t = true).
    { intros t Ht. apply HL in Ht. apply graph_In in Ht. apply in_map_iff in Ht as ((t' & cs) & <- & Ht). apply graph_node in Ht. apply Ht. }
    assert (Hh' : hangs_together (linked (graph_for db a g)) (map fst (s_nodes (graph_for db a g)))).
    { intros x y Hx Hy. apply graph_In in Hx. apply graph_In in Hy. apply HL in Hx. apply HL in Hy. assert (Hc := Hh x y Hx Hy). clear Hx Hy.
      induction Hc as [x Hx|x y z Hc IH Hr Hz]; [constructor; apply graph_In; now apply HL|]. eapply chain_step; [exact IH| |apply graph_In; now apply HL].
      assert (Hy : In y L) by (destruct Hc; assumption). destruct Hr as (ks & Hr). exists ks. destruct Hr as [Hr|Hr]; [left|right]; apply graph_edge; auto. }
    specialize (Hw Hh'). apply walk_hang in Hw; [|intros x y (ks & K); exists ks; tauto].
    intros x y Hx Hy. assert (Hc := Hw x y Hx Hy). clear Hx Hy. induction Hc as [x Hx|x y z Hc IH Hr Hz]; [now constructor|]. destruct (Nat.eq_dec y z) as [<-|Hn]; [assumption|].
    eapply chain_step; [exact IH| |assumption]. apply Hj; [destruct Hc; assumption|assumption|assumption|]. destruct Hr as (ks & Hr). exists ks. destruct Hr as [Hr|Hr]; apply graph_edge in Hr; tauto.
  Qed.

  (** ** C217: progress.  With at least two tables, connected usable tables and enough columns in each table every round has a query. *)
  Lemma available_complete tables c : In (fst c) tables -> column_of g c -> may_filter db a c -> In c (available db a g tables).
  Proof.
    clear Hs. intros Ht (cs & Hn & Hc) [M1 M2]. unfold available. set (L := flat_map snd _). assert (H : In c L) by (apply in_flat_map; exists (fst c, cs); split; [apply filter_In; split; [assumption|cbn; now apply mem_In]|exact Hc]).
    assert (Hnum : a_numeric a = true -> is_numeric (d_type db c) = true).
    { intros E. unfold is_numeric. destruct (M2 E) as [Hin|(r & ->)]; [|apply orb_true_iff; right; destruct r; reflexivity]. apply orb_true_iff. left. apply existsb_exists. exists (d_type db c). split; [assumption|apply String.eqb_refl]. }
    destruct (a_numeric a), (a_keys a); rewrite ?filter_In, ?andb_true_iff, ?negb_true_iff; intuition.
  Qed.
  Lemma available_length tables cs n : NoDup cs -> n <= length cs -> (forall c, In c cs -> In (fst c) tables /\ column_of g c /\ may_filter db a c) -> n <= length (available db a g tables).
  Proof. intros N Hl H. apply (Nat.le_trans _ _ _ Hl). apply NoDup_incl_length; [assumption|]. intros c Hc. destruct (H c Hc) as (H1 & H2 & H3). now apply available_complete. Qed.
End Props.

Lemma available_le_g {V} (db : @gdb V) a g tables : length (available db a g tables) <= length (flat_map snd (s_nodes g)).
Proof.
  assert (H : length (flat_map snd (filter (fun n => mem (fst n) tables) (s_nodes g))) <= length (flat_map snd (s_nodes g))).
  { clear. induction (s_nodes g) as [|n ns IH]; [reflexivity|]. cbn. destruct (mem (fst n) tables); cbn; rewrite ?app_length; lia. }
  unfold available. assert (Hf : forall h (l : list col), length (filter h l) <= length l) by (intros h l; induction l as [|x l IH]; [reflexivity|]; cbn; destruct (h x); cbn; lia).
  destruct (a_numeric a), (a_keys a); eauto using Nat.le_trans.
Qed.
Section Progress.
  Context {V : Type} (falsy : V -> bool) (db : @gdb V) (a : gargs) (g : sgraph) (draws : nat -> draw).
  Context (Hg : good_graph g) (Hs : forall i, samples (draws i)).
  Theorem C217_progress_partial L m f k fuel : (forall t, In t L <-> usable db a g t) -> NoDup L -> hangs_together (linked g) L ->
    a_min_tables a = Some m -> 2 <= m <= length L -> (forall n, a_max_tables a = Some n -> m <= n) ->
    a_min_filters a = Some f \/ (a_min_filters a = None /\ f = 0) -> (forall n, a_max_filters a = Some n -> n <> 0 -> f < n) ->
    (forall t, In t L -> exists cs, NoDup cs /\ f < length cs /\ forall c, In c cs -> fst c = t /\ column_of g c /\ may_filter db a c) ->
    exists q, generate falsy db a g draws k (S fuel) = Ok (Some (q, S k)).
  Proof.
    intros HL ND Hh Emin Hm2 Emax Ef Hmf Hcols. assert (Ef' : f = min_filters a) by (unfold min_filters, or_else; destruct Ef as [E0|[E0 Hf0]]; rewrite E0; destruct f; congruence). subst f. clear Ef. assert (Hg' := graph_good db a g Hg). set (g' := graph_for db a g) in *.
    assert (Hlen : length (s_nodes g') = length L).
    { rewrite <- (map_length fst). apply Permutation_length, NoDup_Permutation; [apply Hg'|assumption|]. intros t. unfold g'. rewrite graph_In. symmetry. apply HL. }
    assert (Em : min_tables a = m) by (unfold min_tables, or_else; rewrite Emin; destruct m; [lia|reflexivity]).
    assert (Hle : min_tables a <= max_tables a g').
    { rewrite Em. unfold max_tables. rewrite Hlen. destruct (a_max_tables a) as [n|] eqn:En; cbn [or_else]; [|lia]. specialize (Emax n eq_refl). destruct n; lia. }
    unfold generate. fold g'. replace (max_tables a g' <? min_tables a) with false by (symmetry; apply Nat.ltb_ge; exact Hle). cbn [rounds].
    assert (Hkeep : forall t, In t L -> keeps db a t = true).
    { intros t Ht. apply HL in Ht. apply graph_In in Ht. apply in_map_iff in Ht as ((t' & cs) & <- & Ht). apply graph_node in Ht. apply Ht. }
    assert (Hh' : hangs_together (linked g') (map fst (s_nodes g'))).
    { intros x y Hx Hy. apply graph_In in Hx. apply graph_In in Hy. apply HL in Hx. apply HL in Hy. assert (Hc := Hh x y Hx Hy). clear Hx Hy.
      induction Hc as [x Hx|x y z Hc IH Hr Hz]; [constructor; apply graph_In; now apply HL|]. eapply chain_step; [exact IH| |apply graph_In; now apply HL].
      assert (Hy : In y L) by (destruct Hc; assumption). destruct Hr as (ks & Hr). exists ks. destruct Hr as [Hr|Hr]; [left|right]; apply graph_edge; auto. }
    destruct (round_cases falsy db a g' (draws k) Hg' Hle) as (tables & jl & T1 & T2 & T3 & T4 & Ej & ->). cbn zeta.
    destruct (n_range a g' (draws k) Hle) as (N1 & N2 & N3). set (n := randint (r_tables (draws k)) (min_tables a) (max_tables a g')) in *.
    assert (E1 : (1 <? n) = true) by (apply Nat.ltb_lt; lia). rewrite E1. cbn [andb].
    specialize (T4 Hh'). destruct tables as [|x [|y ts]]; try (cbn in T3; lia).
    assert (Hxy : linked g' x y) by (cbn in T4; inversion T4 as [|? ? ? z Hz Hr]; subst; destruct Hz as [<-|[]]; assumption).
    assert (Hne : x <> y) by (apply NoDup_cons_iff in T1 as [T1 _]; intros ->; apply T1; now left).
    destruct (join_complete _ _ _ _ Ej T1 x y (or_introl eq_refl) (or_intror (or_introl eq_refl)) Hne Hxy) as (f0 & r & ks & Hi & _).
    destruct jl as [|j jl]; [contradiction|].
    assert (HxL : In x L) by (apply HL, graph_In, T2; now left). destruct (Hcols x HxL) as (cs & C1 & C2 & C3).
    assert (Hav : min_filters a < length (available db a g' (x :: y :: ts))).
    { apply (available_length db a g' (x :: y :: ts) cs (S (min_filters a)) C1 C2). intros c Hc. destruct (C3 c Hc) as (F1 & (cs' & F2 & F2') & F3). split; [left; congruence|]. split; [|exact F3]. exists cs'. split; [|assumption].
      apply graph_node. split; [assumption|]. rewrite F1. auto. }
    assert (Hcur : min_filters a < Nat.min (max_filters a g') (length (available db a g' (x :: y :: ts)))).
    { apply Nat.min_glb_lt; [|exact Hav]. unfold max_filters, or_else. destruct (a_max_filters a) as [[|n0]|] eqn:En; [|apply Hmf; [reflexivity|discriminate]|];
        (eapply Nat.lt_le_trans; [exact Hav|]); apply available_le_g. }
    replace (_ <=? min_filters a) with false by (symmetry; apply Nat.leb_gt; exact Hcur).
    set (nf := randint _ _ _). assert (Hnf := randint_range (r_filters (draws k)) _ _ (Nat.lt_le_incl _ _ Hcur)). fold nf in Hnf.
    destruct (filter_predicates_spec falsy (draws k) db nf (available db a g' (x :: y :: ts)) (Hs k)) as (fl & -> & _); [lia|]. cbn [rbind].
    rewrite where_spec.
    - destruct (map as_filter fl) as [|? [|]]; cbn [rmap rbind]; eexists; reflexivity.
    - apply Forall_forall. intros p Hp. destruct (join_sound _ _ _ _ Ej _ Hp) as (? & ? & ? & ? & ? & -> & _). exact I.
    - apply Forall_forall. intros p Hp. apply in_map_iff in Hp as (? & <- & _). exact I.
  Qed.

  (** With as many filters at least as at most, there is never a query. *)
  Theorem C217_equal k fuel m : a_min_filters a = Some m -> a_max_filters a = Some m -> m <> 0 -> forall q k', generate falsy db a g draws k fuel <> Ok (Some (q, k')).
  Proof.
    intros E1 E2 Hm q k' H. apply generate_some in H as (Hle & i & H). destruct (round_cases falsy db a _ (draws i) (graph_good db a g Hg) Hle) as (tables & jl & _ & _ & _ & _ & _ & E). cbn zeta in E. rewrite E in H. clear E.
    destruct (_ && _); [discriminate|]. replace (_ <=? min_filters a) with true in H; [discriminate|]. symmetry. apply Nat.leb_le. unfold min_filters, max_filters, or_else. rewrite E1, E2. destruct m; [contradiction|]. apply Nat.le_min_l.
  Qed.

  (** ** C218: the filters.  No column is filtered twice, and there are not too many filters. *)
  Theorem C218_filters k fuel q k' : generate falsy db a g draws k fuel = Ok (Some (q, k')) ->
    NoDup (map (fun f => fst (fst f)) (filters_of q)) /\ (forall m, a_max_filters a = Some m -> m <> 0 -> length (filters_of q) <= m).
  Proof.
    intros H. apply generate_some in H as (Hm & i & H). assert (Hg' := graph_good db a g Hg). destruct (round_some falsy db a _ (draws i) Hg' (Hs i) Hm q H) as (jl & fl & nf & C & N & I & L & _ & J & F & F1 & F2 & F3 & _ & W).
    apply where_filters in W.
    - unfold filters_of. rewrite W. split; [destruct fl as [|? [|]]; [constructor|constructor|assumption]|]. intros m E Hz.
      assert (Hx : nf <= m) by (unfold max_filters, or_else in F1; rewrite E in F1; destruct m; [contradiction|lia]). destruct fl as [|? [|]]; cbn [length] in *; lia.
    - intros p Hp. destruct (1 <? _); [|subst; contradiction]. destruct J as [J _]. destruct (join_sound _ _ _ _ J _ Hp) as (? & ? & ? & ? & ? & -> & _). eauto.
  Qed.
  (** There are enough filters, if at least two are wanted and each column has several values. *)
  Theorem C218_enough_partial k fuel q k' m : a_min_filters a = Some m -> 2 <= m -> (forall c, column_of g c -> 2 <= length (d_values db c)) -> generate falsy db a g draws k fuel = Ok (Some (q, k')) ->
    m <= length (filters_of q).
  Proof.
    intros E H2 Hv H. apply generate_some in H as (Hm & i & H). assert (Hg' := graph_good db a g Hg). destruct (round_some falsy db a _ (draws i) Hg' (Hs i) Hm q H) as (jl & fl & nf & C & N & I & L & _ & J & F & F1 & F2 & F3 & F4 & W).
    apply where_filters in W.
    - unfold filters_of. rewrite W. assert (Hx : m <= nf) by (unfold min_filters, or_else in F1; rewrite E in F1; destruct m; lia). rewrite F4 in F2.
      + assert (E4 : length fl = nf); [apply F4|].
        { intros c Hc. destruct (available_In db a _ _ c Hg' Hc) as ((cs & Hc1 & Hc2) & _). apply graph_node in Hc1 as [Hc1 _]. assert (Hl : 2 <= length (d_values db c)) by (apply Hv; exists cs; auto). unfold candidates. destruct (d_values db c) as [|? [|]]; cbn in Hl; try lia. discriminate. }
        destruct fl as [|? [|]]; cbn [length] in *; lia.
      + intros c Hc. destruct (available_In db a _ _ c Hg' Hc) as ((cs & Hc1 & Hc2) & _). apply graph_node in Hc1 as [Hc1 _]. assert (Hl : 2 <= length (d_values db c)) by (apply Hv; exists cs; auto). unfold candidates. destruct (d_values db c) as [|? [|]]; cbn in Hl; try lia. discriminate.
    - intros p Hp. destruct (1 <? _); [|subst; contradiction]. destruct J as [J _]. destruct (join_sound _ _ _ _ J _ Hp) as (? & ? & ? & ? & ? & -> & _). eauto.
  Qed.
End Progress.

(** ** Examples and counterexamples *)
Section Examples.
  (** title(0), cast_info(1), name(2): cast_info references the other two; an isolated table 3 *)
  Definition g_imdb : sgraph := mksg [(0, [(0, 0); (0, 1)]); (1, [(1, 0); (1, 1); (1, 2)]); (2, [(2, 0); (2, 1)])] [((1, 0), [((1, 0), (0, 0))]); ((1, 2), [((1, 1), (2, 0))])].
  Definition g_split : sgraph := mksg (s_nodes g_imdb ++ [(3, [(3, 0); (3, 1)])]) (s_edges g_imdb).
  Definition db0 : @gdb nat := mkgdb true (fun t => t =? 9) (fun c => snd c =? 0) (fun c => (fst c =? 1) && (snd c <=? 1)) (fun c => if snd c =? 0 then "integer"%string else "text"%string) (fun c => [4; 5; fst c]).
  Definition args (mint maxt minf maxf : option nat) : gargs := mkga true [] mint maxt minf maxf true false.
  Definition d0 (n f : nat) : draw := mkd n (fun k => k) (fun _ _ => 0) f (fun n l => firstn n l) (fun c => snd c) (fun c => fst c).
  Lemma d0_samples n f : samples (d0 n f).
  Proof. intros k l H. cbn. split; [now apply firstn_len|]. exists (skipn k l). now rewrite firstn_skipn. Qed.
  Ltac good := split; [cbn; repeat constructor; cbn; intuition discriminate|split; [cbn; repeat constructor; cbn; intuition discriminate|split]].
  Lemma g_imdb_good : good_graph g_imdb.
  Proof.
    good.
    - intros t cs H. cbn in H. repeat (destruct H as [[= <- <-]|H]); try contradiction; (split; [repeat constructor; cbn; intuition discriminate|intros c Hc; cbn in Hc; repeat (destruct Hc as [<-|Hc]; [reflexivity|]); contradiction]).
    - intros x y ks H. cbn in H. repeat (destruct H as [[= <- <- <-]|H]); try contradiction; cbn; repeat split; auto; try discriminate; intros; intuition; match goal with H : (_, _) = (_, _) |- _ => injection H as <- <- end; reflexivity.
  Qed.
  Lemma g_split_good : good_graph g_split.
  Proof.
    good.
    - intros t cs H. cbn in H. repeat (destruct H as [[= <- <-]|H]); try contradiction; (split; [repeat constructor; cbn; intuition discriminate|intros c Hc; cbn in Hc; repeat (destruct Hc as [<-|Hc]; [reflexivity|]); contradiction]).
    - intros x y ks H. cbn in H. repeat (destruct H as [[= <- <- <-]|H]); try contradiction; cbn; repeat split; auto; try discriminate; intros; intuition; match goal with H : (_, _) = (_, _) |- _ => injection H as <- <- end; reflexivity.
  Qed.
  (** A query with two joins and two filters: C214, C215, C216, C217 and C218 apply. *)
  Example query3 : generate (Nat.eqb 0) db0 (args (Some 3) None (Some 2) None) g_imdb (fun _ => d0 0 0) 0 1 =
    Ok (Some (mkgq true [0; 1; 2] (Some (GAnd [GJoin (0, 0) (1, 0); GJoin (2, 0) (1, 1); GFilter (0, 0) GEqual 4; GFilter (0, 1) GNotEqual 4])), 1)).
  Proof. vm_compute. reflexivity. Qed.
  (** An ignored table *)
  Example query_ignored : generate (Nat.eqb 0) db0 (mkga true [2] (Some 2) (Some 2) (Some 1) None false false) g_imdb (fun _ => d0 0 1) 0 1 =
    Ok (Some (mkgq true [0; 1] (Some (GAnd [GJoin (0, 0) (1, 0); GFilter (0, 1) GNotEqual 4; GFilter (1, 2) GGreater 5])), 1)).
  Proof. vm_compute. reflexivity. Qed.

  (** C216: if the schema is not connected, a query may have a cross product. *)
  Theorem C216_refuted : exists a g draws q, good_graph g /\ (forall i, samples (draws i)) /\ generate (Nat.eqb 0) db0 a g draws 0 1 = Ok (Some (q, 1)) /\ ~ hangs_together (joined_by q) (g_from q).
  Proof.
    exists (args (Some 4) None (Some 2) None), g_split, (fun _ => d0 0 0). eexists. split; [apply g_split_good|]. split; [intros i; apply d0_samples|]. split; [vm_compute; reflexivity|].
    intros H. specialize (H 0 3). assert (Hc := H ltac:(cbn; tauto) ltac:(cbn; tauto)). clear H.
    assert (Hgen : forall x y, chain (joined_by (mkgq true [0; 1; 2; 3] (Some (GAnd [@GJoin nat (0, 0) (1, 0); GJoin (2, 0) (1, 1); GFilter (0, 0) GEqual 4; GFilter (0, 1) GNotEqual 4])))) [0; 1; 2; 3] x y -> x <> 3 -> y <> 3).
    { intros x y C. induction C as [x Hx|x y z C IH Hr Hz]; [auto|]. intros Hx ->. specialize (IH Hx). destruct Hr as (c & d & (w & [= <-] & Hs) & He). inversion Hs as [| |? ? ? Hi Hs']; subst. cbn in Hi.
      destruct Hi as [<-|[<-|[<-|[<-|[]]]]]; inversion Hs'; subst; cbn in He; lia. }
    apply (Hgen 0 3 Hc); [discriminate|reflexivity].
  Qed.
  (** It may even fail, as there is no foreign key at all. *)
  Theorem C216_fails_refuted : exists a g draws, good_graph g /\ (forall i, samples (draws i)) /\ generate (Nat.eqb 0) db0 a g draws 0 1 = Raise ValueError /\
    exists draws' q, (forall i, samples (draws' i)) /\ generate (Nat.eqb 0) db0 a g draws' 0 1 = Ok (Some (q, 1)).
  Proof.
    exists (args (Some 2) (Some 2) (Some 2) None), g_split, (fun _ => mkd 0 (fun k => if k =? 0 then 3 else 0) (fun _ _ => 0) 0 (fun n l => firstn n l) (fun c => snd c) (fun c => fst c)).
    split; [apply g_split_good|]. split; [intros i; apply (d0_samples 0 0)|]. split; [vm_compute; reflexivity|]. exists (fun _ => d0 0 0). eexists. split; [intros i; apply d0_samples|]. vm_compute. reflexivity.
  Qed.

  (** C217: exactly one filter is asked for, and there are enough columns, but no query comes, whatever is drawn. *)
  Theorem C217_refuted : exists a g, good_graph g /\ a_min_filters a = Some 1 /\ a_max_filters a = Some 1 /\ (forall c : col, column_of g c -> 2 <= length (d_values db0 c)) /\
    forall draws k fuel q k', (forall i, samples (draws i)) -> generate (Nat.eqb 0) db0 a g draws k fuel <> Ok (Some (q, k')).
  Proof.
    exists (args (Some 2) None (Some 1) (Some 1)), g_imdb. split; [apply g_imdb_good|]. split; [reflexivity|]. split; [reflexivity|]. split; [intros c _; cbn; lia|].
    intros draws k fuel q k' Hs. apply (C217_equal (Nat.eqb 0) db0 _ g_imdb draws g_imdb_good k fuel 1); [reflexivity|reflexivity|discriminate].
  Qed.
  (** A single table with a single filter is an error. *)
  Theorem C217_single_refuted : exists a g draws, good_graph g /\ (forall i, samples (draws i)) /\ a_min_filters a = Some 1 /\ a_max_filters a = Some 2 /\ (forall c : col, column_of g c -> 2 <= length (d_values db0 c)) /\
    generate (Nat.eqb 0) db0 a g draws 0 1 = Raise ValueError.
  Proof.
    exists (args (Some 1) (Some 1) (Some 1) (Some 2)), g_imdb, (fun _ => d0 0 0). split; [apply g_imdb_good|]. split; [intros i; apply d0_samples|]. split; [reflexivity|]. split; [reflexivity|]. split; [intros c _; cbn; lia|]. vm_compute. reflexivity.
  Qed.
  (** The hypotheses of C217 can be met. *)
  Example progress_case draws k fuel : (forall i, samples (draws i)) -> exists q, generate (Nat.eqb 0) db0 (args (Some 2) (Some 3) (Some 1) (Some 3)) g_imdb draws k (S fuel) = Ok (Some (q, S k)).
  Proof.
    intros Hs. apply (C217_progress_partial (Nat.eqb 0) db0 _ g_imdb draws g_imdb_good Hs [0; 1; 2] 2 1); try reflexivity.
    - intros t. unfold usable. cbn. split; [intros H; repeat split; [tauto|tauto|]|intuition]. intros _. destruct H as [<-|[<-|[<-|[]]]]; reflexivity.
    - repeat constructor; cbn; intuition discriminate.
    - assert (R : forall x y, In (x, y) [(0, 1); (1, 0); (1, 2); (2, 1)] -> linked g_imdb x y).
      { intros x y H. cbn in H. repeat (destruct H as [[= <- <-]|H]); try contradiction; eexists; cbn; eauto 6. }
      intros x y Hx Hy. cbn in Hx, Hy. assert (I0 : In 0 [0; 1; 2]) by (cbn; tauto). assert (I1 : In 1 [0; 1; 2]) by (cbn; tauto). assert (I2 : In 2 [0; 1; 2]) by (cbn; tauto).
      assert (S : forall u v, In (u, v) [(0, 1); (1, 0); (1, 2); (2, 1)] -> In u [0; 1; 2] -> In v [0; 1; 2] -> chain (linked g_imdb) [0; 1; 2] u v) by (intros u v H Hu Hv; eapply chain_step; [constructor; exact Hu|now apply R|exact Hv]).
      repeat (destruct Hx as [<-|Hx]; [repeat (destruct Hy as [<-|Hy]; [first [constructor; assumption|apply S; [cbn; tauto|assumption|assumption]|eapply chain_step; [apply (S _ 1); [cbn; tauto|assumption|assumption]|apply R; cbn; tauto|assumption]]|]); contradiction|]); contradiction.
    - cbn. lia.
    - intros n [= <-]. lia.
    - now left.
    - intros n [= <-]. lia.
    - intros t Ht. exists [(t, 0); (t, 1)]. split; [repeat constructor; cbn; intuition; congruence|]. split; [cbn; lia|]. intros c Hc. assert (Hf : fst c = t) by (destruct Hc as [<-|[<-|[]]]; reflexivity). split; [exact Hf|]. split; [|split; discriminate].
      unfold column_of. rewrite Hf. cbn in Ht. repeat (destruct Ht as [<-|Ht]; [eexists; split; [cbn; eauto|]; destruct Hc as [<-|[<-|[]]]; cbn; auto|]). contradiction.
  Qed.

  (** C218: one filter is asked for, but there is none: the join predicate is repeated instead. *)
  Theorem C218_refuted : exists a g draws q, good_graph g /\ (forall i, samples (draws i)) /\ a_min_filters a = Some 1 /\ (forall c : col, column_of g c -> 2 <= length (d_values db0 c)) /\
    generate (Nat.eqb 0) db0 a g draws 0 1 = Ok (Some (q, 1)) /\ filters_of q = [] /\ g_where q = Some (GAnd [GJoin (0, 0) (1, 0); GJoin (0, 0) (1, 0)]).
  Proof.
    exists (args (Some 2) (Some 2) (Some 1) None), g_imdb, (fun _ => d0 0 0). eexists. split; [apply g_imdb_good|]. split; [intros i; apply d0_samples|]. split; [reflexivity|]. split; [intros c _; cbn; lia|]. split; [vm_compute; reflexivity|]. split; reflexivity.
  Qed.
  (** A maximum of no filters is not respected. *)
  Theorem C218_zero_refuted : exists a g draws q, good_graph g /\ (forall i, samples (draws i)) /\ a_max_filters a = Some 0 /\ generate (Nat.eqb 0) db0 a g draws 0 1 = Ok (Some (q, 1)) /\ length (filters_of q) = 3.
  Proof.
    exists (args (Some 2) (Some 2) None (Some 0)), g_imdb, (fun _ => d0 0 3). eexists. split; [apply g_imdb_good|]. split; [intros i; apply d0_samples|]. split; [reflexivity|]. split; [vm_compute; reflexivity|]. reflexivity.
  Qed.
  (** A column whose only value is 0 has no filter, although it has values. *)
  Theorem C218_values_refuted : exists (db : @gdb nat) a g draws q, good_graph g /\ (forall i, samples (draws i)) /\ a_min_filters a = Some 2 /\ (forall c : col, column_of g c -> d_values db c = [0]) /\
    generate (Nat.eqb 0) db a g draws 0 1 = Ok (Some (q, 1)) /\ filters_of q = [].
  Proof.
    exists (mkgdb true (fun _ => false) (fun c => snd c =? 0) (fun _ => false) (fun _ => "integer"%string) (fun _ => [0])), (args (Some 2) (Some 2) (Some 2) None), g_imdb, (fun _ => d0 0 0). eexists. split; [apply g_imdb_good|]. split; [intros i; apply d0_samples|]. split; [reflexivity|]. split; [reflexivity|]. split; [vm_compute; reflexivity|]. reflexivity.
  Qed.
End Examples.
Print Assumptions C214_tables.
Print Assumptions C215_sound.
Print Assumptions C215_joins.
Print Assumptions C216_connected_partial.
Print Assumptions C217_progress_partial.
Print Assumptions C217_equal.
Print Assumptions C218_filters.
Print Assumptions C218_enough_partial.
Print Assumptions C216_refuted.
Print Assumptions C216_fails_refuted.
Print Assumptions C217_refuted.
Print Assumptions C217_single_refuted.
Print Assumptions C218_refuted.
Print Assumptions C218_zero_refuted.
Print Assumptions C218_values_refuted.
