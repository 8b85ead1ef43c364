(** C199: keys and indexes of columns; C200: foreign keys; C201: the graph of the schema; C202: join equivalence classes;
    C203: looking up columns, tables and entries of the schema. *)
From Coq Require Import List Bool Arith Lia Permutation.
From Verif Require Import PyBase Graph Collections_proofs Sch_model Sch_spec Sch_proofs.
Import ListNotations.
Set Implicit Arguments.

(** A catalog in the style of the IMDB: title(10) with id 1, kind_id 2; kind_type(11) with id 1;
    movie_link(12) with (movie_id 3, linked_id 4); names of constraints from 100. *)
Definition ex_cat : catalog nat :=
  mkcat [mkk 100 10 KPrimary [1] 0 []; mkk 101 11 KPrimary [1] 0 []; mkk 102 10 KForeign [2] 11 [1]; mkk 103 12 KForeign [3] 10 [1];
         mkk 104 12 KUnique [3; 4] 0 []]
        [mki 200 10 [1] true; mki 201 11 [1] true; mki 202 12 [3; 4] false].
Example ex_cat_unique : unique_names ex_cat.
Proof. unfold unique_names. cbn. repeat constructor; cbn; intuition discriminate. Qed.
Example ex_cat_wf : primary_wf ex_cat /\ foreign_wf ex_cat /\ single_foreign ex_cat.
Proof.
  split; [split|split].
  - intros k k' H H'. cbn in H, H'. repeat (destruct H as [<-|H]); try destruct H as []; repeat (destruct H' as [<-|H']); try destruct H' as []; cbn; congruence.
  - intros k H. cbn in H. repeat (destruct H as [<-|H]); try destruct H as []; cbn; repeat constructor; cbn; intuition discriminate.
  - intros k H. cbn in H. repeat (destruct H as [<-|H]); try destruct H as []; cbn; auto; discriminate.
  - intros k H. cbn in H. repeat (destruct H as [<-|H]); try destruct H as []; cbn; auto; discriminate.
Qed.

(** * C199 *)
(** Without conditions: the generic methods find every declared key, unique constraint and foreign key. *)
Theorem C199_generic_complete : forall (N : Type) (EN : EqD N) (cat : catalog N) t c,
  (in_primary cat t c -> is_primary_key cat t c = true) /\
  (in_unique cat t c \/ in_foreign cat t c -> has_secondary_index cat t c = true) /\
  (in_primary cat t c \/ in_unique cat t c \/ in_foreign cat t c -> has_index cat t c = true) /\
  (forall n, declared cat KPrimary t c n \/ declared cat KUnique t c n \/ declared cat KForeign t c n -> In n (indexes_on cat t c)).
Proof.
  intros N EN cat t c.
  assert (H1 : in_primary cat t c -> is_primary_key cat t c = true).
  { intros (n & H). apply is_primary_key_rows. exists n. apply own_ccu_complete with (kd := KPrimary); auto; [now left|discriminate]. }
  assert (H2 : in_unique cat t c \/ in_foreign cat t c -> has_secondary_index cat t c = true).
  { intros [(n & H)|(n & H)]; apply has_secondary_rows; exists n; [left|right].
    - apply own_ccu_complete with (kd := KUnique); auto; [now left|discriminate].
    - now apply own_kcu_complete. }
  split; [assumption|split; [assumption|split]].
  - unfold has_index. intros [H|H]; [rewrite H1 by assumption; reflexivity|rewrite H2 by assumption; apply orb_true_r].
  - intros n H. apply indexes_on_rows. destruct H as [H|[H|H]]; [left|left|right].
    + apply own_ccu_complete with (kd := KPrimary); auto; [now left|discriminate].
    + apply own_ccu_complete with (kd := KUnique); auto; [right; now left|discriminate].
    + now apply own_kcu_complete.
Qed.
Print Assumptions C199_generic_complete.

(** Missing: schemas in which constraints of different tables have the same name, which PostgreSQL permits. *)
Theorem C199_generic_partial : forall (N : Type) (EN : EqD N) (cat : catalog N) t c, unique_names cat ->
  (is_primary_key cat t c = true <-> in_primary cat t c) /\
  (has_secondary_index cat t c = true <-> in_unique cat t c \/ in_foreign cat t c) /\
  (has_index cat t c = true <-> in_primary cat t c \/ in_unique cat t c \/ in_foreign cat t c) /\
  (forall n, In n (indexes_on cat t c) <-> declared cat KPrimary t c n \/ declared cat KUnique t c n \/ declared cat KForeign t c n).
Proof.
  intros N EN cat t c Hu. destruct (C199_generic_complete EN cat t c) as (A1 & A2 & A3 & A4).
  assert (B1 : is_primary_key cat t c = true -> in_primary cat t c).
  { intros H. apply is_primary_key_rows in H as (n & H). apply own_ccu in H as (kd & [<-|[]] & H); [|assumption|cbn; intuition discriminate]. now exists n. }
  assert (B2 : has_secondary_index cat t c = true -> in_unique cat t c \/ in_foreign cat t c).
  { intros H. apply has_secondary_rows in H as (n & [H|H]); [left|right; exists n; now apply own_kcu].
    apply own_ccu in H as (kd & [<-|[]] & H); [|assumption|cbn; intuition discriminate]. now exists n. }
  split; [split; assumption|split; [split; assumption|split; [split; [|assumption]|]]].
  - unfold has_index. intros H. apply orb_true_iff in H as [H|H]; auto.
  - intros n. split; [|apply A4]. intros H. apply indexes_on_rows in H as [H|H]; [|right; right; now apply own_kcu].
    apply own_ccu in H as (kd & [<-|[<-|[]]] & H); auto. cbn. intuition discriminate.
Qed.
Print Assumptions C199_generic_partial.
Example C199_generic_ex : is_primary_key ex_cat 10 1 = true /\ is_primary_key ex_cat 12 3 = false /\ has_secondary_index ex_cat 10 2 = true /\
  has_secondary_index ex_cat 10 1 = false /\ indexes_on ex_cat 12 3 = [104; 103].
Proof. vm_compute. auto. Qed.

(** Table 12 has a foreign key with the name of the primary key of table 10 that refers to column 2 of table 10, which is
    unique: column 2 is reported as primary key. *)
Theorem C199_generic_refuted : exists (cat : catalog nat) t c, primary_wf cat /\ foreign_wf cat /\
  is_primary_key cat t c = true /\ ~ in_primary cat t c.
Proof.
  exists (mkcat [mkk 100 10 KPrimary [1] 0 []; mkk 101 10 KUnique [2] 0 []; mkk 100 12 KForeign [3] 10 [2]] []), 10, 2.
  split; [split|split; [|split]].
  - intros k k' H H'. cbn in H, H'. repeat (destruct H as [<-|H]); try destruct H as []; repeat (destruct H' as [<-|H']); try destruct H' as []; cbn; congruence.
  - intros k H. cbn in H. repeat (destruct H as [<-|H]); try destruct H as []; cbn; repeat constructor; cbn; intuition discriminate.
  - intros k H. cbn in H. repeat (destruct H as [<-|H]); try destruct H as []; cbn; auto; discriminate.
  - vm_compute. reflexivity.
  - intros (n & k & Hk & Hkd & Ht & Hc & _). cbn in Hk. repeat (destruct Hk as [<-|Hk]); try destruct Hk as []; cbn in *; try discriminate. intuition discriminate.
Qed.
Print Assumptions C199_generic_refuted.

(** primary_key_column.  Missing: constraints with the same name. *)
Theorem C199_primary_column_partial : forall (N : Type) (EN : EqD N) (cat : catalog N) t, unique_names cat -> primary_wf cat ->
  (primary_key_column cat t = Ok None <-> forall c, ~ in_primary cat t c) /\
  (forall d, primary_key_column cat t = Ok (Some d) <-> fst d = t /\ forall c, in_primary cat t c <-> c = snd d) /\
  (primary_key_column cat t = Raise ValueError <-> exists c c', c <> c' /\ in_primary cat t c /\ in_primary cat t c').
Proof.
  intros N EN cat t Hu Hwf.
  assert (Hdec : (exists k, In k (constrs cat) /\ k_kind k = KPrimary /\ k_tab k = t) \/ forall k, In k (constrs cat) -> k_kind k = KPrimary -> k_tab k <> t).
  { clear -EN. induction (constrs cat) as [|k l IH]; [right; intros k []|].
    destruct IH as [(x & H1 & H2)|IH]; [left; exists x; split; [now right|assumption]|].
    destruct (k_kind k) eqn:Ek; [destruct (eqd (k_tab k) t) as [E|E]|..];
      try (left; exists k; split; [now left|auto]; fail); right; intros x [<-|Hx] H1; auto; congruence. }
  unfold primary_key_column. destruct Hdec as [(k & Hk & Ekd & Et)|Hno].
  - subst t. rewrite (@pk_rows _ EN cat k Hu Hwf Hk Ekd).
    assert (Hin : forall c, in_primary cat (k_tab k) c <-> In c (k_cols k)).
    { intros c. split; [|intros H; exists (k_name k), k; auto]. intros (n & k' & Hk' & E' & Et & Hc & _). destruct Hwf as [Hone _].
      rewrite (Hone k k') by (auto; congruence). assumption. }
    destruct Hwf as [_ Hnd]. specialize (Hnd k Hk). destruct (k_cols k) as [|a [|b l]]; cbn [map].
    + split; [|split].
      * split; [intros _ c Hc; now apply Hin in Hc|reflexivity].
      * intros d. split; [discriminate|]. intros [_ H]. exfalso. apply (proj1 (Hin (snd d))). now apply H.
      * split; [discriminate|]. intros (c & c' & _ & H & _). now apply Hin in H.
    + split; [|split].
      * split; [discriminate|]. intros H. exfalso. apply (H a). apply Hin. now left.
      * intros d. split.
        -- intros E. injection E as <-. cbn [fst snd]. split; [reflexivity|]. intros c. rewrite Hin. cbn. intuition congruence.
        -- intros [E H]. assert (a = snd d) by (apply H, Hin; now left). cbn [snd]. subst. destruct d; cbn in *; congruence.
      * split; [discriminate|]. intros (c & c' & Hne & H & H'). apply Hin in H as [<-|[]]. apply Hin in H' as [<-|[]]. contradiction.
    + split; [|split].
      * split; [discriminate|]. intros H. exfalso. apply (H a). apply Hin. now left.
      * intros d. split; [discriminate|]. intros [E H]. exfalso. inversion_clear Hnd as [|? ? Ha _]. apply Ha. left.
        transitivity (snd d); [symmetry; symmetry; apply H, Hin; right; now left|symmetry; apply H, Hin; now left].
      * split; [|reflexivity]. intros _. exists a, b. split; [|split; apply Hin; [now left|right; now left]].
        inversion_clear Hnd as [|? ? Ha _]. intros ->. apply Ha. now left.
  - rewrite pk_rows_none by assumption.
    assert (Hin : forall c, ~ in_primary cat t c) by (intros c (n & k & Hk & E & Et & _); exact (Hno k Hk E Et)).
    split; [|split].
    + split; auto.
    + intros d. split; [discriminate|]. intros [_ H]. exfalso. apply (Hin (snd d)). now apply H.
    + split; [discriminate|]. intros (c & c' & _ & H & _). now apply Hin in H.
Qed.
Print Assumptions C199_primary_column_partial.
Example C199_primary_column_ex : primary_key_column ex_cat 10 = Ok (Some (10, 1)) /\ primary_key_column ex_cat 12 = Ok None.
Proof. vm_compute. auto. Qed.

(** PostgreSQL: indexes_on is exact, indexed_column returns a column of the index, and None only if there is none.
    [rows] are the rows of the query in any order. *)
Theorem C199_postgres_exact : forall (N : Type) (EN : EqD N) (cat : catalog N),
  (forall t c n, In n (pg_indexes_on cat t c) <-> exists p, indexed cat t c n p) /\
  (forall i rows d, Permutation rows (q_indexed cat i) -> pg_indexed_column rows = Some d -> exists p, indexed cat (fst d) (snd d) i p) /\
  (forall i rows, Permutation rows (q_indexed cat i) -> (pg_indexed_column rows = None <-> forall t c p, ~ indexed cat t c i p)).
Proof.
  intros N EN cat.
  assert (Hq : forall i d, In d (q_indexed cat i) <-> exists p, indexed cat (fst d) (snd d) i p).
  { intros i [t c]. unfold q_indexed. rewrite in_flat_map. split.
    - intros ([[[n t1] c1] p] & H1 & H2). destruct (deqb_spec n i) as [->|]; [|destruct H2]. destruct H2 as [E|[]]. injection E as -> ->. exists p. now apply In_v_index.
    - intros (p & H). exists (i, t, c, p). split; [now apply In_v_index|]. rewrite deqb_refl. now left. }
  split; [|split].
  - intros t c n. unfold pg_indexes_on. rewrite dedup_In, in_flat_map. split.
    + intros ([[[n1 t1] c1] p] & H1 & H2). destruct (deqb_spec t1 t) as [->|]; [|destruct H2]. destruct (deqb_spec c1 c) as [->|]; [|destruct H2].
      destruct H2 as [->|[]]. exists p. now apply In_v_index.
    + intros (p & H). exists (n, t, c, p). split; [now apply In_v_index|]. rewrite !deqb_refl. now left.
  - intros i rows d Hp H. apply Hq. apply (Permutation_in _ Hp). destruct rows; [discriminate|]. injection H as ->. now left.
  - intros i rows Hp. destruct rows as [|d rows]; cbn.
    + split; [|reflexivity]. intros _ t c p H. apply Permutation_nil in Hp. assert (Hin : In (t, c) (q_indexed cat i)) by (apply Hq; eauto). rewrite Hp in Hin. destruct Hin.
    + split; [discriminate|]. intros H. exfalso. assert (Hin : In d (q_indexed cat i)) by (apply (Permutation_in _ Hp); now left).
      apply Hq in Hin as (p & Hd). now apply H in Hd.
Qed.
Print Assumptions C199_postgres_exact.
Example C199_postgres_exact_ex : pg_indexes_on ex_cat 12 4 = [202] /\ pg_indexed_column (q_indexed ex_cat 202) = Some (12, 3).
Proof. vm_compute. auto. Qed.

(** Missing: columns that are in a primary key index and in another index. *)
Theorem C199_postgres_partial : forall (N : Type) (EN : EqD N) (cat : catalog N) t c rows, Permutation rows (q_indexes cat t) ->
  (forall n n', ~ (indexed cat t c n true /\ indexed cat t c n' false)) ->
  (pg_is_primary_key rows c = true <-> exists n, indexed cat t c n true) /\
  (pg_has_secondary_index rows c = true <-> exists n, indexed cat t c n false) /\
  (forall rows', Permutation rows' (q_indexes cat t) -> (pg_has_index rows rows' c = true <-> exists n p, indexed cat t c n p)).
Proof.
  intros N EN cat t c rows Hp Hex.
  assert (Hrow : forall rows, Permutation rows (q_indexes cat t) -> forall p, dget (index_map rows) c = Some p <-> exists n, indexed cat t c n p).
  { clear rows Hp. intros rows Hp p. unfold index_map. rewrite dict_of_spec. split.
    - intros H. apply lastval_In in H. apply In_q_indexes. now apply (Permutation_in _ Hp).
    - intros (n & H). assert (Hin : In (c, p) rows) by (apply (Permutation_in _ (Permutation_sym Hp)), In_q_indexes; eauto).
      destruct (@lastval_some _ _ _ _ _ _ Hin) as [w Hw]. pose proof (@lastval_In _ _ _ _ _ _ Hw) as Hin'. apply (Permutation_in _ Hp), In_q_indexes in Hin' as (n' & H').
      rewrite Hw. destruct w, p; auto; exfalso; eapply Hex; split; eassumption. }
  assert (H1 : forall rows, Permutation rows (q_indexes cat t) -> (pg_is_primary_key rows c = true <-> exists n, indexed cat t c n true)).
  { intros rs Hr. rewrite <- (Hrow rs Hr true). unfold pg_is_primary_key. destruct (dget _ _) as [[|]|]; split; congruence. }
  assert (H2 : forall rows, Permutation rows (q_indexes cat t) -> (pg_has_secondary_index rows c = true <-> exists n, indexed cat t c n false)).
  { intros rs Hr. rewrite <- (Hrow rs Hr false). unfold pg_has_secondary_index. destruct (dget _ _) as [[|]|]; cbn; split; congruence. }
  split; [auto|split; [auto|]]. intros rows' Hp'. unfold pg_has_index. rewrite orb_true_iff, (H1 rows Hp), (H2 rows' Hp'). split.
  - intros [(n & H)|(n & H)]; eauto.
  - intros (n & [|] & H); eauto.
Qed.
Print Assumptions C199_postgres_partial.
Example C199_postgres_ex : pg_is_primary_key (q_indexes ex_cat 10) 1 = true /\ pg_has_secondary_index (q_indexes ex_cat 12) 4 = true /\
  pg_has_secondary_index (q_indexes ex_cat 12) 1 = false.
Proof. vm_compute. auto. Qed.

(** A primary key column that also is in another index: whether it is a primary key or has a secondary index depends on
    the order in which the server delivers the rows; one of the two answers is wrong in any case.  With different orders
    for the two queries of has_index, it seems not to be indexed at all. *)
Theorem C199_postgres_refuted : exists (cat : catalog nat) t c rows rows', Permutation rows (q_indexes cat t) /\ Permutation rows' (q_indexes cat t) /\
  (exists n, indexed cat t c n true) /\ (exists n, indexed cat t c n false) /\
  pg_is_primary_key rows c = false /\ pg_has_secondary_index rows' c = false /\ pg_has_index rows rows' c = false.
Proof.
  exists (mkcat [] [mki 200 10 [1] true; mki 201 10 [1; 2] false]), 10, 1, [(1, true); (1, false); (2, false)], [(1, false); (2, false); (1, true)].
  split; [vm_compute; apply Permutation_refl|]. split; [vm_compute; apply Permutation_sym, (Permutation_cons_append [(1, false); (2, false)] (1, true))|].
  split; [exists 200; eexists; split; [left; reflexivity|cbn; auto 6]|]. split; [exists 201; eexists; split; [right; left; reflexivity|cbn; auto 6]|]. vm_compute. auto.
Qed.
Print Assumptions C199_postgres_refuted.
(** ... and the two answers exclude each other for every order of the rows. *)
Theorem C199_postgres_exclusive : forall (N : Type) (EN : EqD N) (rows : list (N * bool)) c, pg_is_primary_key rows c && pg_has_secondary_index rows c = false.
Proof. intros. unfold pg_is_primary_key, pg_has_secondary_index. destruct (dget _ _) as [[|]|]; reflexivity. Qed.
Print Assumptions C199_postgres_exclusive.

(** * C200 *)
(** MySQL: exactly the columns to which the column refers, also for composite foreign keys. *)
Theorem C200_mysql : forall (N : Type) (EN : EqD N) (cat : catalog N) t c d, In d (my_foreign_keys_on cat t c) <-> refers cat t c d.
Proof. intros. apply my_foreign_spec. Qed.
Print Assumptions C200_mysql.
Example C200_mysql_ex : my_foreign_keys_on (mkcat [mkk 1 20 KForeign [3; 4] 21 [5; 6]] []) 20 4 = [(21, 6)].
Proof. vm_compute. reflexivity. Qed.

(** PostgreSQL: no reference is lost. *)
Theorem C200_postgres_complete : forall (N : Type) (EN : EqD N) (cat : catalog N) t c d, refers cat t c d -> In d (pg_foreign_keys_on cat t c).
Proof. intros. unfold pg_foreign_keys_on. rewrite dedup_In. now apply refers_foreign. Qed.
Print Assumptions C200_postgres_complete.
(** Missing: composite foreign keys and constraints with the same name. *)
Theorem C200_postgres_partial : forall (N : Type) (EN : EqD N) (cat : catalog N) t c d, unique_names cat -> single_foreign cat ->
  (In d (pg_foreign_keys_on cat t c) <-> refers cat t c d).
Proof.
  intros N EN cat t c d Hu Hs. split; [|apply C200_postgres_complete]. unfold pg_foreign_keys_on. rewrite dedup_In, foreign_unique by assumption.
  intros (k & Hk & Hf & Ht & Hc & Hr & Hrc). destruct (Hs k Hk Hf) as [H1 H2]. exists k, 0. repeat split; auto.
  - destruct (k_cols k) as [|a [|]]; try discriminate. destruct Hc as [->|[]]. reflexivity.
  - destruct (k_rcols k) as [|a [|]]; try discriminate. destruct Hrc as [->|[]]. reflexivity.
Qed.
Print Assumptions C200_postgres_partial.
Example C200_postgres_ex : pg_foreign_keys_on ex_cat 10 2 = [(11, 1)] /\ pg_foreign_keys_on ex_cat 12 3 = [(10, 1)] /\ pg_foreign_keys_on ex_cat 12 4 = [].
Proof. vm_compute. auto. Qed.
(** A composite foreign key: each column seems to refer to each of the referenced columns. *)
Theorem C200_postgres_composite_refuted : exists (cat : catalog nat) t c d, unique_names cat /\ foreign_wf cat /\ In d (pg_foreign_keys_on cat t c) /\ ~ refers cat t c d.
Proof.
  exists (mkcat [mkk 1 20 KForeign [3; 4] 21 [5; 6]] []), 20, 3, (21, 6). split; [|split; [|split]].
  - unfold unique_names. cbn. repeat constructor. cbn. tauto.
  - intros k [<-|[]] _. reflexivity.
  - vm_compute. auto.
  - intros (k & i & [<-|[]] & _ & _ & Hc & _ & Hr). cbn in *. destruct i as [|[|i]]; cbn in *; try discriminate. destruct i; discriminate.
Qed.
Print Assumptions C200_postgres_composite_refuted.
(** Foreign keys of two tables with the same name: the references of both are reported for both. *)
Theorem C200_postgres_names_refuted : exists (cat : catalog nat) t c d, single_foreign cat /\ In d (pg_foreign_keys_on cat t c) /\ ~ refers cat t c d.
Proof.
  exists (mkcat [mkk 1 20 KForeign [3] 21 [5]; mkk 1 22 KForeign [3] 23 [6]] []), 20, 3, (23, 6). split; [|split].
  - intros k [<-|[<-|[]]] _; auto.
  - vm_compute. auto.
  - intros (k & i & [<-|[<-|[]]] & _ & Ht & Hc & Hd & Hr); cbn in *; discriminate.
Qed.
Print Assumptions C200_postgres_names_refuted.

(** The generic method: every reference that it reports names the schema as table and the referenced table as column. *)
Theorem C200_generic_swapped : forall (N : Type) (EN : EqD N) sch (cat : catalog N) t c d, unique_names cat ->
  (In d (foreign_keys_on sch cat t c) <-> fst d = sch /\ exists k, In k (constrs cat) /\ k_kind k = KForeign /\ k_tab k = t /\ In c (k_cols k) /\ k_rcols k <> [] /\ k_ref k = snd d).
Proof.
  intros N EN sch cat t c d Hu. unfold foreign_keys_on. rewrite dedup_In, in_map_iff. split.
  - intros ([t3 c3] & <- & H). apply foreign_unique in H as (k & Hk & Hf & Ht & Hc & Hr & Hrc); [|assumption]. cbn in *. split; [reflexivity|]. exists k. repeat split; auto.
    intros E. rewrite E in Hrc. destruct Hrc.
  - intros (<- & k & Hk & Hf & Ht & Hc & Hne & Hr). destruct (k_rcols k) as [|r l] eqn:Er; [contradiction|]. exists (k_ref k, r). split; [destruct d; cbn in *; congruence|].
    apply foreign_unique; [assumption|]. exists k. rewrite Er. cbn. auto 10.
Qed.
Print Assumptions C200_generic_swapped.
(** Hence it is wrong already for a single foreign key of one column. *)
Theorem C200_generic_refuted : exists sch (cat : catalog nat) t c, unique_names cat /\ single_foreign cat /\
  refers cat t c (11, 1) /\ foreign_keys_on sch cat t c = [(sch, 11)].
Proof.
  exists 99, ex_cat, 10, 2. split; [exact ex_cat_unique|]. split; [apply ex_cat_wf|]. split; [|vm_compute; reflexivity].
  exists (mkk 102 10 KForeign [2] 11 [1]), 0. cbn. repeat split; auto.
Qed.
Print Assumptions C200_generic_refuted.

(** DuckDB: the foreign keys on just this column.  Missing: composite foreign keys. *)
Theorem C200_duckdb_partial : forall (N : Type) (EN : EqD N) (cat : catalog N) t c d,
  (In d (duck_foreign_keys_on cat t c) -> refers cat t c d) /\
  (single_foreign cat -> refers cat t c d -> In d (duck_foreign_keys_on cat t c)).
Proof.
  intros N EN cat t c d. split.
  - intros H. apply duck_foreign_spec in H as (k & Hk & Hf & Ht & Hc & Hr & Hrc). exists k, 0. rewrite Hc. cbn. repeat split; auto.
  - intros Hs (k & i & Hk & Hf & Ht & Hc & Hr & Hrc). apply duck_foreign_spec. exists k. destruct (Hs k Hk Hf) as [H1 H2].
    destruct (k_cols k) as [|a [|]]; try discriminate. destruct (k_rcols k) as [|b [|]]; try discriminate.
    destruct i as [|i]; [|destruct i; discriminate]. cbn in *. repeat split; auto. congruence.
Qed.
Print Assumptions C200_duckdb_partial.
Example C200_duckdb_ex : duck_foreign_keys_on ex_cat 10 2 = [(11, 1)].
Proof. vm_compute. reflexivity. Qed.
Theorem C200_duckdb_refuted : exists (cat : catalog nat) t c d, unique_names cat /\ foreign_wf cat /\ refers cat t c d /\ duck_foreign_keys_on cat t c = [].
Proof.
  exists (mkcat [mkk 1 20 KForeign [3; 4] 21 [5; 6]] []), 20, 3, (21, 5). split; [|split; [|split]].
  - unfold unique_names. cbn. repeat constructor. cbn. tauto.
  - intros k [<-|[]] _. reflexivity.
  - exists (mkk 1 20 KForeign [3; 4] 21 [5; 6]), 0. cbn. repeat split; auto.
  - vm_compute. reflexivity.
Qed.
Print Assumptions C200_duckdb_refuted.

(** * C201 *)
(** The graph has the tables that are no views and the tables of the references as nodes, and an edge for each pair of
    tables with a reference, labelled with just these references, each once.  It can be computed iff the primary key of
    each table that is no view can be determined.  Missing: tables with composite primary keys. *)
Theorem C201_graph_partial : forall (N : Type) (EN : EqD N) (tables : list N) is_view colnames (fks : N * N -> list (N * N)) pk iter,
  (forall l, Permutation (iter l) l) -> (forall c, NoDup (fks c)) ->
  ((exists g, as_graph tables is_view colnames fks pk iter = Ok g) <-> forall t, In t tables -> is_view t = false -> is_ok (pk t) = true) /\
  (forall g, as_graph tables is_view colnames fks pk iter = Ok g ->
     NoDup (g_nodes g) /\
     (forall t, In t (g_nodes g) <-> (In t tables /\ is_view t = false) \/
        exists r, schema_ref tables is_view colnames fks r /\ (t = fst (fst r) \/ t = fst (snd r))) /\
     (forall a b, dget (g_edges g) (a, b) = None <-> forall r, schema_ref tables is_view colnames fks r -> ~ (fst (fst r) = a /\ fst (snd r) = b)) /\
     (forall a b l, dget (g_edges g) (a, b) = Some l -> l <> [] /\ NoDup l /\
        forall r, In r l <-> schema_ref tables is_view colnames fks r /\ fst (fst r) = a /\ fst (snd r) = b)).
Proof.
  intros N EN tables is_view colnames fks pk iter Hiter Hnd. unfold as_graph. split.
  - rewrite <- (@graph_nodes_total _ EN is_view colnames pk tables (mksg [] []) []). split.
    + intros (g & H). destruct (graph_nodes _ _ _ _ _ _) as [r|]; [eauto|discriminate].
    + intros ([g cols] & ->). cbn. eauto.
  - intros g. destruct (graph_nodes is_view colnames pk tables (mksg [] []) []) as [[g0 cols]|] eqn:E; [|discriminate]. cbn [rmap rbind]. intros H. injection H as <-.
    destruct (graph_nodes_ok _ _ _ _ _ _ E) as (H1 & H0 & H2 & H3). cbn [g_nodes g_edges] in *.
    set (rs := flat_map (fun c => map (fun d => (c, d)) (fks c)) (iter (dedup cols))).
    assert (Hrs : forall r, In r rs <-> schema_ref tables is_view colnames fks r).
    { intros [c d]. unfold rs. rewrite in_flat_map. unfold schema_ref. cbn [fst snd]. split.
      - intros (c0 & Hc & Hin). apply in_map_iff in Hin as (d0 & Ed & Hd). injection Ed as -> ->. apply (Permutation_in _ (Hiter _)) in Hc. rewrite dedup_In in Hc.
        apply H3 in Hc as [[]|(A & B & C)]. auto.
      - intros (A & B & C & D). exists c. split; [|apply in_map_iff; eauto]. apply (Permutation_in _ (Permutation_sym (Hiter _))). rewrite dedup_In. apply H3. auto. }
    assert (Hrnd : NoDup rs).
    { unfold rs. assert (Hi : NoDup (iter (dedup cols))) by (eapply Permutation_NoDup; [apply Permutation_sym, Hiter|apply dedup_NoDup]).
      clear -Hi Hnd. revert Hi. generalize (iter (dedup cols)). intros l Hi.
      induction l as [|c l IH]; [constructor|]. inversion_clear Hi as [|? ? Hc Hl]. cbn [flat_map]. apply NoDup_app_intro; [|now apply IH|].
      - specialize (Hnd c). induction (fks c) as [|d m IHm]; [constructor|]. inversion_clear Hnd as [|? ? Hd Hm]. cbn [map]. constructor; [|now apply IHm].
        intros Hin. apply in_map_iff in Hin as (d' & Ed & Hin). injection Ed as ->. contradiction.
      - intros x Hx Hx'. apply in_map_iff in Hx as (d & <- & _). apply in_flat_map in Hx' as (c' & Hc' & Hin). apply in_map_iff in Hin as (d' & Ed & _).
        injection Ed as -> ->. contradiction. }
    destruct (@fold_graph _ EN rs g0) as [F1 F2].
    { intros e l He. rewrite H1 in He. discriminate. }
    split; [|split; [|split]].
    + assert (Hw : forall l (h : sgraph), dwf (g_edges h) -> NoDup (g_nodes h) -> NoDup (g_nodes (fold_left graph_edge l h))).
      { induction l as [|r l IH]; intros h A B; [assumption|]. cbn [fold_left]. destruct (@graph_edge_wf _ EN h r A B). now apply IH. }
      apply Hw; [rewrite H1; constructor|apply H0; constructor].
    + intros t. rewrite F1, H2. split.
      * intros [[[]|Ht]|(r & Hr & Ht)]; [auto|right; exists r; split; [now apply Hrs|assumption]].
      * intros [Ht|(r & Hr & Ht)]; [auto|right; exists r; split; [now apply Hrs|assumption]].
    + intros a b. rewrite F2, H1. cbn [dget]. destruct (filter _ rs) as [|r l] eqn:Ef; split; try discriminate; auto.
      * intros _ r Hr [Ea Eb]. assert (Hin : In r (filter (fun r0 => deqb (fst (fst r0), fst (snd r0)) (a, b)) rs)).
        { apply filter_In. split; [now apply Hrs|]. rewrite Ea, Eb. apply deqb_refl. }
        rewrite Ef in Hin. destruct Hin.
      * intros H. exfalso. assert (Hin : In r (filter (fun r0 => deqb (fst (fst r0), fst (snd r0)) (a, b)) rs)) by (rewrite Ef; now left).
        apply filter_In in Hin as [Hin Heq]. apply deqb_true in Heq. injection Heq as Ea Eb. apply (H r); [now apply Hrs|auto].
    + intros a b l He. rewrite F2, H1 in He. cbn [dget] in He.
      assert (El : l = filter (fun r0 => deqb (fst (fst r0), fst (snd r0)) (a, b)) rs) by (destruct (filter _ rs); congruence).
      split; [|split].
      * intros ->. destruct (filter _ rs); discriminate.
      * rewrite El. now apply NoDup_filter.
      * intros r. rewrite El, filter_In, Hrs, deqb_eq. split; [intros [A B]; injection B as -> ->; auto|intros (A & -> & ->); auto].
Qed.
Print Assumptions C201_graph_partial.
Definition ex_tables := [10; 11; 12; 13].
Definition ex_view (t : nat) := t =? 13.
Definition ex_cols (t : nat) := match t with 10 => [1; 2] | 11 => [1] | 12 => [3; 4] | 13 => [1] | _ => [] end.
Definition ex_fks (c : nat * nat) := my_foreign_keys_on ex_cat (fst c) (snd c).
Example C201_graph_ex : as_graph ex_tables ex_view ex_cols ex_fks (primary_key_column ex_cat) (fun l => l) =
  Ok (mksg [10; 11; 12] [((10, 11), [((10, 2), (11, 1))]); ((12, 10), [((12, 3), (10, 1))])]).
Proof. vm_compute. reflexivity. Qed.
(** One table with a composite primary key suffices, and there is no graph of the schema at all. *)
Theorem C201_composite_refuted : exists (cat : catalog nat) tables is_view colnames fks, unique_names cat /\ primary_wf cat /\ (forall t, In t tables -> is_view t = false) /\
  forall iter, as_graph tables is_view colnames fks (primary_key_column cat) iter = Raise ValueError.
Proof.
  exists (mkcat [mkk 100 10 KPrimary [1; 2] 0 []] []), [10], (fun _ => false), (fun _ => [1; 2]), (fun _ => []). split; [|split; [split|split]].
  - unfold unique_names. cbn. repeat constructor. cbn. tauto.
  - intros k k' [<-|[]] [<-|[]] _ _ _. reflexivity.
  - intros k [<-|[]]. cbn. repeat constructor; cbn; intuition discriminate.
  - reflexivity.
  - intros iter. vm_compute. reflexivity.
Qed.
Print Assumptions C201_composite_refuted.

(** * C202 *)
(** Two columns are in one class iff they are connected by foreign keys of columns of the tables; a column is in a class
    iff it has or is the target of a foreign key; classes are disjoint; the keys map each such column to its class. *)
Theorem C202_classes : forall (N : Type) (EN : EqD N) (tables : list N) colnames (fks : N * N -> list (N * N)),
  let ref c d := In (fst c) tables /\ In (snd c) (colnames (fst c)) /\ In d (fks c) in
  let classes := join_classes tables colnames fks in
  (forall c d, (exists k, In k classes /\ In c k /\ In d k) <-> (exists e, ref c e \/ ref e c) /\ linked (fk_edges tables colnames fks) c d) /\
  (forall c d, In (c, d) (fk_edges tables colnames fks) <-> ref c d) /\
  (forall k k' c, In k classes -> In k' classes -> In c k -> In c k' -> k = k') /\
  (forall k, In k classes -> k <> []) /\
  (forall c k, dget (join_keys tables colnames fks) c = Some k <-> In k classes /\ In c k).
Proof.
  intros N EN tables colnames fks ref classes.
  set (es := fk_edges tables colnames fks). set (ns := fk_nodes tables colnames fks).
  assert (Hes : forall c d, In (c, d) es <-> ref c d) by (intros c d; apply (@fk_edge_In _ tables colnames fks (c, d))).
  assert (Hns : forall c, In c ns <-> exists e, ref c e \/ ref e c).
  { intros c. unfold ns, fk_nodes. rewrite dedup_In, in_flat_map. split.
    - intros ([a b] & He & [<-|[<-|[]]]); cbn [fst snd]; [exists b; left|exists a; right]; now apply Hes.
    - intros (e & [H|H]); apply Hes in H; [exists (c, e)|exists (e, c)]; (split; [assumption|]); cbn; auto. }
  assert (Hcov : covers ns es).
  { intros [a b] He. apply Hes in He. cbn [fst snd]. split; apply Hns; eauto. }
  assert (Hself : forall y, In y ns -> In y ns) by auto.
  assert (Hcl : closed ns es []) by (intros x y []).
  assert (Hdis : forall k k' c, In k classes -> In k' classes -> In c k -> In c k' -> k = k').
  { intros k k' c. apply (@components_disjoint _ EN ns es ns [] k k' c Hself Hcl). }
  assert (Hcls : forall k, In k classes -> exists x, In x ns /\ k = reachable ns es x).
  { intros k Hk. destruct (@components_reach _ EN ns es ns [] k Hk) as (x & Hx & _ & E). eauto. }
  split; [|split; [exact Hes|split; [exact Hdis|split]]].
  - intros c d. split.
    + intros (k & Hk & Hc & Hd). destruct (Hcls k Hk) as (x & Hx & ->). apply reachable_spec in Hc; [|assumption]. apply reachable_spec in Hd; [|assumption].
      split; [apply Hns, (proj2 (path_In _ _ _ _ Hc))|]. apply path_linked with (ns := ns). eapply path_trans; [apply path_sym; exact Hc|exact Hd].
    + intros [He Hl]. apply Hns in He. destruct (@components_cover _ EN ns es ns [] c Hself He) as [[]|(k & Hk & Hc)]. exists k. split; [exact Hk|split; [assumption|]].
      destruct (Hcls k Hk) as (x & Hx & ->). apply reachable_spec in Hc; [|assumption]. apply reachable_spec; [assumption|].
      eapply path_trans; [exact Hc|]. now apply linked_path.
  - intros k Hk E. destruct (Hcls k Hk) as (x & Hx & Ek). assert (Hin : In x k) by (rewrite Ek; apply reachable_spec; [assumption|now constructor]). rewrite E in Hin. destruct Hin.
  - assert (Hin1 : forall (k l : list (N * N)) d c, dget (fold_left (fun d c => dset d c k) l d) c = if mem c l then Some k else dget d c).
    { intros k. induction l as [|a l IH]; intros d c; [reflexivity|]. cbn [fold_left]. rewrite IH, dset_spec. unfold mem. cbn [existsb]. fold (mem c l).
      destruct (mem c l); [now rewrite orb_true_r|]. rewrite orb_false_r. unfold deqb. destruct (eqd c a); reflexivity. }
    assert (Hgen : forall (ks : list (list (N * N))) d c k, (forall k k', In k ks -> In k' ks -> In c k -> In c k' -> k = k') ->
      (dget (fold_left (fun d k => fold_left (fun d c => dset d c k) k d) ks d) c = Some k <->
       (In k ks /\ In c k) \/ ((forall k', In k' ks -> ~ In c k') /\ dget d c = Some k))).
    { induction ks as [|a ks IH]; intros d c k Hd; cbn [fold_left].
      - split; [intros H; right; split; [intros k' []|assumption]|intros [[[] _]|[_ H]]; assumption].
      - rewrite IH by (intros x y Hx Hy; apply Hd; now right). rewrite Hin1. destruct (mem c a) eqn:Em.
        + apply mem_In in Em. split.
          * intros [[H1 H2]|[H1 H2]]; [left; split; [now right|assumption]|]. injection H2 as <-. left. split; [now left|assumption].
          * intros [[[<-|H1] H2]|[H1 _]]; [|left; auto|exfalso; apply (H1 a); [now left|assumption]].
            assert (Hdec : (exists k', In k' ks /\ In c k') \/ forall k', In k' ks -> ~ In c k').
            { clear -EN. induction ks as [|b ks IH]; [right; intros k' []|]. destruct IH as [(k' & A & B)|IH]; [left; exists k'; split; [now right|assumption]|].
              destruct (mem c b) eqn:E; [left; exists b; split; [now left|now apply mem_In]|]. right. intros k' [<-|Hk']; [now apply mem_nIn|auto]. }
            destruct Hdec as [(k' & A & B)|Hdec]; [left|right; auto]. assert (a = k') by (apply Hd; auto; [now left|now right]). subst k'. auto.
        + apply mem_nIn in Em. split.
          * intros [[H1 H2]|[H1 H2]]; [left; split; [now right|assumption]|right; split; [|assumption]]. intros k' [<-|Hk']; auto.
          * intros [[[<-|H1] H2]|[H1 H2]]; [contradiction|left; auto|right; split; [|assumption]]. intros k' Hk'. apply H1. now right. }
    intros c k. unfold join_keys. fold classes. rewrite Hgen by (intros; eapply Hdis; eauto). split; [|auto]. intros [H|[_ H]]; [assumption|discriminate].
Qed.
Print Assumptions C202_classes.
Example C202_ex : join_classes ex_tables ex_cols ex_fks = [[(11, 1); (10, 2)]; [(10, 1); (12, 3)]] /\
  dget (join_keys ex_tables ex_cols ex_fks) (12, 4) = None /\ dget (join_keys ex_tables ex_cols ex_fks) (10, 1) = Some [(10, 1); (12, 3)].
Proof. vm_compute. auto. Qed.

(** * C203 *)
(** MySQL: the first of the candidates with such a column, also for texts and for columns of another table. *)
Theorem C203_mysql_lookup : forall (N : Type) (EN : EqD N) (colnames : N -> list N) l cands,
  (forall expect t, my_lookup_column colnames l cands expect = Ok (Some t) <-> first_such (fun t => In (lname l) (colnames t)) cands (Some t)) /\
  (my_lookup_column colnames l cands false = Ok None <-> forall t, In t cands -> ~ In (lname l) (colnames t)) /\
  (my_lookup_column colnames l cands true = Raise ValueError <-> forall t, In t cands -> ~ In (lname l) (colnames t)).
Proof.
  intros N EN colnames l cands. induction cands as [|t cands (IH1 & IH2 & IH3)]; cbn [my_lookup_column].
  - split; [|split]; [intros [|] t; split; try discriminate; intros H; inversion H|split; auto; intros _ t []|split; auto; intros _ t []].
  - destruct (mem (lname l) (colnames t)) eqn:Em.
    + apply mem_In in Em. split; [|split].
      * intros expect t'. split; [intros E; injection E as <-; now apply fs_here|]. intros H. inversion H; subst; [reflexivity|contradiction].
      * split; [discriminate|]. intros H. exfalso. apply (H t); [now left|assumption].
      * split; [discriminate|]. intros H. exfalso. apply (H t); [now left|assumption].
    + apply mem_nIn in Em. split; [|split].
      * intros expect t'. rewrite IH1. split; [intros H; now apply fs_next|]. intros H. inversion H; subst; [contradiction|assumption].
      * rewrite IH2. split; [intros H x [<-|Hx]; auto|intros H x Hx; apply H; now right].
      * rewrite IH3. split; [intros H x [<-|Hx]; auto|intros H x Hx; apply H; now right].
Qed.
Print Assumptions C203_mysql_lookup.
Example C203_mysql_ex : my_lookup_column ex_cols (LName 2) [11; 10; 12] true = Ok (Some 10) /\ my_lookup_column ex_cols (LName 9) [11; 10] true = Raise ValueError.
Proof. vm_compute. auto. Qed.

(** The generic method, which DuckDB uses: a text or a column without table is never found, in no schema. *)
Theorem C203_generic_never : forall (N : Type) (EN : EqD N) (colnames : N -> list N) l cands expect, (forall t c, l <> LBound t c) ->
  lookup_column colnames l cands expect = if expect then Raise ValueError else Ok None.
Proof.
  intros N EN colnames l cands expect Hl. induction cands as [|t cands IH]; [reflexivity|]. cbn [lookup_column].
  assert (E : existsb (lcol_eqb l) (columns colnames t) = false).
  { destruct (existsb _ _) eqn:E; [|reflexivity]. apply existsb_exists in E as (b & _ & Hb). destruct l; cbn in Hb; try discriminate. now destruct (Hl t0 c). }
  now rewrite E.
Qed.
Print Assumptions C203_generic_never.
Theorem C203_generic_refuted : exists (colnames : nat -> list nat) c cands t, In t cands /\ In c (colnames t) /\ lookup_column colnames (LName c) cands true = Raise ValueError.
Proof. exists ex_cols, 2, [10], 10. vm_compute. auto. Qed.
Print Assumptions C203_generic_refuted.
(** ... and a bound column is found just in its own table. *)
Theorem C203_generic_bound : forall (N : Type) (EN : EqD N) (colnames : N -> list N) t0 c cands expect t,
  lookup_column colnames (LBound t0 c) cands expect = Ok (Some t) <-> t = t0 /\ In t0 cands /\ In c (colnames t0).
Proof.
  intros N EN colnames t0 c cands expect t. induction cands as [|a cands IH]; cbn [lookup_column]; [destruct expect; split; try discriminate; intros (_ & [] & _)|].
  destruct (existsb _ _) eqn:E.
  - apply existsb_exists in E as (b & Hb & Eb). cbn [lcol_eqb] in Eb. apply deqb_true in Eb. subst b. apply in_map_iff in Hb as (c' & Ec & Hc). injection Ec as <- <-. split.
    + intros E. injection E as <-. repeat split; auto. now left.
    + intros (-> & _). reflexivity.
  - rewrite IH. split; [intros (A & B & C); repeat split; auto; now right|]. intros (-> & [->|B] & C); [|auto]. exfalso.
    assert (Ht : existsb (lcol_eqb (LBound t0 c)) (columns colnames t0) = true); [|congruence].
    apply existsb_exists. exists (t0, c). split; [apply in_map_iff; eauto|]. cbn [lcol_eqb]. apply deqb_refl.
Qed.
Print Assumptions C203_generic_bound.

(** PostgreSQL: up to five candidates are tried in order; a column is also found by its name in lower case.
    Missing: more candidates, and databases in which both spellings exist. *)
Theorem C203_postgres_lookup_partial : forall (N : Type) (EN : EqD N) (colnames : N -> list N) lower iter l cands, length cands <= 5 ->
  (forall expect t, pg_lookup_column colnames lower iter l cands expect = Ok (Some t) <->
     first_such (fun t => In (lname l) (colnames t) \/ In (lower (lname l)) (colnames t)) cands (Some t)) /\
  (pg_lookup_column colnames lower iter l cands true = Raise ValueError <-> forall t, In t cands -> ~ (In (lname l) (colnames t) \/ In (lower (lname l)) (colnames t))).
Proof.
  intros N EN colnames lower iter l cands Hlen. unfold pg_lookup_column. replace (5 <? length cands) with false by (symmetry; apply Nat.ltb_ge; assumption). clear Hlen.
  induction cands as [|t cands (IH1 & IH3)]; cbn [pg_lookup_in].
  - split; [intros [|] t; split; try discriminate; intros H; inversion H|split; auto; intros _ t []].
  - destruct (mem (lname l) (colnames t) || mem (lower (lname l)) (colnames t)) eqn:Em.
    + apply orb_true_iff in Em. rewrite !mem_In in Em. split.
      * intros expect t'. split; [intros E; injection E as <-; now apply fs_here|]. intros H. inversion H; subst; [reflexivity|contradiction].
      * split; [discriminate|]. intros H. exfalso. apply (H t); [now left|assumption].
    + apply orb_false_iff in Em as [E1 E2]. apply mem_nIn in E1. apply mem_nIn in E2. assert (Hn : ~ (In (lname l) (colnames t) \/ In (lower (lname l)) (colnames t))) by tauto. split.
      * intros expect t'. rewrite IH1. split; [intros H; now apply fs_next|]. intros H. inversion H; subst; [contradiction|assumption].
      * rewrite IH3. split; [intros H x [<-|Hx]; auto|intros H x Hx; apply H; now right].
Qed.
Print Assumptions C203_postgres_lookup_partial.
Example C203_postgres_ex : pg_lookup_column ex_cols (fun c => c) (@rev nat) (LName 1) [12; 11; 10] true = Ok (Some 11).
Proof. vm_compute. reflexivity. Qed.
(** For any number of candidates: a table is returned iff one has the column, and it has it. *)
Theorem C203_postgres_sound : forall (N : Type) (EN : EqD N) (colnames : N -> list N) lower iter l cands, (forall l, Permutation (iter l) l) ->
  (forall expect t, pg_lookup_column colnames lower iter l cands expect = Ok (Some t) -> In t cands /\ (In (lname l) (colnames t) \/ In (lower (lname l)) (colnames t))) /\
  (forall t, In t cands -> In (lname l) (colnames t) -> exists t', pg_lookup_column colnames lower iter l cands true = Ok (Some t')).
Proof.
  intros N EN colnames lower iter l cands Hiter. unfold pg_lookup_column.
  assert (Hin : forall t, In t (if 5 <? length cands then iter (dedup cands) else cands) <-> In t cands).
  { intros t. destruct (5 <? length cands); [|reflexivity]. split; [intros H; apply (Permutation_in _ (Hiter _)) in H; now rewrite dedup_In in H|].
    intros H. apply (Permutation_in _ (Permutation_sym (Hiter _))). now rewrite dedup_In. }
  set (ts := if 5 <? length cands then iter (dedup cands) else cands) in *. clearbody ts. split.
  - intros expect t H. rewrite <- Hin. clear Hin. revert H. induction ts as [|a ts IH]; cbn [pg_lookup_in]; [destruct expect; discriminate|].
    destruct (mem _ _ || mem _ _) eqn:Em.
    + intros E. injection E as <-. apply orb_true_iff in Em. rewrite !mem_In in Em. split; [now left|assumption].
    + intros H. destruct (IH H) as [A B]. split; [now right|assumption].
  - intros t Ht Hc. apply Hin in Ht. clear Hin. induction ts as [|a ts IH]; [destruct Ht|]. cbn [pg_lookup_in]. destruct (mem _ _ || mem _ _) eqn:Em; [eauto|].
    destruct Ht as [->|Ht]; [|auto]. apply orb_false_iff in Em as [E1 _]. apply mem_nIn in E1. contradiction.
Qed.
Print Assumptions C203_postgres_sound.
(** With six candidates, the one that is returned depends on the order of a set. *)
Theorem C203_postgres_lookup_refuted : exists (colnames : nat -> list nat) l cands iter t, (forall l, Permutation (iter l) l) /\
  first_such (fun t => In (lname l) (colnames t)) cands (Some t) /\ pg_lookup_column colnames (fun c => c) iter l cands true <> Ok (Some t).
Proof.
  exists (fun _ => [1]), (LName 1), [1; 2; 3; 4; 5; 6], (@rev nat), 1. split; [intros l; apply Permutation_sym, Permutation_rev|]. split; [apply fs_here; cbn; auto|]. vm_compute. discriminate.
Qed.
Print Assumptions C203_postgres_lookup_refuted.

(** tables(): the first call is answered from the server.  Missing: later calls with other arguments. *)
Theorem C203_tables_partial : forall (N : Type) (EN : EqD N) (stored : N -> list N) system incl sch,
  (forall t, In t (fst (pg_tables stored system [] incl sch)) <-> In t (stored sch) /\ (incl = false -> system t = false)) /\
  (forall incl' sch', fst (pg_tables stored system [] incl sch) <> [] ->
     fst (pg_tables stored system (snd (pg_tables stored system [] incl sch)) incl' sch') = fst (pg_tables stored system [] incl sch)).
Proof.
  intros N EN stored system incl sch. split.
  - intros t. cbn. destruct incl; cbn [fst]; [rewrite dedup_In; split; [split; [assumption|discriminate]|tauto]|].
    rewrite filter_In, dedup_In, negb_true_iff. split; [intros [A B]; auto|intros [A B]; auto].
  - intros incl' sch' Hne. cbn in *. destruct incl; cbn [fst snd] in *; match goal with |- context [pg_tables _ _ ?c _ _] => destruct c; [contradiction|reflexivity] end.
Qed.
Print Assumptions C203_tables_partial.
Theorem C203_tables_refuted : exists (stored : nat -> list nat) system t,
  let cache := snd (pg_tables stored system [] false 0) in In t (stored 1) /\ system t = false /\ ~ In t (fst (pg_tables stored system cache true 1)).
Proof. exists (fun s => match s with 0 => [10] | _ => [20] end), (fun _ => false), 20. vm_compute. intuition discriminate. Qed.
Print Assumptions C203_tables_refuted.

(** schema["..."]: the tables of the graph are found; nothing else is, and no KeyError is raised for it. *)
Theorem C203_getitem : forall (N : Type) (EN : EqD N) (g : sgraph) has_column k,
  (forall i, getitem_text (Ok g) has_column k = Ok i <-> exists t, i = ITable t /\ t = match k with GPlain s => s | GDotted w _ _ => w end /\ In t (g_nodes g)) /\
  getitem_text (Ok g) has_column k <> Raise KeyError.
Proof.
  intros N EN g has_column k. unfold getitem_text, getitem_table. cbn [rbind]. set (t := match k with GPlain s => s | GDotted w _ _ => w end).
  destruct (mem t (g_nodes g)) eqn:Em; (split; [intros i|discriminate]).
  - apply mem_In in Em. split; [intros E; injection E as <-; eauto|intros (t' & -> & -> & _); reflexivity].
  - apply mem_nIn in Em. split; [discriminate|]. intros (t' & _ & -> & H). contradiction.
Qed.
Print Assumptions C203_getitem.
Example C203_getitem_ex : getitem_text (Ok (mksg [10; 11] [])) (fun _ _ => true) (GPlain 10) = Ok (ITable 10).
Proof. vm_compute. reflexivity. Qed.
(** Hence "table.column" never gives the column. *)
Theorem C203_getitem_refuted : exists (g : sgraph (N := nat)) has_column w t c, In t (g_nodes g) /\ has_column t c = true /\ ~ In w (g_nodes g) /\
  getitem_text (Ok g) has_column (GDotted w t c) = Raise OtherError.
Proof. exists (mksg [10] []), (fun _ _ => true), 1000, 10, 1. vm_compute. intuition discriminate. Qed.
Print Assumptions C203_getitem_refuted.
