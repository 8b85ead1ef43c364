(** C108 and C109: renaming and merging tables. *)
From Coq Require Import List Bool Arith Lia.
From Verif Require Import PyBase RTab_model RTab_spec RTab_proofs.
Import ListNotations.

(** ** C108: rename_table replaces a table everywhere *)
Theorem C108_rename_table_partial pre ex q from to prefix cols : ok_q ex [from] to q ->
  (prefix = true -> forall c, In c (cols_q q) -> ct c = Some from -> In c cols) ->
  rename_table pre q from to prefix cols = Ok (sub_q (one from to) (if prefix then follow_prefixed pre from to else follow (one from to)) q).
Proof. apply rename_table_ok. Qed.
Print Assumptions C108_rename_table_partial.

Theorem C108_no_old_reference_partial pre ex q from to prefix cols q' : ok_q ex [from] to q ->
  (prefix = true -> forall c, In c (cols_q q) -> ct c = Some from -> In c cols) -> ident to <> ident from ->
  rename_table pre q from to prefix cols = Ok q' -> ~ In from (refs_q q').
Proof.
  intros Hok Hc D E. rewrite (rename_table_ok pre ex) in E by assumption. injection E as <-. intros X.
  apply (refs_sub (one from to)) in X.
  - destruct X as (s & _ & [X|(n & -> & X)]).
    + unfold one in X. destruct (eqd s from); congruence.
    + unfold sub_name, one in X. destruct (eqd (virt n) from) as [Y|Y]; [|cbn in X; congruence]. rewrite X in D. cbn in D. tauto.
  - intros [n ot]. destruct prefix; cbn; [|reflexivity]. unfold follow_prefixed. cbn [ct cn]. destruct (eqd ot (Some from)) as [->|Y]; cbn.
    + unfold one. destruct (eqd from from); [reflexivity|tauto].
    + destruct ot as [t|]; cbn; [|reflexivity]. unfold one. destruct (eqd t from); [congruence|reflexivity].
Qed.
Print Assumptions C108_no_old_reference_partial.

Theorem C108_absent_table_partial pre ex q from to prefix cols : ok_q ex [from] to q -> ~ In from (refs_q q) ->
  (forall c, In c (cols_q q) -> ct c <> Some from) -> rename_table pre q from to prefix cols = Ok q.
Proof.
  intros Hok Hr Hc. rewrite (rename_table_ok pre ex); [|assumption|intros _ c Hi E; exfalso; exact (Hc c Hi E)]. f_equal.
  apply (proj2 (proj2 (proj2 (sub_same ex [from] to (one from to) _)))); [assumption| |].
  - intros t Ht. unfold one. destruct (eqd t from); [congruence|reflexivity].
  - intros c Hi. specialize (Hc c Hi). destruct c as [n ot]. cbn in Hc. destruct prefix.
    + unfold follow_prefixed. cbn [ct]. destruct (eqd ot (Some from)); [congruence|reflexivity].
    + unfold follow. cbn. destruct ot as [t|]; cbn; [|reflexivity]. unfold one. destruct (eqd t from); [congruence|reflexivity].
Qed.
Print Assumptions C108_absent_table_partial.

(** Tables: R is 1, S is 2, T is 3, with aliases from 10 on. *)
Definition tR : tref := (Some 1, Some 10).
Definition tS : tref := (Some 2, None).
Definition tT : tref := (Some 3, Some 12).
Definition inner : query := Query [CSelect [ECol (mkcol 7 (Some tR))] []; CFrom FImplicit [SDirect tT]; CCond KWhere (ENode (KPlain 5) [ECol (mkcol 7 (Some tR)); EStar None])].
Definition sample : query :=
  Query [CWith [(Query [CSelect [EStar (Some tR)] []; CFrom FImplicit [SDirect tR]], 40)];
         CSelect [ECol (mkcol 5 (Some tR)); EStar (Some tR); ECol (mkcol 6 None)] [];
         CFrom FImplicit [SDirect tR; SDirect tS; SDirect (virt 40)];
         CCond KWhere (ENode (KPlain 1) [ECol (mkcol 5 (Some tR)); ECol (mkcol 5 (Some tS)); ESub inner])].
Definition tV : tref := (Some 9, Some 20).
Example C108_sample_supported : ok_q true [tR] tV sample.
Proof.
  cbn. repeat split; try discriminate; cbn; repeat constructor; cbn; intuition (try congruence; try lia); exfalso; subst; discriminate.
Qed.
Example C108_sample_renamed : rename_table Nat.mul sample tR tV false (cols_q sample) =
  Ok (Query [CWith [(Query [CSelect [EStar (Some tV)] []; CFrom FImplicit [SDirect tV]], 40)];
         CSelect [ECol (mkcol 5 (Some tV)); EStar (Some tV); ECol (mkcol 6 None)] [];
         CFrom FImplicit [SDirect tV; SDirect tS; SDirect (virt 40)];
         CCond KWhere (ENode (KPlain 1) [ECol (mkcol 5 (Some tV)); ECol (mkcol 5 (Some tS));
           ESub (Query [CSelect [ECol (mkcol 7 (Some tV))] []; CFrom FImplicit [SDirect tT]; CCond KWhere (ENode (KPlain 5) [ECol (mkcol 7 (Some tV)); EStar None])])])]).
Proof. reflexivity. Qed.
(** A query with a join and a subquery in FROM. *)
Definition joined : query :=
  Query [CSelect [ECol (mkcol 5 (Some tR))] [];
         CFrom FExplicit [SJoin 0 (SDirect tR) (SSub (Query [CSelect [EStar None] []; CFrom FImplicit [SDirect tS]]) (Some 50)) (Some (ENode (KPlain 1) [ECol (mkcol 5 (Some tR)); ECol (mkcol 6 (Some (virt 50)))]))]].
Example C108_joined_supported : ok_q true [tR] tV joined.
Proof.
  cbn. split; [auto|]. split; [|exact I]. split; [reflexivity|]. split.
  - split; [|exact I]. split; [exact I|]. split; [|auto]. split.
    + split; [auto|]. split; [|exact I]. split; [reflexivity|]. split; [discriminate|]. split; [repeat constructor; cbn; tauto|].
      cbn. intros t [<-|[]] H. discriminate.
    + split; [tauto|]. exists 50. split; [reflexivity|]. intros t [<-|[]] H. discriminate.
  - intros t. intuition (subst; discriminate).
Qed.

(** ORDER BY: no such query can be renamed. *)
Theorem C108_order_by_refuted pre q from to prefix cols es : In (COrder es) (match q with Query cs => cs end) ->
  is_ok (rename_table pre q from to prefix cols) = false.
Proof. destruct q as [cs]. apply order_by_fails. Qed.
Print Assumptions C108_order_by_refuted.
Example C108_order_by_case : rename_table Nat.mul (Query [CSelect [EStar None] []; CFrom FImplicit [SDirect tR]; COrder [ECol (mkcol 5 (Some tR))]]) tR tV false [mkcol 5 (Some tR)]
  = Raise ValueError.
Proof. reflexivity. Qed.

(** Set operations: neither. *)
Theorem C108_set_query_refuted pre q from to prefix cols k l r : In (CSet k l r) (match q with Query cs => cs end) ->
  is_ok (rename_table pre q from to prefix cols) = false.
Proof.
  destruct q as [cs]. intros H. unfold rename_table, rename_tables.
  pose proof (set_fails (lookup_col (col_renamings pre [(from, to)] (Some to) prefix cols)) k l r cs H) as X.
  destruct (rc_q _ (Query cs)); [discriminate|reflexivity].
Qed.
Print Assumptions C108_set_query_refuted.
Example C108_set_query_case : let q := Query [CSelect [EStar None] []; CFrom FImplicit [SDirect tR]] in
  rename_table Nat.mul (Query [CSet SUnion q q]) tR tV false [] = Raise TypeError.
Proof. reflexivity. Qed.

(** Given as a dictionary, the columns lose their table. *)
Theorem C108_dictionary_refuted : ~ (forall pre ex q from to cols, ok_q ex [from] to q ->
  rename_table_dict pre q [(from, to)] false cols = rename_table pre q from to false cols).
Proof.
  intros H. specialize (H Nat.mul true (Query [CSelect [ECol (mkcol 5 (Some tR))] []; CFrom FImplicit [SDirect tR]]) tR tV [mkcol 5 (Some tR)]).
  assert (X : ok_q true [tR] tV (Query [CSelect [ECol (mkcol 5 (Some tR))] []; CFrom FImplicit [SDirect tR]])).
  { cbn. split; [auto|]. split; [|exact I]. split; [reflexivity|]. split; [discriminate|]. split; [repeat constructor; cbn; tauto|].
    intros t [<-|[]] E. discriminate. }
  specialize (H X). cbn in H. discriminate.
Qed.
Print Assumptions C108_dictionary_refuted.
Example C108_dictionary_case :
  rename_table_dict Nat.mul (Query [CSelect [ECol (mkcol 5 (Some tR))] []; CFrom FImplicit [SDirect tR]]) [(tR, tV)] false [mkcol 5 (Some tR)]
  = Ok (Query [CSelect [ECol (mkcol 5 None)] []; CFrom FImplicit [SDirect tV]]).
Proof. reflexivity. Qed.
(** With several renamings at once, a table of the FROM clause can get lost. *)
Theorem C108_several_tables_refuted : exists q d q', rename_table_dict Nat.mul q d false [] = Ok q'
  /\ In tS (refs_q q) /\ dget d tS = Some tT /\ ~ In tT (refs_q q') /\ ~ In tS (refs_q q').
Proof.
  exists (Query [CSelect [EStar None] []; CFrom FImplicit [SDirect tR; SDirect tS; SDirect tV]]), [(tR, tV); (tS, tT)],
    (Query [CSelect [EStar None] []; CFrom FImplicit [SDirect tV]]).
  split; [reflexivity|]. split; [cbn; tauto|]. split; [reflexivity|]. split; cbn; intuition discriminate.
Qed.
Print Assumptions C108_several_tables_refuted.

(** The columns of a subquery in FROM are renamed first, and the new table is then taken for a table that is already there. *)
Theorem C108_from_subquery_refuted : exists q, ~ In tV (refs_q q) /\ (forall t, In t (refs_q q) -> ident t <> ident tV)
  /\ rename_table Nat.mul q tR tV false [mkcol 5 (Some tR)] = Raise ValueError.
Proof.
  exists (Query [CSelect [EStar None] []; CFrom FMixed [SSub (Query [CSelect [ECol (mkcol 5 (Some tR))] []; CFrom FImplicit [SDirect tR]]) (Some 50)]]).
  split; [cbn; intuition discriminate|]. split; [|reflexivity]. cbn. intros t. intuition (subst; discriminate).
Qed.
Print Assumptions C108_from_subquery_refuted.
(** A table in an explicit join cannot be exchanged under its alias. *)
Theorem C108_same_alias_refuted : exists q to, ident to = ident tR
  /\ rename_table Nat.mul q tR to false [] = Raise ValueError.
Proof.
  exists (Query [CSelect [EStar None] []; CFrom FExplicit [SJoin 0 (SDirect tR) (SDirect tS) None]]), (Some 9, Some 10). split; reflexivity.
Qed.
Print Assumptions C108_same_alias_refuted.
(** A subquery that has the identifier of the table as its name is renamed, but its columns are not. *)
Theorem C108_captured_name_refuted : exists q q', rename_table Nat.mul q tR tV false [mkcol 5 (Some (virt 10))] = Ok q'
  /\ q' <> sub_q (one tR tV) (follow (one tR tV)) q.
Proof.
  exists (Query [CSelect [ECol (mkcol 5 (Some (virt 10)))] []; CFrom FMixed [SSub (Query [CSelect [EStar None] []; CFrom FImplicit [SDirect tR]]) (Some 10)]]).
  eexists. split; [reflexivity|]. cbn. discriminate.
Qed.
Print Assumptions C108_captured_name_refuted.
(** DISTINCT ON, FILTER and quantifiers. *)
Theorem C108_distinct_on_refuted : exists q q', rename_table Nat.mul q tR tV false [mkcol 5 (Some tR)] = Ok q' /\ In tR (refs_q q').
Proof.
  exists (Query [CSelect [ECol (mkcol 5 (Some tR))] [ECol (mkcol 5 (Some tR))]; CFrom FImplicit [SDirect tR]]).
  eexists. split; [reflexivity|]. cbn. tauto.
Qed.
Print Assumptions C108_distinct_on_refuted.
Theorem C108_filter_refuted : exists q q', ~ In tR (refs_q q) /\ rename_table Nat.mul q tR tV false [] = Ok q' /\ q' <> q /\ length (refs_q q') < length (refs_q q).
Proof.
  exists (Query [CSelect [EFilt (ENode (KPlain 3) [EStar None]) (ENode (KPlain 1) [ECol (mkcol 5 (Some tS))])] []; CFrom FImplicit [SDirect tS]]).
  eexists. split; [cbn; intuition discriminate|]. split; [reflexivity|]. split; [discriminate|]. cbn. lia.
Qed.
Print Assumptions C108_filter_refuted.
Theorem C108_quantifier_refuted pre n es from to prefix cols q' :
  rename_table pre (Query [CCond KWhere (ENode (KQuant n) es)]) from to prefix cols = Ok q' ->
  exists es', q' = Query [CCond KWhere (EBroken es')].
Proof.
  unfold rename_table, rename_tables. cbn. destruct (lmapM (rc_e _) es) as [es'|]; cbn; [|discriminate].
  destruct (lmapM (rt_e _) es') as [es''|]; cbn; [|discriminate]. intros [= <-]. now exists es''.
Qed.
Print Assumptions C108_quantifier_refuted.
Example C108_quantifier_case : rename_table Nat.mul (Query [CCond KWhere (ENode (KQuant 0) [ECol (mkcol 5 (Some tS))])]) tR tV false []
  = Ok (Query [CCond KWhere (EBroken [ECol (mkcol 5 (Some tS))])]).
Proof. reflexivity. Qed.

(** ** C109: merge_tables replaces several tables by one *)
Theorem C109_merge_tables_partial pre columns q tables to : ok_q false tables to q ->
  merge_tables pre columns q tables to = Ok (sub_q (many tables to) (follow (many tables to)) q).
Proof. apply merge_tables_ok. Qed.
Print Assumptions C109_merge_tables_partial.
(** The order in which the set of tables is visited does not matter. *)
Theorem C109_any_order_partial pre columns q tables tables' to : ok_q false tables to q -> ok_q false tables' to q -> (forall t, In t tables <-> In t tables') ->
  merge_tables pre columns q tables to = merge_tables pre columns q tables' to.
Proof.
  intros H1 H2 E. rewrite !merge_tables_ok by assumption. f_equal.
  assert (X : forall t, many tables to t = many tables' to t).
  { intros t. unfold many. destruct (mem t tables) eqn:M, (mem t tables') eqn:M'; auto; [apply mem_In in M; apply mem_nIn in M'|apply mem_nIn in M; apply mem_In in M'];
    exfalso; firstorder. }
  apply (proj2 (proj2 (proj2 (sub_ext _ _ _ _ X (fun c => follow_ext _ _ c X))))).
Qed.
Print Assumptions C109_any_order_partial.
(** The FROM clause mentions the target once, and keeps the other tables. *)
Theorem C109_from_clause_partial pre columns cs tables to ts q' : ok_q false tables to (Query cs) -> In (CFrom FImplicit (map SDirect ts)) cs ->
  merge_tables pre columns (Query cs) tables to = Ok q' ->
  exists ts', In (CFrom FImplicit (map SDirect ts')) (clauses_of q') /\ NoDup ts'
    /\ (forall t, t <> to -> In t ts' <-> In t ts /\ ~ In t tables) /\ (In to ts' <-> In to ts \/ exists t, In t ts /\ In t tables).
Proof.
  intros Hok Hin E. rewrite merge_tables_ok in E by assumption. injection E as <-. cbn.
  exists (uniq [] (map (many tables to) ts)). split; [|split; [apply uniq_NoDup|]].
  - apply in_map_iff. exists (CFrom FImplicit (map SDirect ts)). split; [|assumption]. cbn. now rewrite direct_direct.
  - split; [intros t D|]; rewrite uniq_In; rewrite in_map_iff; unfold many; split.
    + intros [(s & Es & Hs) _]. destruct (mem s tables) eqn:M; [congruence|]. subst. apply mem_nIn in M. auto.
    + intros [Ht N]. split; [|auto]. exists t. apply mem_nIn in N. now rewrite N.
    + intros [(s & Es & Hs) _]. destruct (mem s tables) eqn:M; [right; apply mem_In in M; eauto|left; congruence].
    + intros H. split; [|auto]. destruct H as [H|(t & Ht & It)].
      * exists to. split; [destruct (mem to tables); reflexivity|assumption].
      * exists t. apply mem_In in It. now rewrite It.
Qed.
Print Assumptions C109_from_clause_partial.
Example C109_sample_supported : ok_q false [tR; tS] tV sample.
Proof. cbn. repeat split; try discriminate; cbn; repeat constructor; cbn; intuition (try congruence; try lia); exfalso; subst; discriminate. Qed.
Example C109_sample_merged : merge_tables Nat.mul cols_q sample [tR; tS] tV =
  Ok (Query [CWith [(Query [CSelect [EStar (Some tV)] []; CFrom FImplicit [SDirect tV]], 40)];
         CSelect [ECol (mkcol 5 (Some tV)); EStar (Some tV); ECol (mkcol 6 None)] [];
         CFrom FImplicit [SDirect tV; SDirect (virt 40)];
         CCond KWhere (ENode (KPlain 1) [ECol (mkcol 5 (Some tV)); ECol (mkcol 5 (Some tV));
           ESub (Query [CSelect [ECol (mkcol 7 (Some tV))] []; CFrom FImplicit [SDirect tT]; CCond KWhere (ENode (KPlain 5) [ECol (mkcol 7 (Some tV)); EStar None])])])]).
Proof. reflexivity. Qed.
(** Two tables of an explicit join cannot be merged. *)
Theorem C109_explicit_join_refuted : exists q, merge_tables Nat.mul cols_q q [tR; tS] tV = Raise ValueError /\ merge_tables Nat.mul cols_q q [tS; tR] tV = Raise ValueError.
Proof.
  exists (Query [CSelect [EStar None] []; CFrom FExplicit [SJoin 0 (SDirect tR) (SJoin 0 (SDirect tS) (SDirect tT) None) None]]). split; reflexivity.
Qed.
Print Assumptions C109_explicit_join_refuted.
