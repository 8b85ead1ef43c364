(** Property theorems for C01 and C15 (predicates of a query). *)
From Coq Require Import List Bool Arith Lia.
From Verif Require Import PyBase Pred_model Pred_spec Pred_proofs QPred_spec QPred_proofs QPred2_proofs QPred3_proofs.
Import ListNotations.

(** Columns for the examples: table 0 = R, 1 = S, 2 = T. *)
Definition Ra := XCol (mkcol (Some 0) 0). Definition Rb := XCol (mkcol (Some 0) 1).
Definition Sa := XCol (mkcol (Some 1) 0). Definition Sb := XCol (mkcol (Some 1) 1).
Definition Ta := XCol (mkcol (Some 2) 0).
Definition K (n : nat) := XInt (Some n).

(** C01, full claim: on every row the conjunction of filters() and joins() has the truth value of the WHERE clause.
    False for a disjunction that mixes a join and a filter: [R.a = S.a OR R.b = 1] is reported as a join and a filter,
    which together mean AND. *)
Theorem C01_split_refuted : exists (p : pred xe) (r : row XI), wfp p = true /\
  sem XI r p = T3 /\ all3 (map (sem XI r) (collect_filters xcols p ++ collect_joins xcols p)) = F3.
Proof.
  exists (POr [PBin OpEq Ra Sa; PBin OpEq Rb (K 1)]), (fun c => Some (c_name c + 2 * match c_tab c with Some 1 => 1 | _ => 0 end)).
  repeat split; vm_compute; reflexivity.
Qed.
Print Assumptions C01_split_refuted.

(** Missing for the full claim: disjunctions that mix joins and filters (the claim is false for them).  Everything else,
    in all three truth values: *)
Theorem C01_split_partial : forall (E : Type) (ecols : E -> list col) (I : interp E) (r : row I) (p : pred E),
  wfp p = true -> homogeneous (is_join ecols) p ->
  and3 (all3 (map (sem I r) (collect_filters ecols p))) (all3 (map (sem I r) (collect_joins ecols p))) = sem I r p.
Proof. exact @collect_equiv. Qed.
Print Assumptions C01_split_partial.
(** Whatever the shape of the WHERE clause, rows that satisfy all filters and joins satisfy the WHERE clause. *)
Theorem C01_split_stronger : forall (E : Type) (ecols : E -> list col) (I : interp E) (r : row I) (p : pred E),
  wfp p = true ->
  (forall q, In q (collect_filters ecols p) \/ In q (collect_joins ecols p) -> sem I r q = T3) -> sem I r p = T3.
Proof. exact @collect_stronger. Qed.
Print Assumptions C01_split_stronger.
Example C01_ex : let p := PAnd [PBin OpEq Ra Sa; PNot (POr [PBin OpLt Rb (K 1); PBin OpEq Sb Ra]);
                                POr [PBin OpEq Rb (K 3); PBetween Ra (K 1) (K 5)]] in
  wfp p = true /\ homogeneous (is_join xcols) p /\
  collect_filters xcols p = [POr [PBin OpEq Rb (K 3); PBetween Ra (K 1) (K 5)]] /\
  collect_joins xcols p = [PBin OpEq Ra Sa; PNot (POr [PBin OpLt Rb (K 1); PBin OpEq Sb Ra])] /\
  sem XI (fun c => Some 3) p = F3 /\
  sem XI (fun c => match c_tab c, c_name c with Some 1, 1 => None | _, _ => Some 3 end) p = U3 /\
  sem XI (fun c => match c_tab c, c_name c with Some 1, 1 => Some 4 | _, _ => Some 3 end) p = T3.
Proof. cbn. repeat split; try reflexivity. right. intros q [<-|[<-|[]]]; reflexivity. Qed.

(** Every reported join touches two different tables. *)
Theorem C01_joins_join : forall (E : Type) (ecols : E -> list col) (p q : pred E), In q (collect_joins ecols p) ->
  exists t u, t <> u /\ mentions (pcols ecols q) t /\ mentions (pcols ecols q) u.
Proof.
  intros E ecols p q Hq. destruct (is_join_two ecols q (collect_joins_join ecols p q Hq)) as (t & u & Hn & Ht & Hu).
  apply In_ctabs in Ht, Hu. exists t, u. auto.
Qed.
Print Assumptions C01_joins_join.
(** No reported filter is a join in the sense of [is_join] ... *)
Theorem C01_filters_no_join : forall (E : Type) (ecols : E -> list col) (p q : pred E),
  In q (collect_filters ecols p) -> is_join ecols q = false.
Proof.
  intros E ecols p q Hq. apply (collect_filters_filter ecols p) in Hq. unfold is_filter in Hq. now apply negb_true_iff in Hq.
Qed.
Print Assumptions C01_filters_no_join.
(** ... so that a reported comparison filter touches at most one table ... *)
Theorem C01_comparison_filter_one_table : forall (E : Type) (ecols : E -> list col) (p : pred E) op a b t u,
  In (PBin op a b) (collect_filters ecols p) ->
  mentions (pcols ecols (PBin op a b)) t -> mentions (pcols ecols (PBin op a b)) u -> t = u.
Proof.
  intros E ecols p op a b t u Hq Ht Hu. apply (bin_filter_one ecols op a b t u).
  - exact (C01_filters_no_join E ecols p _ Hq).
  - now apply In_ctabs.
  - now apply In_ctabs.
Qed.
Print Assumptions C01_comparison_filter_one_table.
(** ... but BETWEEN and IN filters can touch two: [5 BETWEEN R.a AND S.a] is called a filter. *)
Theorem C01_filter_two_tables_refuted : exists p : pred xe,
  In p (collect_filters xcols p) /\ mentions (pcols xcols p) 0 /\ mentions (pcols xcols p) 1.
Proof.
  exists (PBetween (K 5) Ra Sa). split; [now left|]. split; [exists (mkcol (Some 0) 0)|exists (mkcol (Some 1) 0)]; simpl; auto.
Qed.
Print Assumptions C01_filter_two_tables_refuted.

(** C15, full claim: the constructor of the predicate view never raises.  False: if a disjunction contains two joins, one
    of them a conjunction with an additional filter, building the view raises (this is the shape of TPC-H query 19). *)
Theorem C15_total_refuted : exists (p : pred xe), wfp p = true /\
  query_predicates xcols (collect_joins xcols p) (ptabs xcols p) = Raise NoJoinPredicateError.
Proof.
  exists (POr [PAnd [PBin OpEq Ra Sa; PBin OpGt Rb (K 1)]; PAnd [PBin OpEq Ra Sa; PBin OpLt Sb (K 9)]]).
  split; vm_compute; reflexivity.
Qed.
Print Assumptions C15_total_refuted.
(** Exactly when it raises: some reported join contains a comparison, BETWEEN or IN that is not itself a join.  [js] and
    [ts] are arbitrary iteration orders of the sets joins() and tables(). *)
Theorem C15_total_partial : forall (E : Type) (ecols : E -> list col) (p : pred E) (js : list (pred E)) (ts : list tbl),
  (forall j, In j js <-> In j (collect_joins ecols p)) -> (forall t, In t ts <-> mentions (pcols ecols p) t) ->
  ((exists m, query_predicates ecols js ts = Ok m) <->
   forall j, In j js -> ~ some_leaf (fun b => match b with PUn _ _ => False | _ => is_join ecols b = false end) j) /\
  (forall e, query_predicates ecols js ts = Raise e -> e = NoJoinPredicateError).
Proof.
  intros E ecols p js ts Hj Ht.
  apply (query_predicates_total ecols {| V := unit; val := fun _ _ => tt; opsem := fun _ _ _ => U3; unsem := fun _ _ => U3 |} p js ts Hj).
  intros t. rewrite Ht. unfold mentions, ptabs. now rewrite In_ctabs.
Qed.
Print Assumptions C15_total_partial.
(** In particular, conjunctions of base predicates (and of homogeneous disjunctions of base predicates) are fine. *)
Example C15_ex : let p := PAnd [PBin OpEq Ra Sa; PBin OpEq Sb Ta; PBin OpLt Rb (K 4)] in
  is_ok (query_predicates xcols (collect_joins xcols p) (ptabs xcols p)) = true.
Proof. reflexivity. Qed.
