(** Property theorems for C08, C09, C10 (join structure of a query). *)
From Coq Require Import List Bool Arith Lia.
From Verif Require Import PyBase Graph Pred_model Pred_spec Pred_proofs QPred_model QPred_spec QPred_proofs QPred2_proofs QPred3_proofs Pred_props.
Import ListNotations.

(** C08: joins_between is symmetric (as a set of predicates; Python builds a set as well). *)
Theorem C08_symmetric : forall (E : Type) (m : dict (list nat) (pred E)) (xs ys : list tbl) j,
  In j (map_joins_between m xs ys) <-> In j (map_joins_between m ys xs).
Proof.
  intros E m xs ys j. unfold map_joins_between.
  assert (H : forall xs ys, In j (flat_map (fun x => flat_map (fun y =>
      match dget m (fset [okey (Some x); okey (Some y)]) with Some j => [j] | None => [] end) ys) xs) ->
    In j (flat_map (fun x => flat_map (fun y =>
      match dget m (fset [okey (Some x); okey (Some y)]) with Some j => [j] | None => [] end) xs) ys)).
  { clear xs ys. intros xs ys Hj. apply in_flat_map in Hj as (x & Hx & Hj). apply in_flat_map in Hj as (y & Hy & Hj).
    apply in_flat_map. exists y. split; [assumption|]. apply in_flat_map. exists x. split; [assumption|].
    rewrite (proj2 (fset_eq [okey (Some y); okey (Some x)] [okey (Some x); okey (Some y)])); [assumption|].
    intros z. cbn. tauto. }
  split; apply H.
Qed.
Print Assumptions C08_symmetric.
(** C08: with join predicates that touch exactly two tables, the conjunction of what joins_between returns has the truth
    value of the conjunction of all joins between the two sides, and is empty iff there is no such join.
    Missing: joins of three or more tables (false, see below). *)
Theorem C08_exact_partial : forall (E : Type) (ecols : E -> list col) (I : interp E) (js : list (pred E)) ts m xs ys bj,
  (forall j, In j js -> two_table ecols j) -> (forall j, In j js -> jp_ok ecols j) ->
  (forall j t, In j js -> In t (ptabs ecols j) -> In t ts) -> query_predicates ecols js ts = Ok m ->
  (forall j, In j bj <-> In j js /\ exists x y, In x xs /\ In y ys /\ seteq (ptabs ecols j) [x; y]) ->
  (forall r, all3 (map (sem I r) (map_joins_between m xs ys)) = all3 (map (sem I r) bj)) /\
  (map_joins_between m xs ys = [] <-> bj = []).
Proof. intros E ecols I js ts m xs ys bj H1 H2. exact (joins_between_two ecols I js H1 H2 ts m xs ys bj). Qed.
Print Assumptions C08_exact_partial.
Definition exj1 := PBin OpEq Ra Sa. Definition exj2 := PBin OpLt Rb Sb. Definition exj3 := PBin OpEq Sb Ta.
Example C08_ex : let js := [exj1; exj3; exj2] in
  (forall j, In j js -> two_table xcols j) /\ (forall j, In j js -> jp_ok xcols j) /\
  exists m, query_predicates xcols js [2; 0; 1] = Ok m /\
    map_joins_between m [0] [1] = [PAnd [exj1; exj2]] /\ map_joins_between m [1] [0] = [PAnd [exj1; exj2]] /\
    map_joins_between m [0] [2] = [] /\ map_joins_between m [0; 2] [1] = [PAnd [exj1; exj2]; exj3].
Proof.
  cbn. split; [|split].
  - intros j [<-|[<-|[<-|[]]]]; (split; [intros c [<-|[<-|[]]]; discriminate|]).
    + exists 0, 1. split; [discriminate|]. split; [vm_compute; tauto|]. split; [discriminate|]. split; [exists (mkcol (Some 0) 0)|exists (mkcol (Some 1) 0)]; simpl; auto.
    + exists 1, 2. split; [discriminate|]. split; [vm_compute; tauto|]. split; [discriminate|]. split; [exists (mkcol (Some 1) 1)|exists (mkcol (Some 2) 0)]; simpl; auto.
    + exists 0, 1. split; [discriminate|]. split; [vm_compute; tauto|]. split; [discriminate|]. split; [exists (mkcol (Some 0) 1)|exists (mkcol (Some 1) 1)]; simpl; auto.
  - intros j [<-|[<-|[<-|[]]]]; eexists; reflexivity.
  - eexists. split; [vm_compute; reflexivity|]. repeat split; vm_compute; reflexivity.
Qed.
(** A join over three tables is found for no pair of its tables. *)
Theorem C08_refuted : exists (j : pred xe) m, links xcols 0 2 j /\ query_predicates xcols [j] [0; 1; 2] = Ok m /\
  map_joins_between m [0] [2] = [] /\ map_joins_between m [0; 1] [2] = [].
Proof.
  exists (PBin OpEq (XAdd Ra Sa) Ta). eexists. split.
  - split; [discriminate|]. split; [exists (mkcol (Some 0) 0)|exists (mkcol (Some 2) 0)]; simpl; auto.
  - split; [vm_compute; reflexivity|]. split; vm_compute; reflexivity.
Qed.
Print Assumptions C08_refuted.

(** C09: joins_tables decides connectivity, for every iteration order [ts] of the requested tables.  The hypothesis says
    that no join raises NoJoinPredicateError when asked for its partners, which is the condition under which the
    predicate view exists at all (C15). *)
Theorem C09_connectivity : forall (E : Type) (ecols : E -> list col) (js : list (pred E)) (root ts : list tbl),
  (forall j, In j js -> jp_ok ecols j) -> 2 <= length ts ->
  exists b, joins_tables ecols js root ts = Ok b /\ (b = true <-> tables_connected ecols js ts).
Proof. exact @joins_tables_spec. Qed.
Print Assumptions C09_connectivity.
(** One table: true iff it occurs in the predicates; no table: ValueError. *)
Theorem C09_singleton : forall (E : Type) (ecols : E -> list col) (js : list (pred E)) (root : list tbl) t,
  exists b, joins_tables ecols js root [t] = Ok b /\ (b = true <-> In t root).
Proof. intros. exists (mem t root). split; [reflexivity|apply mem_In]. Qed.
Print Assumptions C09_singleton.
(** Taken literally, the claim is true for every single table; the code says False for a table without predicates. *)
Theorem C09_singleton_refuted : exists t, tables_connected xcols [exj1] [t] /\ joins_tables xcols [exj1] [0; 1] [t] = Ok false.
Proof. exists 2. split; [|reflexivity]. intros t u [<-|[]] [<-|[]]. constructor. now left. Qed.
Print Assumptions C09_singleton_refuted.
Example C09_ex : let js := [exj1; exj3; exj2] in
  joins_tables xcols js [0; 1; 2] [2; 0; 1] = Ok true /\ joins_tables xcols js [0; 1; 2] [2; 0] = Ok false.
Proof. split; vm_compute; reflexivity. Qed.

(** C10: on the tables that occur in predicates the check is right ... *)
Theorem C10_check_partial : forall (E : Type) (ecols : E -> list col) (js : list (pred E)) (root : list tbl),
  (forall j, In j js -> jp_ok ecols j) ->
  (forall j c, In j js -> In c (pcols ecols j) -> exists t, c_tab c = Some t /\ In t root) -> root <> [] ->
  exists b, cross_product_check ecols js root = Ok b /\ (b = true <-> tables_connected ecols js root).
Proof. exact @cross_product_check_spec. Qed.
Print Assumptions C10_check_partial.
Example C10_ex : cross_product_check xcols [exj1] [0; 1] = Ok true /\ cross_product_check xcols [exj1] [0; 1; 2] = Ok false.
Proof. split; vm_compute; reflexivity. Qed.
(** ... but FROM tables without any predicate are not seen: [R, S, T WHERE R.a = S.a] is accepted ... *)
Theorem C10_unmentioned_table_refuted : exists (p : pred xe) (from : list tbl),
  incl (ptabs xcols p) from /\ cross_product_check xcols (collect_joins xcols p) (ptabs xcols p) = Ok true /\
  ~ tables_connected xcols (collect_joins xcols p) from.
Proof.
  exists exj1, [0; 1; 2]. split; [intros t [<-|[<-|[]]]; simpl; auto|]. split; [vm_compute; reflexivity|].
  intros H. destruct (joins_tables_spec xcols (collect_joins xcols exj1) [] [0; 1; 2]) as (b & Hb & Hiff).
  - intros j [<-|[]]. eexists. reflexivity.
  - cbn. lia.
  - apply Hiff in H. subst b. vm_compute in Hb. discriminate.
Qed.
Print Assumptions C10_unmentioned_table_refuted.
(** ... and a query without any predicate makes the check raise instead of failing it. *)
Theorem C10_no_predicates_refuted : cross_product_check xcols [] [] = Raise OtherError.
Proof. reflexivity. Qed.
Print Assumptions C10_no_predicates_refuted.
(** contains_cross_product() never answers for a query that has predicates ... *)
Theorem C10_contains_cross_product_refuted : forall (E : Type) (ecols : E -> list col) (js : list (pred E)) root,
  (forall j, In j js -> jp_ok ecols j) -> contains_cross_product ecols true true js root = Raise TypeError.
Proof.
  intros E ecols js root H. unfold contains_cross_product. cbn. destruct (jg_edges_ok ecols js H) as (es & -> & _). reflexivity.
Qed.
Print Assumptions C10_contains_cross_product_refuted.
(** ... and claims a cross product for a query over a single table without predicates. *)
Theorem C10_single_table_refuted : contains_cross_product xcols true false [] [] = Ok true /\ tables_connected xcols [] [0].
Proof. split; [reflexivity|]. intros t u [<-|[]] [<-|[]]. constructor. now left. Qed.
Print Assumptions C10_single_table_refuted.
