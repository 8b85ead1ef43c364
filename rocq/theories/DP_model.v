(** Model of the dynamic programming enumerator, postbound/opt/dynprog.py 50-435.

    Tables are numbers, frozensets canonical lists (FSet.v).  What the enumerator takes from its environment is left open:
    the cost model and the cardinality estimator (functions of the plan / of the tables), the schema (the indexes on a
    column), the predicates of the query (filters_for, joins_between, joins_tables; see Pred_model.v and QPred_model.v for
    those) and the order in which Python iterates over a frozenset.  initialize()/cleanup() of the cost model and the
    estimator are left out; both are assumed not to raise. *)
From Coq Require Import List Bool Arith.
From Verif Require Import PyBase FSet Collections_model.
Import ListNotations.

Inductive dscan := SeqScan | IdxScan | IdxOnlyScan | BmpScan.
Inductive djoin := NLJ | HashJ | MergeJ | IdxNLJ.
Definition dscan_eqb (a b : dscan) : bool := match a, b with SeqScan, SeqScan | IdxScan, IdxScan | IdxOnlyScan, IdxOnlyScan | BmpScan, BmpScan => true | _, _ => false end.
Definition djoin_eqb (a b : djoin) : bool := match a, b with NLJ, NLJ | HashJ, HashJ | MergeJ, MergeJ | IdxNLJ, IdxNLJ => true | _, _ => false end.

Section DP.
  (** Costs, cardinalities, predicates, indexes, columns. *)
  Context {C N P I K : Type}.
  (** QueryPlan nodes as far as they are set here: operator, base table, index / bitmap indexes and sort column, filter, or
      join condition and children, and the estimates. *)
  Record est := mkest { e_card : option N; e_cost : option C }.
  Inductive qp :=
  | QScan (op : dscan) (t : nat) (index : option (K * I)) (bitmap : list K) (filt : option P) (e : est)
  | QJoin (op : djoin) (cond : option P) (o i : qp) (e : est).
  Definition noest : est := mkest None None.
  Definition qp_est (p : qp) : est := match p with QScan _ _ _ _ _ e => e | QJoin _ _ _ _ e => e end.
  Definition qp_set (p : qp) (e : est) : qp := match p with QScan a b c d f _ => QScan a b c d f e | QJoin a b c d _ => QJoin a b c d e end.
  (** QueryPlan.tables(), a frozenset. *)
  Fixpoint qp_leaves (p : qp) : list nat := match p with QScan _ t _ _ _ _ => [t] | QJoin _ _ o i _ => qp_leaves o ++ qp_leaves i end.
  Definition qp_tables (p : qp) : list nat := mkfs (qp_leaves p).

  Context (clt : C -> C -> bool).
  (** calculate_estimate(query, tables), estimate_cost(query, plan) *)
  Context (card : list nat -> N) (cost : qp -> C).
  (** filters_for(table), the columns of the table used in the query (in iteration order) 67-76, indexes_on(column) *)
  Context (filters_for : nat -> option P) (used_columns : nat -> list K) (indexes_on : K -> list I).
  (** joins_between(outer, inner), joins_tables(tables) *)
  Context (joins_between : list nat -> list nat -> option P) (joins_tables : list nat -> bool).
  (** The operators supported by the target database 142-148. *)
  Context (scan_ops : list dscan) (join_ops : list djoin).
  (** The order in which a frozenset is iterated. *)
  Context (iter : list nat -> list nat).

  (** _calc_plan_estimates 52-64 *)
  Definition calc_estimates (p : qp) : qp :=
    let p1 := qp_set p (mkest (Some (card (qp_tables p))) (e_cost (qp_est p))) in
    qp_set p1 (mkest (e_card (qp_est p1)) (Some (cost p1))).

  (** [min(plans, key=lambda plan: plan.estimated_cost)]: the first of the cheapest; all plans have been given a cost. *)
  Definition costs_less (p q : qp) : bool :=
    match e_cost (qp_est p), e_cost (qp_est q) with Some a, Some b => clt a b | _, _ => false end.
  Definition cheapest (l : list qp) : res qp :=
    match l with [] => Raise ValueError | x :: r => Ok (fold_left (fun best p => if costs_less p best then p else best) r x) end.

  Definition has_scan (op : dscan) : bool := existsb (dscan_eqb op) scan_ops.
  Definition has_join (op : djoin) : bool := existsb (djoin_eqb op) join_ops.
  (** _determine_index_paths 241-304; the dict of candidate indexes has one entry per used column. *)
  Definition index_paths (t : nat) : list qp :=
    let cols := used_columns t in
    let only := List.length cols <=? 1 in
    match cols with
    | [] => []
    | _ => flat_map (fun c => flat_map (fun ix =>
               (if has_scan IdxScan then [QScan IdxScan t (Some (c, ix)) [] (filters_for t) noest] else []) ++
               (if only && has_scan IdxOnlyScan then [QScan IdxOnlyScan t (Some (c, ix)) [] (filters_for t) noest] else [])) (indexes_on c)) cols
           ++ (if has_scan BmpScan then [QScan BmpScan t None cols (filters_for t) noest] else [])
    end.
  (** The candidates of _determine_base_access_paths 213-224. *)
  Definition base_candidates (t : nat) : list qp :=
    (if has_scan SeqScan then [QScan SeqScan t None [] (filters_for t) noest] else []) ++ index_paths t.
  Definition dptable := dict (list nat) qp.
  (** _determine_base_access_paths 197-239; [tabs] is the iteration order of [query.tables()]. *)
  Fixpoint base_paths (tabs : list nat) (dp : dptable) : res dptable :=
    match tabs with
    | [] => Ok dp
    | t :: r => rbind (cheapest (map calc_estimates (base_candidates t))) (fun p => base_paths r (dset dp (mkfs [t]) p))
    end.

  (** The candidates for one split, 383-423.  A QueryPlan is truthy (its length is the plan depth, at least one). *)
  Definition split_candidates (dp : dptable) (inter outer : list nat) : list qp :=
    if (List.length outer =? 0) || (List.length outer =? List.length inter) then []
    else
      let outer := mkfs outer in
      let inner := filter (fun x => negb (mem x outer)) inter in
      match dget dp outer, dget dp inner with
      | Some o, Some i =>
          let cond := joins_between outer inner in
          flat_map (fun op => if has_join op then [QJoin op cond o i noest] else []) [NLJ; HashJ; MergeJ]
      | _, _ => []
      end.
  (** _determine_cheapest_path 354-435 *)
  Definition cheapest_path (dp : dptable) (inter : list nat) : res qp :=
    let inter := mkfs inter in
    cheapest (map calc_estimates (flat_map (split_candidates dp inter) (powerset (iter inter)))).
  (** One level of _build_join_paths 331-350; the comprehension sees the table of the previous levels. *)
  Definition join_level (tabs : list nat) (dp : dptable) (level : nat) : res dptable :=
    rmap (fun new => fold_left (fun d e => dset d (fst e) (snd e)) new dp)
      (rmapM (fun j => rmap (fun p => (mkfs j, p)) (cheapest_path dp j)) (filter joins_tables (combinations level tabs))).
  Fixpoint join_levels (tabs : list nat) (dp : dptable) (levels : list nat) : res dptable :=
    match levels with [] => Ok dp | l :: r => rbind (join_level tabs dp l) (fun dp => join_levels tabs dp r) end.
  (** _build_join_paths 306-352, generate_execution_plan 156-176 *)
  Definition dp_generate (tabs : list nat) : res qp :=
    rbind (base_paths tabs []) (fun dp =>
    rbind (join_levels tabs dp (seq 2 (List.length tabs - 1))) (fun dp =>
      match dget dp (mkfs tabs) with Some p => Ok p | None => Raise KeyError end)).
End DP.
Arguments qp : clear implicits. Arguments est : clear implicits.
