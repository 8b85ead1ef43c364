(** Model of the PostgreSQL-style dynamic programming enumerator, postbound/opt/dynprog.py 438-1824 (PostgresDynProg), for cost models
    other than the one of PostgreSQL itself (_is_pg_cost 1681-1685 is false; only the final choice 681-695 is modelled for it).

    Tables and columns are numbers, frozensets are canonical lists (FSet.v).  The cost model, the cardinality estimator, the schema and
    the predicates of the query (after add_ec_predicates, 665) are left open.  Costs are exact rationals or infinite.  There is no
    add_path_hook (then standard_add_path is used, 1201-1204).  QueryPlan.tables() is the set of the base tables of the plan (filters and
    join conditions only mention these). *)
From Coq Require Import List Bool Arith QArith.
From Verif Require Import PyBase FSet DP_model Path_model.
Import ListNotations.
Local Open Scope nat_scope.

Inductive ecost := NoCost | Fin (q : Q) | Inf.
Inductive aux := AMemo (k : nat) | AMat.

Section PG.
  (** Cardinalities, predicates, indexes. *)
  Context {N P I : Type}.
  (** Estimated cardinality and cost, sort keys, the custom parameter estimated_workers, parallel_workers. *)
  Record info := mkinfo { i_card : option N; i_cost : ecost; i_sort : list skey; i_ew : option nat; i_pw : nat }.
  Inductive pp :=
  | PScan (op : dscan) (t : nat) (index : option (nat * I)) (bitmap : list nat) (filt : option P) (d : info)
  | PJoin (op : djoin) (cond : option P) (o i : pp) (d : info)
  | PAux (a : aux) (c : pp) (d : info).
  Definition dat (p : pp) : info := match p with PScan _ _ _ _ _ d => d | PJoin _ _ _ _ d => d | PAux _ _ d => d end.
  Definition set_dat (p : pp) (d : info) : pp := match p with PScan a b c e f _ => PScan a b c e f d | PJoin a b c e _ => PJoin a b c e d | PAux a c _ => PAux a c d end.
  Fixpoint leaves (p : pp) : list nat := match p with PScan _ t _ _ _ _ => [t] | PJoin _ _ o i _ => leaves o ++ leaves i | PAux _ c _ => leaves c end.
  Definition tabs_of (p : pp) : list nat := mkfs (leaves p).
  (** QueryPlan.parallelize and with_estimates(cost=...), _qep.py 1598-1652 *)
  Definition parallelize (p : pp) (w : nat) : pp := let d := dat p in set_dat p (mkinfo (i_card d) (i_cost d) (i_sort d) (i_ew d) w).
  Definition with_cost (p : pp) (c : ecost) : pp := let d := dat p in set_dat p (mkinfo (i_card d) c (i_sort d) (i_ew d) (i_pw d)).

  (** calculate_estimate, estimate_cost *)
  Context (card : list nat -> N) (cost : pp -> option Q).
  Context (filters_for : nat -> option P) (columns_of : nat -> list nat) (indexes_on : nat -> list I).
  (** joins_between, the parts of a conjunction, join_partners, the table of a column *)
  Context (joins_between : list nat -> list nat -> option P) (conjuncts : P -> list P) (partners : P -> list (nat * nat)) (ktab : nat -> nat).
  (** The allowed operators and settings, 612-627. *)
  Context (scan_ops : list dscan) (join_ops : list djoin) (enable_memo enable_mat : bool) (max_workers : nat).
  (** statistics().n_pages of a table or an index, round(math.log(n, 3)) *)
  Context (pages : nat + I -> nat) (rlog3 : nat -> nat).

  Definition costed (p : pp) : pp := with_cost p (match cost p with Some q => Fin q | None => Inf end).
  Definition has_scan (op : dscan) : bool := existsb (dscan_eqb op) scan_ops.
  Definition has_join (op : djoin) : bool := existsb (djoin_eqb op) join_ops.

  (** ** RelOptInfo 438-499 *)
  Record ri := mkri { ri_set : list nat; ri_card : N; ri_paths : list pp; ri_partial : list pp; ri_best : option pp; ri_best_partial : option pp }.
  Definition new_rel (S : list nat) : ri := mkri S (card S) [] [] None None.

  (** ** standard_add_path 725-789, as in Path_model.v, for plans *)
  Definition fin (p : pp) : Q := match i_cost (dat p) with Fin q => q | _ => 0%Q end.
  Definition srt (p : pp) : list skey := i_sort (dat p).
  Definition dominates (new old : pp) : bool :=
    if same_sorting (srt new) (srt old) then negb (Qle_bool (fin old) (fin new)) else Qle_bool (fin new) ((101 # 100) * fin old).
  Fixpoint gadd_loop (new : pp) (current : list pp) : list pp * bool :=
    match current with
    | [] => ([], true)
    | old :: rest =>
        if negb (sorting_subsumes (srt new) (srt old)) then let '(r, k) := gadd_loop new rest in (old :: r, k)
        else if dominates new old then gadd_loop new rest
        else (old :: rest, false)
    end.
  Definition gadd (current : list pp) (new : pp) : list pp :=
    match current with
    | [] => [new]
    | _ => let '(r, keep) := gadd_loop new current in if keep then r ++ [new] else r
    end.
  (** _add_path 1181-1204: infinite costs are turned down. *)
  Definition offer (l : list pp) (p : pp) : list pp := match i_cost (dat p) with Inf => l | _ => gadd l p end.
  Definition add_path (r : ri) (pb : pp * bool) : ri :=
    if snd pb then mkri (ri_set r) (ri_card r) (ri_paths r) (offer (ri_partial r) (fst pb)) (ri_best r) (ri_best_partial r)
    else mkri (ri_set r) (ri_card r) (offer (ri_paths r) (fst pb)) (ri_partial r) (ri_best r) (ri_best_partial r).
  Definition add_paths (r : ri) (l : list (pp * bool)) : ri := fold_left add_path l r.

  (** list.sort(key=...) is stable. *)
  Fixpoint ginsert (p : pp) (l : list pp) : list pp :=
    match l with [] => [p] | q :: rest => if Qle_bool (fin p) (fin q) then p :: q :: rest else q :: ginsert p rest end.
  Definition gsort (l : list pp) : list pp := fold_right ginsert [] l.
  (** _set_cheapest 1206-1221 *)
  Definition set_cheapest (r : ri) : res ri :=
    match gsort (ri_paths r) with
    | [] => Raise RuntimeError
    | p :: ps =>
        match gsort (ri_partial r) with
        | [] => Ok (mkri (ri_set r) (ri_card r) (p :: ps) (ri_partial r) (Some p) (ri_best_partial r))
        | q :: qs => Ok (mkri (ri_set r) (ri_card r) (p :: ps) (q :: qs) (Some p) (Some q))
        end
    end.
  (** _generate_gather_paths 1223-1240 *)
  Definition gather (p : pp) : res pp :=
    match i_ew (dat p) with None => Raise RuntimeError | Some w => Ok (costed (parallelize p w)) end.
  Definition finish (r : ri) : res ri :=
    rbind (rmapM gather (ri_partial r)) (fun gs => set_cheapest (add_paths r (map (fun g => (g, false)) gs))).

  (** ** Base relations *)
  (** _estimate_workers 1655-1670; math.log(0) fails. *)
  Definition estimate_workers (x : nat + I) : res nat :=
    if max_workers =? 0 then Ok 0 else if pages x =? 0 then Raise ValueError else Ok (Nat.min max_workers (rlog3 (pages x))).
  Definition as_offers (w : nat) (p : pp) : list (pp * bool) := (p, false) :: (if w =? 0 then [] else [(p, true)]).
  Definition scan_info (c : option N) (s : list skey) (w : nat) : info := mkinfo c NoCost s (Some w) 0.
  (** 1260-1301 *)
  Definition seq_offers (t : nat) (c : N) : res (list (pp * bool)) :=
    if negb (has_scan SeqScan) then Ok []
    else rmap (fun w => as_offers w (costed (PScan SeqScan t None [] (filters_for t) (scan_info (Some c) [] w)))) (estimate_workers (inl t)).
  (** 1303-1365: SortKey.of(column); the estimated cardinality is not set. *)
  Definition index_scan (op : dscan) (t c : nat) (ix : I) (w : nat) : pp :=
    costed (PScan op t (Some (c, ix)) [] (filters_for t) (scan_info None [mkKey [MCol c] true] w)).
  Definition idx_offers (t : nat) : res (list (pp * bool)) :=
    if negb (has_scan IdxScan) && negb (has_scan IdxOnlyScan) then Ok []
    else
      let cols := columns_of t in
      let only := has_scan IdxOnlyScan && (length cols <=? 1) in
      rmap (@concat _) (rmapM (fun cix => rmap (fun w =>
        (if has_scan IdxScan then as_offers w (index_scan IdxScan t (fst cix) (snd cix) w) else []) ++
        (if only then as_offers w (index_scan IdxOnlyScan t (fst cix) (snd cix) w) else [])) (estimate_workers (inr (snd cix))))
        (flat_map (fun c => map (pair c) (indexes_on c)) cols)).
  (** 1367-1415 *)
  Definition bmp_offers (t : nat) : res (list (pp * bool)) :=
    if negb (has_scan BmpScan) then Ok []
    else match columns_of t with
         | [] => Ok []
         | cols => rmap (fun w => as_offers w (costed (PScan BmpScan t None cols (filters_for t) (scan_info None [] w)))) (estimate_workers (inl t))
         end.
  (** _init_base_rels and _set_base_rel_pathlists 791-830 *)
  Definition base_rel (t : nat) : res ri :=
    let r := new_rel (mkfs [t]) in
    rbind (seq_offers t (ri_card r)) (fun a => rbind (idx_offers t) (fun b => rbind (bmp_offers t) (fun c => finish (add_paths r (a ++ b ++ c))))).

  (** ** Joins *)
  (** 1492-1523, 1570-1574, 1618-1653: nested-loop and hash joins *)
  Definition mk_join (op : djoin) (c : N) (o i : pp) : pp :=
    costed (PJoin op (joins_between (tabs_of o) (tabs_of i)) o i (mkinfo (Some c) NoCost [] (i_ew (dat o)) 0)).
  (** 1417-1466 *)
  Definition mk_aux (a : aux) (p : pp) : pp := costed (PAux a p (mkinfo (i_card (dat p)) NoCost [] (i_ew (dat p)) 0)).
  (** The columns that are cached, 1081-1100 *)
  Definition cache_keys (outer inner : list nat) : res (list nat) :=
    match joins_between outer inner with
    | None => Raise RuntimeError
    | Some p => rmapM (fun e => let k := if mem (ktab (fst e)) inner then fst e else snd e in
                                if mem (ktab k) inner then Ok k else Raise RuntimeError) (partners p)
    end.
  (** _match_unsorted_outer 1053-1150 *)
  Definition nlj_offers (c : N) (outer inner : ri) : res (list (pp * bool)) :=
    match ri_best outer, ri_best inner with
    | Some o, Some i =>
        rbind (if enable_memo then cache_keys (ri_set outer) (ri_set inner) else Ok []) (fun keys =>
        Ok ([(mk_join NLJ c o i, false)]
            ++ map (fun k => (mk_join NLJ c o (mk_aux (AMemo k) i), false)) keys
            ++ (if enable_mat then [(mk_join NLJ c o (mk_aux AMat i), false)] else [])
            ++ match ri_best_partial outer with
               | None => []
               | Some op => (mk_join NLJ c op i, true) :: map (fun k => (mk_join NLJ c op (mk_aux (AMemo k) i), true)) keys
               end))
    | _, _ => Raise RuntimeError
    end.
  (** _hash_inner_outer 1152-1179 *)
  Definition hash_offers (c : N) (outer inner : ri) : res (list (pp * bool)) :=
    match ri_best outer, ri_best inner with
    | Some o, Some i => Ok ((mk_join HashJ c o i, false) :: match ri_best_partial outer with None => [] | Some op => [(mk_join HashJ c op i, true)] end)
    | _, _ => Raise RuntimeError
    end.
  (** _extract_join_columns 1721-1752: anything but two pairs of partners gives (None, None).  A set of two pairs is not changed by
      util.simplify (util/collections.py 176-213), so that first_col and second_col are pairs, which have no attribute "table". *)
  Definition join_columns (key : P) : res unit := if length (partners key) =? 2 then Raise AttributeError else Ok tt.
  (** _sort_inner_outer 952-1051: with (None, None) the next key is tried (983-984), hence the rest of the loop is never reached. *)
  Definition merge_offers (outer inner : ri) : res (list (pp * bool)) :=
    match joins_between (ri_set outer) (ri_set inner) with
    | None => Raise RuntimeError
    | Some p => rmap (fun _ => []) (rmapM join_columns (conjuncts p))
    end.
  (** _add_paths_to_joinrel 934-950 *)
  Definition join_offers (c : N) (outer inner : ri) : res (list (pp * bool)) :=
    rbind (if has_join NLJ then nlj_offers c outer inner else Ok []) (fun a =>
    rbind (if has_join MergeJ then merge_offers outer inner else Ok []) (fun b =>
    rbind (if has_join HashJ then hash_offers c outer inner else Ok []) (fun d => Ok (a ++ b ++ d)))).

  (** _build_join_rel 910-932, and the update of the relation *)
  Fixpoint update (cur : list ri) (S : list nat) (f : ri -> res ri) : res (list ri) :=
    match cur with
    | [] => rmap (fun r => [r]) (f (new_rel S))
    | r :: rest => if deqb (ri_set r) S then rmap (fun r' => r' :: rest) (f r) else rmap (cons r) (update rest S f)
    end.
  (** The body of the loops of _join_search_one_level 869-884, 893-908 *)
  Definition join_pair (cur : list ri) (ab : ri * ri) : res (list ri) :=
    let '(a, b) := ab in
    if existsb (fun x => mem x (ri_set b)) (ri_set a) then Ok cur
    else match joins_between (ri_set a) (ri_set b) with
         | None => Ok cur
         | Some _ => update cur (mkfs (ri_set a ++ ri_set b)) (fun r =>
             rbind (join_offers (ri_card r) a b) (fun l1 => rbind (join_offers (ri_card r) b a) (fun l2 => Ok (add_paths r (l1 ++ l2)))))
         end.
  (** [levels] has the relations of sizes 1, 2, ...; a missing level is empty (defaultdict). *)
  Definition at_level (levels : list (list ri)) (l : nat) : list ri := nth (l - 1) levels [].
  (** 856-908 *)
  Definition level_pairs (levels : list (list ri)) (level : nat) : list (ri * ri) :=
    list_prod (at_level levels (level - 1)) (at_level levels 1)
    ++ flat_map (fun outer_size => list_prod (at_level levels outer_size) (at_level levels (level - outer_size)))
         (filter (fun s => 2 <=? level - s) (seq 2 (level / 2 - 1))).
  Fixpoint rfold {A B} (f : A -> B -> res A) (l : list B) (a : A) : res A :=
    match l with [] => Ok a | b :: r => rbind (f a b) (rfold f r) end.
  Definition search_level (levels : list (list ri)) (level : nat) : res (list (list ri)) :=
    rbind (rfold join_pair (level_pairs levels level) []) (fun cur => rmap (fun cur' => levels ++ [cur']) (rmapM finish cur)).
  (** _standard_join_search 832-854, generate_execution_plan 662-705 *)
  Definition join_search (tabs : list nat) : res ri :=
    rbind (rmapM base_rel tabs) (fun base =>
    rbind (rfold search_level (seq 2 (length tabs - 1)) [base]) (fun levels =>
      match at_level levels (length tabs), tabs with
      | [r], _ :: _ => Ok r
      | _, _ => Raise AssertionError
      end)).
  Definition generate (tabs : list nat) : res pp :=
    rbind (join_search tabs) (fun r => match ri_best r with Some p => Ok p | None => Raise AssertionError end).

  (** ** The choice of the final plan with the cost model of PostgreSQL, 681-695, 1242-1258 *)
  Inductive cand := CPlan (p : pp) | CGather (p : pp) (w : nat).
  (** QueryPlan.__eq__, _qep.py 1954-1960: node type, base table, children *)
  Fixpoint plan_eqb (p q : pp) : bool :=
    match p, q with
    | PScan op t _ _ _ _, PScan op' t' _ _ _ _ => dscan_eqb op op' && (t =? t')
    | PJoin op _ o i _, PJoin op' _ o' i' _ => djoin_eqb op op' && plan_eqb o o' && plan_eqb i i'
    | PAux (AMemo _) c _, PAux (AMemo _) c' _ => plan_eqb c c'
    | PAux AMat c _, PAux AMat c' _ => plan_eqb c c'
    | _, _ => false
    end.
  Definition cand_eqb (a b : cand) : bool :=
    match a, b with CPlan p, CPlan q => plan_eqb p q | CGather p _, CGather q _ => plan_eqb p q | _, _ => false end.
  Fixpoint cset (d : list (cand * Q)) (c : cand) (v : Q) : list (cand * Q) :=
    match d with [] => [(c, v)] | (c', v') :: r => if cand_eqb c c' then (c', v) :: r else (c', v') :: cset r c v end.
  Definition argmin (d : list (cand * Q)) : option cand :=
    match d with [] => None | e :: r => Some (fst (fold_left (fun best e => if Qle_bool (snd best) (snd e) then best else e) r e)) end.
  Definition candidates (r : ri) : res (list cand) :=
    rmap (fun gs => map CPlan (ri_paths r) ++ gs)
      (rmapM (fun p => match i_ew (dat p) with None => Raise RuntimeError | Some w => Ok (CGather p w) end) (ri_partial r)).
  Definition choose (pg_cost : cand -> Q) (r : ri) : res cand :=
    rbind (candidates r) (fun cs => match argmin (fold_left (fun d c => cset d c (pg_cost c)) cs []) with Some c => Ok c | None => Raise ValueError end).
End PG.
Arguments pp : clear implicits. Arguments ri : clear implicits. Arguments info : clear implicits. Arguments cand : clear implicits.
