(** Model of the conversions between query plans, join trees, operator assignments and plan parameters (postbound/_hints.py 1766-1872,
    opt/_helpers.py 170-252, 309-527, 669-690), of the JSON form of plans (_qep.py 1889-1898, opt/_helpers.py 530-627) and of the
    access to plan attributes (_qep.py 1925-1946). *)
From Coq Require Import List Bool Arith ZArith String.
From Verif Require Import PyBase FSet Hint_model Card_model JT_model Ident_model QPlan_model.
Import ListNotations.
Local Open Scope nat_scope.
Local Open Scope list_scope.

(** ** jointree_from_plan, _hints.py 1766-1787.  The texts given as card_source: only "estimates" selects the estimates. *)
Inductive csource := SEstimates | SEstimated | SActual.
Definition node_card (src : csource) (d : pdata) : card := match src with SEstimates => est d | _ => m_card (meas d) end.
(** JoinTree.scan without a table is an empty tree; the result is never a LogicalJoinTree. *)
Fixpoint tree_from (src : csource) (p : plan) : res (jt nat card) :=
  match p with
  | Node d ks _ =>
      if op_scan d then Ok (match base d with Some t => JScan false t (node_card src d) | None => JEmpty false end)
      else if op_join d then
        match ks with
        | [a; b] => rbind (tree_from src a) (fun o => rbind (tree_from src b) (fun i => Ok (JJoin false o i (node_card src d))))
        | _ => Raise AttributeError
        end
      else match ks with [c] => tree_from src c | _ => Raise AttributeError end
  end.

(** ** operators_from_plan 1838-1872.  A scan without base table is stored under None; [None] are NaN workers.  Only the root is asked
    with [include_workers]; the recursive calls use the default. *)
Record oassign := mkoa { oa_scans : dict (option nat) (nat * option nat); oa_joins : dict fs (nat * option nat); oa_inters : dict fs nat }.
Definition oa_empty : oassign := mkoa [] [] [].
Definition oa_merge (a b : oassign) : oassign := mkoa (dmerge (oa_scans a) (oa_scans b)) (dmerge (oa_joins a) (oa_joins b)) (dmerge (oa_inters a) (oa_inters b)).
Section MergeKids.
  Context {R : Type} (f : plan -> res R) (merge : R -> R -> R).
  Fixpoint merge_kids (acc : R) (l : list plan) : res R :=
    match l with [] => Ok acc | c :: r => rbind (f c) (fun x => merge_kids (merge acc x) r) end.
End MergeKids.
Definition node_ops (incl : bool) (d : pdata) (tabs : list nat) : res oassign :=
  let w := if incl then Some (pworkers d) else None in
  match oper d with
  | Some (PScan o) => Ok (mkoa [(base d, (o, w))] [] [])
  | Some (PJoin o) => if List.length tabs <? 2 then Raise ValueError else Ok (mkoa [] [(mkfs tabs, (o, w))] [])
  | Some (PInter o) => Ok (mkoa [] [] [(mkfs tabs, o)])
  | None => Raise ValueError
  end.
Fixpoint ops_from (incl : bool) (p : plan) : res oassign :=
  match p with
  | Node d ks _ =>
      match oper d, ks with
      | None, [c] => ops_from false c
      | _, _ => rbind (node_ops incl d (tables p)) (fun a => merge_kids (ops_from false) oa_merge a ks)
      end
  end.

(** ** parameters_from_plan 1790-1835 for query plans: cardinalities and workers. *)
Inductive ctarget := TEstimated | TActual | TActualOrEstimated.
Definition target_card (t : ctarget) (d : pdata) : card :=
  match t with TEstimated => est d | TActual => m_card (meas d) | TActualOrEstimated => if is_valid (m_card (meas d)) then m_card (meas d) else est d end.
Record qparams := mkqp { qp_cards : dict fs card; qp_workers : dict fs nat }.
Definition qp_merge (a b : qparams) : qparams := mkqp (dmerge (qp_cards a) (qp_cards b)) (dmerge (qp_workers a) (qp_workers b)).
Definition node_params (t : ctarget) (d : pdata) (tabs : list nat) : qparams :=
  mkqp (match target_card t d with CNan => [] | c => [(mkfs tabs, c)] end) (if pworkers d =? 0 then [] else [(mkfs tabs, pworkers d)]).
Fixpoint params_from (t : ctarget) (p : plan) : res qparams :=
  match p with Node d ks _ => merge_kids (params_from t) qp_merge (node_params t d (tables p)) ks end.

(** ** explode_query_plan, opt/_helpers.py 669-690: the same text is handed to both functions. *)
Definition explode (actual : bool) (p : plan) : res (jt nat card * oassign * qparams) :=
  rbind (tree_from (if actual then SActual else SEstimated) p) (fun t =>
  rbind (ops_from false p) (fun a =>
  rbind (params_from (if actual then TActual else TEstimated) p) (fun q => Ok (t, a, q)))).

(** ** to_query_plan 454-527 with _make_simple_plan 309-366 and _make_custom_plan 369-451.
    [cards] are the cardinalities of the plan parameters.  The base table of a scan is never handed to the plan, and the filter
    condition is handed over as the additional parameter "filter_condition", which is not part of this model. *)
Section ToPlan.
  Context (nodetype : physop -> nat) (cards : dict fs card).
  Definition tree_card (t : jt nat card) : res card :=
    match dget cards (mkfs (jt_tables t)) with
    | Some (CVal z) => Ok (CVal z)
    | _ => match t with
           | JEmpty true => Raise StateError
           | JScan true _ a | JJoin true _ _ a => Ok a
           | _ => Ok CNan
           end
    end.
  Definition new_node (o : physop) (ks : list plan) (c : card) (w : nat) : plan := Node (mkpd (nodetype o) (Some o) None [] [] w c None [] no_measures) ks None.
  Fixpoint make_simple (scan_op join_op : nat) (t : jt nat card) : res plan :=
    rbind (tree_card t) (fun c =>
    match t with
    | JEmpty _ => Raise StateError
    | JScan _ _ _ => Ok (new_node (PScan scan_op) [] c 0)
    | JJoin _ o i _ =>
        if jt_empty o || jt_empty i then Raise StateError
        else rbind (make_simple scan_op join_op o) (fun a => rbind (make_simple scan_op join_op i) (fun b => Ok (new_node (PJoin join_op) [a; b] c 0)))
    end).
  (** [_make_simple_plan(..., physical_ops=...)] has no such parameter.  [physical_ops.get] of a frozenset with one table looks for the
      set itself (C29).  A join finds its assignment (not its operator), which is truthy.  [workers] are the workers of the parameters. *)
  Definition make_custom (ops : poa) (workers : dict fs nat) (fscan fjoin : option nat) (t : jt nat card) : res plan :=
    rbind (tree_card t) (fun c =>
    rbind (poa_get ops (GIter true (mkfs (jt_tables t))) None) (fun found =>
    let n := List.length (mkfs (jt_tables t)) in
    let fb := match found with
              | Some _ => Some None
              | None => if n =? 1 then option_map (fun o => Some (PScan o)) fscan else if 1 <? n then option_map (fun o => Some (PJoin o)) fjoin else None
              end in
    match fb with
    | None => Raise ValueError
    | Some o =>
        match t with
        | JScan _ _ _ =>
            (* the plan has no tables, its intermediate operator is looked up under the empty set; Sort (0) and Memoize (1) are ignored *)
            match o with
            | None => Raise OtherError
            | Some op =>
                let plan := new_node op [] c (match dget workers (mkfs (jt_tables t)) with Some w => w | None => 0 end) in
                match dget (inters ops) [] with
                | Some (S (S k)) => Ok (new_node (PInter (S (S k))) [plan] c 0)
                | _ => Ok plan
                end
            end
        | JJoin _ o i _ => if jt_empty o then Raise StateError else Raise TypeError
        | JEmpty _ => Raise StateError
        end
    end)).
End ToPlan.
Definition poa_true (p : poa) : bool := match glob p, joins p, scans p, inters p with [], [], [], [] => false | _, _, _, _ => true end.
Definition to_query_plan nodetype (cards : dict fs card) (workers : dict fs nat) (ops : option poa) (scan_op join_op : option nat) (t : jt nat card) : res plan :=
  match ops with
  | Some o => if poa_true o then make_custom nodetype cards o workers scan_op join_op t
              else match scan_op, join_op with Some s, Some j => make_simple nodetype cards s j t | _, _ => Raise ValueError end
  | None => match scan_op, join_op with Some s, Some j => make_simple nodetype cards s j t | _, _ => Raise ValueError end
  end.

(** update_plan 170-252: [tables()] is a set and cannot be looked up in a dictionary; [items() | {...}] is a set, which cannot be
    unpacked as keyword arguments. *)
Definition update_plan (ops : option poa) (params simplify : bool) (p : plan) : res plan :=
  rbind (if simplify then canonical p else Ok p) (fun q =>
  rbind (match ops with Some o => if poa_true o then rmap (fun _ => tt) (poa_get o (GIter false (tables q)) None) else Ok tt | None => Ok tt end) (fun _ =>
  if params then Raise TypeError else Raise TypeError)).

(** ** JSON *)
(** A plan with all parameters that are written: predicates and tables are read back unchanged (C18 for tables; predicates are parsed
    from their text), a lookup key is an expression (given by its tables) or what has been read for it. *)
Inductive lkey := LNone | LExpr (tabs : list nat) | LRaw.
Record xdata := mkx { x_type : nat; x_oper : option physop; x_base : option nat; x_pred : option (list nat); x_sort : list (list nat * bool);
                      x_index : nat; x_workers : nat; x_lookup : lkey; x_card : card; x_cost : option nat; x_extra : list (nat * nat);
                      x_acard : card; x_time : option nat; x_hits : option nat; x_misses : option nat; x_mextra : list (nat * nat) }.
Inductive xplan := XNode (d : xdata) (kids : list xplan) (sub : option (xplan * option nat)).
(** The values of the operators, _core.py 400-461. *)
Definition scan_value (n : nat) : option string := nth_error ["Seq. Scan"; "Idx. Scan"; "Idx-only Scan"; "Bitmap Scan"]%string n.
Definition join_value (n : nat) : option string := nth_error ["NLJ"; "Hash Join"; "Sort-Merge Join"; "Idx. NLJ"]%string n.
Definition inter_value (n : nat) : option string := nth_error ["Sort"; "Memoize"; "Materialize"]%string n.
Definition op_value (o : physop) : option string := match o with PScan n => scan_value n | PJoin n => join_value n | PInter n => inter_value n end.
Fixpoint index_of (s : string) (l : list string) : option nat :=
  match l with [] => None | x :: r => if String.eqb s x then Some 0 else option_map S (index_of s r) end.
(** read_operator_json 32-86 for texts: the classes are tried in turn. *)
Definition read_op (s : string) : option physop :=
  match index_of s ["Seq. Scan"; "Idx. Scan"; "Idx-only Scan"; "Bitmap Scan"]%string with
  | Some n => Some (PScan n)
  | None => match index_of s ["NLJ"; "Hash Join"; "Sort-Merge Join"; "Idx. NLJ"]%string with
            | Some n => Some (PJoin n)
            | None => match index_of s ["Sort"; "Memoize"; "Materialize"]%string with Some n => Some (PInter n) | None => None end
            end
  end.
(** The JSON document: cardinalities are floats (__json__, _core.py 117). *)
Record jdata := mkj { j_type : nat; j_oper : option string; j_base : option nat; j_pred : option (list nat); j_sort : list (list nat * bool);
                      j_index : nat; j_workers : nat; j_lookup : option (list nat); j_card : fval; j_cost : option nat; j_extra : list (nat * nat);
                      j_acard : fval; j_time : option nat; j_hits : option nat; j_misses : option nat; j_mextra : list (nat * nat) }.
Inductive jplan := JNode (d : jdata) (kids : list jplan) (sub : option (jplan * option nat)).
Section MapKids.
  Context {X Y : Type} (f : X -> res Y).
  Fixpoint mapk (l : list X) : res (list Y) := match l with [] => Ok [] | c :: r => rbind (f c) (fun x => rbind (mapk r) (fun y => Ok (x :: y))) end.
End MapKids.
(** __json__: an expression is written as its text (here: its tables); writing what has been read for it again gives the same text. *)
Definition write_data (d : xdata) : res jdata :=
  rbind (cget (x_card d)) (fun c => rbind (cget (x_acard d)) (fun a =>
  Ok (mkj (x_type d) (match x_oper d with Some o => op_value o | None => None end) (x_base d) (x_pred d) (x_sort d) (x_index d) (x_workers d)
          (match x_lookup d with LExpr l => Some l | LNone => None | LRaw => Some [] end) c (x_cost d) (x_extra d) a (x_time d) (x_hits d) (x_misses d) (x_mextra d)))).
Fixpoint write_plan (p : xplan) : res jplan :=
  match p with
  | XNode d ks s =>
      rbind (write_data d) (fun j => rbind (mapk write_plan ks) (fun l =>
      rbind (match s with Some (q, t) => rmap (fun k => Some (k, t)) (write_plan q) | None => Ok None end) (fun s' => Ok (JNode j l s'))))
  end.
(** Sort keys: [SortKey.of(sort_column, ascending)] has a keyword-only parameter; subplans: parse_query of a dictionary. *)
Definition read_data (d : jdata) : res xdata :=
  match j_sort d with
  | _ :: _ => Raise TypeError
  | [] => Ok (mkx (j_type d) (match j_oper d with Some s => read_op s | None => None end) (j_base d) (j_pred d) [] (j_index d) (j_workers d)
                  (match j_lookup d with Some _ => LRaw | None => LNone end) (card_of_float (j_card d)) (j_cost d) (j_extra d)
                  (card_of_float (j_acard d)) (j_time d) (j_hits d) (j_misses d) (j_mextra d))
  end.
Fixpoint read_plan (p : jplan) : res xplan :=
  match p with
  | JNode d ks s =>
      rbind (mapk read_plan ks) (fun l => rbind (read_data d) (fun x => match s with Some _ => Raise OtherError | None => Ok (XNode x l None) end))
  end.
(** tables() of a plan that has been read: a raw lookup key has no [tables]. *)
Definition x_own (d : xdata) : res (list nat) :=
  match x_lookup d with
  | LRaw => Raise AttributeError
  | LNone => Ok (match x_base d with Some t => [t] | None => [] end ++ match x_pred d with Some l => l | None => [] end)
  | LExpr k => Ok (match x_base d with Some t => [t] | None => [] end ++ match x_pred d with Some l => l | None => [] end ++ k)
  end.
Fixpoint x_tables (p : xplan) : res (list nat) :=
  match p with
  | XNode d ks s =>
      rbind (x_own d) (fun o => rbind (mapk x_tables ks) (fun l =>
      rbind (match s with Some (q, t) => rmap (fun r => r ++ match t with Some x => [x] | None => [] end) (x_tables q) | None => Ok [] end) (fun r =>
      Ok (dedup (o ++ List.concat l ++ r)))))
  end.

(** ** Attribute access, _qep.py 1925-1946: parameters, estimates and measures are dictionaries from names to values. *)
Section Access.
  Context {V : Type} (params estimates measured : dict string V) (measures_true : bool) (tabs : list nat).
  (** A key: a table, a collection of tables, or a text.  A text is a collection of its characters, which are no tables. *)
  Inductive akey := ATab (t : nat) | ATabs (l : list nat) | AText (s : string).
  Definition plan_contains (k : akey) : bool :=
    match k with
    | ATab t => mem t tabs
    | ATabs l => subsetb l tabs
    | AText s => match s with EmptyString => true | String _ _ => false end
    end.
  Definition plan_item (s : string) : res V :=
    match dget params s with
    | Some v => Ok v
    | None => match dget estimates s with
              | Some v => Ok v
              | None => match (if measures_true then dget measured s else None) with Some v => Ok v | None => Raise KeyError end
              end
    end.
End Access.
