(** Model of the hint generation for PostgreSQL: the operator tables, _walk_join_order, _generate_pg_hint_plan_hints and
    _generate_pglab_hints, postbound/postgres.py 2058-2102 and 2201-2457.  Tables are numbers, [name] is TableReference.identifier
    ([name] writes the alias or full name without quotes), [iter] the order in which a frozenset of tables is iterated.  Warnings are
    left out. *)
From Coq Require Import List Bool Arith ZArith String.
From Verif Require Import PyBase FSet Hint_model JT_model Lim_model.
Import ListNotations.
Open Scope string_scope.

(** The members of ScanOperator (SequentialScan, IndexScan, IndexOnlyScan, BitmapScan), JoinOperator (NestedLoopJoin, HashJoin,
    SortMergeJoin, IndexNestedLoopJoin) and IntermediateOperator (Sort, Memoize, Materialize), _core.py 400-461, in this order. *)
(** PostgresOptimizerSettings, 2058-2069. *)
Definition pg_setting (o : physop) : option string :=
  match o with
  | PScan 0 => Some "enable_seqscan" | PScan 1 => Some "enable_indexscan" | PScan 2 => Some "enable_indexonlyscan" | PScan 3 => Some "enable_bitmapscan"
  | PJoin 0 => Some "enable_nestloop" | PJoin 1 => Some "enable_hashjoin" | PJoin 2 => Some "enable_mergejoin"
  | PInter 0 => Some "enable_sort" | PInter 1 => Some "enable_memoize" | PInter 2 => Some "enable_material"
  | _ => None
  end.
(** PGHintPlanOptimizerHints, 2072-2081. *)
Definition hp_op (o : physop) : option string :=
  match o with
  | PJoin 0 => Some "NestLoop" | PJoin 1 => Some "HashJoin" | PJoin 2 => Some "MergeJoin"
  | PScan 0 => Some "SeqScan" | PScan 1 => Some "IndexOnlyScan" | PScan 2 => Some "IndexOnlyScan" | PScan 3 => Some "BitmapScan"
  | PInter 1 => Some "Memoize"
  | _ => None
  end.
(** PGLabOptimizerHints, 2092-2102. *)
Definition lab_op (o : physop) : option string :=
  match o with
  | PJoin 0 => Some "NestLoop" | PJoin 1 => Some "HashJoin" | PJoin 2 => Some "MergeJoin"
  | PScan 0 => Some "SeqScan" | PScan 1 => Some "IdxScan" | PScan 2 => Some "IdxScan" | PScan 3 => Some "BitmapScan"
  | PInter 2 => Some "Material" | PInter 1 => Some "Memo"
  | _ => None
  end.
(** [d[k]] *)
Definition item (o : option string) : res string := match o with Some s => Ok s | None => Raise KeyError end.

(** Workers: NaN is never greater than one. *)
Definition parallel (w : option nat) : bool := match w with Some n => (1 <? n)%nat | None => false end.
Definition workers_text (w : option nat) : string := match w with Some n => num (Z.of_nat n) | None => "nan" end.

Section Gen.
  Context {A C V : Type} (name : nat -> string) (iter : list nat -> list nat)
          (card_text : C -> option string)      (** [None] for NaN and infinite cardinalities *)
          (set_name : nat -> string) (set_value : V -> string).
  Notation tree := (jt nat A).

  (** _walk_join_order 2201-2207; empty trees have no children. *)
  Fixpoint walk (t : tree) : res string :=
    match t with
    | JEmpty _ => Raise AttributeError
    | JScan _ x _ => Ok (name x)
    | JJoin _ o i _ => rbind (walk o) (fun so => rbind (walk i) (fun si => Ok ("(" ++ so ++ " " ++ si ++ ")")))
    end.
  (** [" ".join(tab.identifier() for tab in tabs)] *)
  Definition inter_text (tabs : list nat) : string := String.concat " " (map name (iter tabs)).

  (** [if join_order and len(join_order) > 1] *)
  Definition order_hint (keyword : string) (jo : option tree) : res (list string) :=
    match jo with
    | Some t => if jt_empty t then Ok [] else if (1 <? jt_len t)%nat then rmap (fun s => [keyword ++ "(" ++ s ++ ")"]) (walk t) else Ok []
    | None => Ok []
    end.

  (** The loops over scan and join operators of pg_lab, 2381-2419: the hints so far, the variable [hint], [used_parallel]. *)
  Definition lab_state : Type := list string * option string * bool.
  Definition lab_step (s : lab_state) (op : physop) (tabs : string) (w : option nat) : res lab_state :=
    let '(hints, hint, used) := s in
    rbind (item (lab_op op)) (fun o =>
    let '(hint', used') :=
      if parallel w && negb used then (Some (o ++ "(" ++ tabs ++ " (workers=" ++ workers_text w ++ "))"), true)
      else if parallel w && used then (hint, used)
      else (Some (o ++ "(" ++ tabs ++ ")"), used) in
    match hint' with
    | Some h => Ok ((hints ++ [h])%list, hint', used')
    | None => Raise UnboundLocalError
    end).
  Fixpoint lab_scans (s : lab_state) (l : list sassign) : res lab_state :=
    match l with
    | [] => Ok s
    | a :: r => rbind (lab_step s (PScan (sa_op a)) (name (sa_tab a)) (sa_par a)) (fun s' => lab_scans s' r)
    end.
  Fixpoint lab_joins (s : lab_state) (l : list jassign) : res lab_state :=
    match l with
    | [] => Ok s
    | a :: r => rbind (lab_step s (PJoin (ja_op a)) (inter_text (ja_join a)) (ja_par a)) (fun s' => lab_joins s' r)
    end.
  (** 2421-2429. *)
  Definition lab_inters (l : dict (list nat) nat) : res (list string) :=
    rmapM (fun e => rmap (fun o => o ++ "(" ++ inter_text (fst e) ++ ")") (item (lab_op (PInter (snd e))))) l.
  Definition lab_globals (l : dict physop bool) : res (list string) :=
    rmapM (fun e => rmap (fun o => "Set(" ++ o ++ " = '" ++ (if snd e : bool then "on" else "off") ++ "')") (item (pg_setting (fst e)))) l.
  (** [if phys_ops] 2380: an assignment without any entry has nothing to iterate over. *)
  Definition lab_ops (hints : list string) (ops : option poa) : res (list string) :=
    match ops with
    | None => Ok hints
    | Some p =>
        rbind (lab_scans (hints, None, false) (dvalues (scans p))) (fun s =>
        rbind (lab_joins s (dvalues (joins p))) (fun s' =>
        rbind (lab_inters (inters p)) (fun is =>
        rbind (lab_globals (glob p)) (fun gs => Ok (fst (fst s') ++ is ++ gs)%list))))
    end.
  (** 2431-2454. *)
  Definition card_lines (pre : string) (cards : dict (list nat) C) : list string :=
    flat_map (fun e => match card_text (snd e) with Some c => [pre ++ "(" ++ inter_text (fst e) ++ " #" ++ c ++ ")"] | None => [] end) cards.
  Definition lab_params (pp : option (@pparams C V)) : list string :=
    match pp with
    | None => []
    | Some p =>
        (card_lines "Card" (pp_cards p)
         ++ map (fun e => ("Set(" ++ set_name (fst e) ++ " = '" ++ set_value (snd e) ++ "')")%string) (pp_settings p)
         ++ match pp_mode p with Some sequential => [("Config(exec_mode=" ++ (if sequential then "sequential" else "parallel") ++ ")")%string] | None => [] end)%list
    end.
  (** 2354-2373: workers of the parameters are moved into the operators. *)
  Definition lab_workers (fresh : nat) (ops : option poa) (pp : option (@pparams C V)) : res (option poa) :=
    match ops, pp with
    | Some p, Some q => match pp_workers q with [] => Ok ops | _ => rmap Some (poa_integrate fresh p (pp_workers q) false) end
    | _, _ => Ok ops
    end.
  (** _generate_pglab_hints 2343-2457: the lines of the hint block, and its text. *)
  Definition lab_lines (fresh : nat) (jo : option tree) (ops : option poa) (pp : option (@pparams C V)) : res (list string) :=
    rbind (lab_workers fresh ops pp) (fun ops' =>
    rbind (order_hint "JoinOrder" jo) (fun l =>
    rbind (lab_ops ("Config(plan_mode=anchored)" :: l) ops') (fun hints => Ok (hints ++ lab_params pp)%list))).
  Definition nl : string := String (Ascii.ascii_of_nat 10) "".
  Definition block (first indent : string) (lines : list string) : string :=
    String.concat nl (first :: map (fun l => (indent ++ l)%string) lines ++ [" */"])%list.
  Definition pglab_hints (fresh : nat) (jo : option tree) (ops : option poa) (pp : option (@pparams C V)) : res string :=
    rmap (block "/*=pg_lab=" "  ") (lab_lines fresh jo ops pp).

  (** ** pg_hint_plan, 2210-2340.  [tabs w] is the text of a hint for parallel workers. *)
  Definition par_hint (tabs : string) (w : option nat) : string := "Parallel(" ++ tabs ++ " " ++ workers_text w ++ " hard)".
  (** 2241-2254. *)
  Fixpoint hp_scans (hints : list string) (used : bool) (l : list sassign) : res (list string * bool) :=
    match l with
    | [] => Ok (hints, used)
    | a :: r =>
        rbind (item (hp_op (PScan (sa_op a)))) (fun o =>
        let tab := name (sa_tab a) in
        let hints1 := (hints ++ [(o ++ "(" ++ tab ++ ")")%string])%list in
        if parallel (sa_par a) && negb used then hp_scans (hints1 ++ [par_hint tab (sa_par a)])%list true r else hp_scans hints1 used r)
    end.
  (** 2256-2277: [used_parallel] is not set. *)
  Fixpoint hp_joins (hints : list string) (used : bool) (l : list jassign) : res (list string) :=
    match l with
    | [] => Ok hints
    | a :: r =>
        rbind (item (hp_op (PJoin (ja_op a)))) (fun o =>
        let hints1 := (hints ++ [(o ++ "(" ++ inter_text (ja_join a) ++ ")")%string])%list in
        if parallel (ja_par a) && negb used
        then hp_joins (hints1 ++ map (fun t => par_hint (name t) (ja_par a)) (iter (ja_join a)))%list used r
        else hp_joins hints1 used r)
    end.
  (** 2279-2289, 2291-2293. *)
  Definition hp_inters (l : dict (list nat) nat) : list string :=
    flat_map (fun e => match hp_op (PInter (snd e)) with Some o => [o ++ "(" ++ inter_text (fst e) ++ ")"] | None => [] end) l.
  Definition hp_globals (l : dict physop bool) : res (list string) :=
    rmapM (fun e => rmap (fun o => "Set(" ++ o ++ " " ++ (if snd e : bool then "True" else "False") ++ ")") (item (pg_setting (fst e)))) l.
  (** 2310-2323. *)
  Fixpoint hp_workers (used : bool) (l : dict (list nat) nat) : list string :=
    match l with
    | [] => []
    | (tabs, w) :: r => if Nat.eqb w 1 then hp_workers used r else if used then hp_workers used r else par_hint (inter_text tabs) (Some w) :: hp_workers true r
    end.
  (** The preparatory statements are left out; [geqo] tells whether the query has more tables than the threshold. *)
  Definition hp_lines (geqo : bool) (jo : option tree) (ops : option poa) (pp : option (@pparams C V)) : res (list string) :=
    rbind (order_hint "Leading" jo) (fun l =>
    let hints := ((if geqo then ["Set(geqo off)"] else []) ++ l)%list in
    rbind (match ops with
           | None => Ok (hints, false)
           | Some p =>
               rbind (hp_scans hints false (dvalues (scans p))) (fun s =>
               rbind (hp_joins (fst s) (snd s) (dvalues (joins p))) (fun hs =>
               rbind (hp_globals (glob p)) (fun gs => Ok ((hs ++ hp_inters (inters p) ++ gs)%list, snd s))))
           end) (fun r =>
    Ok (fst r ++ match pp with Some q => card_lines "Rows" (pp_cards q) ++ hp_workers (snd r) (pp_workers q) | None => [] end)%list)).
  Definition hintplan_hints (geqo : bool) (jo : option tree) (ops : option poa) (pp : option (@pparams C V)) : res string :=
    rmap (block "/*+" " ") (hp_lines geqo jo ops pp).
End Gen.
