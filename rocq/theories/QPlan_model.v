(** Model of QueryPlan, postbound/_qep.py 735-1974.  Tables are numbers.  Cardinalities are those of Card_model. *)
From Coq Require Import List Bool Arith ZArith.
From Verif Require Import PyBase Hint_model Card_model.
Import ListNotations.

(** PlanMeasures 559-732: times, cache statistics and additional values are opaque numbers; [None] is NaN for the time. *)
Record measures := mkmeas { m_card : card; m_time : option nat; m_hits : option nat; m_misses : option nat; m_extra : list (nat * nat) }.
Definition no_measures : measures := mkmeas CNan None None None [].
(** __bool__ 722-726: cardinalities are numbers. *)
Definition m_bool (m : measures) : bool :=
  (match m_card m with CNan => false | _ => true end) || (match m_time m with Some _ => true | None => false end)
  || (match m_hits m with Some _ => true | None => false end) || (match m_misses m with Some _ => true | None => false end)
  || (match m_extra m with [] => false | _ => true end).

(** The parts of a node besides its children and its subplan: node type, operator, PlanParams 185-413 (base table, tables of the filter
    predicate and of the lookup key, workers), PlanEstimates 416-556 (cardinality, cost, additional estimates) and measures. *)
Record pdata := mkpd { ntype : nat; oper : option physop; base : option nat; ftabs : list nat; ktabs : list nat; pworkers : nat;
                       est : card; ecost : option nat; e_extra : list (nat * nat); meas : measures }.

(** A plan: data, children, subplan with its target table (a virtual table, [None] for an empty name), 926-1031. *)
Inductive plan := Node (d : pdata) (kids : list plan) (sub : option (plan * option nat)).
Definition data (p : plan) : pdata := let 'Node d _ _ := p in d.
Definition kids (p : plan) : list plan := let 'Node _ k _ := p in k.
Definition subplan (p : plan) : option (plan * option nat) := let 'Node _ _ s := p in s.

(** input_node 1022-1025, outer_child 1064-1072, inner_child 1074-1082. *)
Definition input_node (p : plan) : option plan := match kids p with [c] => Some c | _ => None end.
Definition outer_child (p : plan) : option plan := match kids p with [a; b] => Some a | _ => None end.
Definition inner_child (p : plan) : option plan := match kids p with [a; b] => Some b | _ => None end.
(** is_join 1256, is_scan 1260, is_auxiliary 1264, is_analyze 1268. *)
Definition op_join (d : pdata) : bool := match oper d with Some (PJoin _) => true | _ => false end.
Definition op_scan (d : pdata) : bool := match oper d with Some (PScan _) => true | _ => false end.
Definition is_join (p : plan) : bool := op_join (data p).
Definition is_scan (p : plan) : bool := op_scan (data p).
Definition is_aux (p : plan) : bool := negb (is_join p) && negb (is_scan p).
Definition is_analyze (p : plan) : bool := m_bool (meas (data p)).

(** tables 1392-1404 with PlanParams.tables 299-318 and Subplan.tables 753-764. *)
Definition own_tables (d : pdata) : list nat := match base d with Some t => [t] | None => [] end ++ ftabs d ++ ktabs d.
Fixpoint tables (p : plan) : list nat :=
  match p with
  | Node d ks s =>
      dedup (own_tables d ++ flat_map tables ks
             ++ match s with Some (q, t) => tables q ++ match t with Some x => [x] | None => [] end | None => [] end)
  end.
(** iternodes 1418-1420 (children first, without subplans) and __iter__ 1948-1953. *)
Fixpoint iternodes (p : plan) : list plan := match p with Node d ks s => flat_map iternodes ks ++ [p] end.
Fixpoint iter_all (p : plan) : list plan :=
  match p with Node d ks s => p :: flat_map iter_all ks ++ match s with Some (q, _) => iter_all q | None => [] end end.
(** plan_depth 1360-1366, also __len__ 1922. *)
Fixpoint plan_depth (p : plan) : nat := match p with Node d ks s => 1 + fold_right Nat.max 0 (map plan_depth ks) end.

Section FirstOf.
  Context {X : Type} (f : plan -> res (option X)).
  Fixpoint first_of (l : list plan) : res (option X) :=
    match l with [] => Ok None | c :: r => rbind (f c) (fun o => match o with Some x => Ok (Some x) | None => first_of r end) end.
End FirstOf.
(** lookup 1422-1455. *)
Fixpoint lookup (p : plan) (needle : list nat) : res (option plan) :=
  match p with
  | Node d ks s =>
      if seteqb needle (tables p) then Ok (Some p)
      else if negb (subsetb needle (tables p)) then Ok None
      else first_of (fun c => lookup c needle) ks
  end.
(** find_first_node 1457-1517: plans are always truthy; with more than two children [outer_child] is None. *)
Fixpoint find_first (f : plan -> bool) (outer : bool) (p : plan) : res (option plan) :=
  if f p then Ok (Some p)
  else match p with
       | Node d ks s =>
           match ks with
           | [] => Ok None
           | [c] => find_first f outer c
           | [a; b] =>
               rbind (if outer then find_first f outer a else find_first f outer b) (fun o1 =>
               match o1 with
               | Some x => Ok (Some x)
               | None =>
                   rbind (if outer then find_first f outer b else find_first f outer a) (fun o2 =>
                   match o2 with
                   | Some x => Ok (Some x)
                   | None => match s with Some (q, _) => find_first f outer q | None => Ok None end
                   end)
               end)
           | _ => Raise AttributeError
           end
       end.
(** find_all_nodes 1519-1548. *)
Fixpoint find_all (f : plan -> bool) (p : plan) : list plan :=
  match p with Node d ks s => (if f p then [p] else []) ++ flat_map (find_all f) ks ++ match s with Some (q, _) => find_all f q | None => [] end end.

(** ** Shapes, 1276-1358 *)
(** [self.outer_child.find_first_node(QueryPlan.is_join)] *)
Definition child_join (c : option plan) : res bool :=
  match c with None => Raise AttributeError | Some q => rmap (fun o => match o with Some _ => true | None => false end) (find_first is_join true q) end.
Definition is_linear (p : plan) : res bool :=
  if is_scan p then Ok true
  else rbind (child_join (outer_child p)) (fun o => rbind (child_join (inner_child p)) (fun i => Ok (negb o || negb i))).
Definition is_bushy (p : plan) : res bool :=
  if is_scan p then Ok false
  else rbind (child_join (outer_child p)) (fun o => rbind (child_join (inner_child p)) (fun i => Ok (o && i))).
Definition is_left_deep (p : plan) : res bool := if is_scan p then Ok true else rmap negb (child_join (inner_child p)).
Definition is_right_deep (p : plan) : res bool := if is_scan p then Ok true else rmap negb (child_join (outer_child p)).
(** 1323-1332; [and] stops at the first false operand. *)
Definition is_zigzag (p : plan) : res bool :=
  if is_scan p then Ok true
  else rbind (is_linear p) (fun l => if l then rbind (is_left_deep p) (fun a => if negb a then rmap negb (is_right_deep p) else Ok false) else Ok false).
(** is_scan_branch 1334-1344 (the result None counts as false), is_base_join 1346-1358. *)
Fixpoint is_scan_branch (p : plan) : bool := match p with Node d ks s => op_scan d || match ks with [c] => is_scan_branch c | _ => false end end.
Definition is_base_join (p : plan) : bool := is_join p && forallb is_scan_branch (kids p).
(** fetch_base_table 1368-1380, outermost_scan 1382-1390 (an assertion for auxiliary nodes without a single input). *)
Fixpoint fetch_base (p : plan) : option nat :=
  match p with
  | Node d ks s => if op_scan d then base d else if op_join d then None else match ks with [c] => fetch_base c | _ => None end
  end.
Fixpoint outermost (p : plan) : res plan :=
  match p with
  | Node d ks s =>
      if op_scan d then Ok p
      else if op_join d then match ks with [a; _] => outermost a | _ => Raise AttributeError end
      else match ks with [c] => outermost c | _ => Raise AssertionError end
  end.

(** ** canonical 1793-1839 *)
Fixpoint canonical (p : plan) : res plan :=
  match p with
  | Node d ks s =>
      let cs := match s with Some (q, t) => rmap (fun q' => Some (q', t)) (canonical q) | None => Ok None end in
      rbind cs (fun s' =>
      if op_scan d then Ok (Node d [] s')
      else if op_join d then rmap (fun ks' => Node d ks' s') ((fix mapM (l : list plan) : res (list plan) :=
             match l with [] => Ok [] | c :: r => rbind (canonical c) (fun c' => rbind (mapM r) (fun r' => Ok (c' :: r'))) end) ks)
      else match ks with [c] => canonical c | _ => Raise AttributeError end)
  end.

(** ** Equality and hash, 1955-1964 *)
Section All2.
  Context (f : plan -> plan -> bool).
  Fixpoint all2 (l m : list plan) : bool := match l, m with [], [] => true | x :: l, y :: m => f x y && all2 l m | _, _ => false end.
End All2.
Fixpoint plan_eqb (p q : plan) : bool :=
  match p, q with Node d ks _, Node e ls _ => (ntype d =? ntype e) && deqb (base d) (base e) && all2 plan_eqb ks ls end.
Section PHash.
  Context (hty : nat -> Z) (hbase : option nat -> Z) (htup : list Z -> Z).
  Fixpoint plan_hash (p : plan) : Z := match p with Node d ks _ => htup [hty (ntype d); hbase (base d); htup (map plan_hash ks)] end.
End PHash.

(** ** Derived plans *)
(** parallelize 1598-1613. *)
Definition set_workers (d : pdata) (w : nat) := mkpd (ntype d) (oper d) (base d) (ftabs d) (ktabs d) w (est d) (ecost d) (e_extra d) (meas d).
Definition parallelize (p : plan) (w : nat) : plan := let 'Node d ks s := p in Node (set_workers d w) ks s.
(** with_estimates 1615-1649: additional estimates are not kept. *)
Definition with_estimates (p : plan) (c : option card) (cost : option (option nat)) (keep : bool) : plan :=
  let 'Node d ks s := p in
  Node (mkpd (ntype d) (oper d) (base d) (ftabs d) (ktabs d) (pworkers d) (match c with Some x => x | None => est d end)
             (match cost with Some x => x | None => ecost d end) [] (if keep then meas d else no_measures)) ks s.
(** with_actual_card 1651-1720: the truth value of a cardinality is its validity. *)
Definition actual (d : pdata) : card := m_card (meas d).
Fixpoint with_actual (cost : option (plan -> card -> option nat)) (p : plan) : plan :=
  match p with
  | Node d ks s =>
      let d' := if is_valid (actual d)
                then mkpd (ntype d) (oper d) (base d) (ftabs d) (ktabs d) (pworkers d) (actual d)
                          (match cost with Some f => f p (actual d) | None => None end) (e_extra d) no_measures
                else mkpd (ntype d) (oper d) (base d) (ftabs d) (ktabs d) (pworkers d) (est d) (ecost d) (e_extra d) no_measures in
      Node d' (map (with_actual cost) ks) (match s with Some (q, t) => Some (with_actual cost q, t) | None => None end)
  end.
(** scale_cardinality 1722-1791, [scale] is the multiplication by the factor; cache statistics are reserved keys and therefore lost. *)
Section Scale.
  Context (scale : card -> card) (kest kact recursive : bool).
  Definition scale_data (d : pdata) : pdata :=
    mkpd (ntype d) (oper d) (base d) (ftabs d) (ktabs d) (pworkers d) (if kest then scale (est d) else est d) (ecost d) (e_extra d)
         (if kact then mkmeas (scale (actual d)) (m_time (meas d)) None None (m_extra (meas d)) else meas d).
  Fixpoint scale_plan (p : plan) : plan :=
    match p with
    | Node d ks s => Node (scale_data d) (if recursive then map scale_plan ks else ks) (match s with Some (q, t) => Some (scale_plan q, t) | None => None end)
    end.
End Scale.

(** ** cout 1550-1573 and qerror 1575-1596.  [sum] starts with the number 0. *)
Section Cout.
  Context (f : plan -> res card).
  Fixpoint csum (acc : card) (l : list plan) : res card :=
    match l with [] => Ok acc | c :: r => rbind (f c) (fun x => rbind (cop Add acc (OCard x)) (fun a => csum a r)) end.
End Cout.
(** Plain numbers and cardinalities are not distinguished: a NaN or an integer behaves like the cardinality. *)
Fixpoint cout (aux : bool) (p : plan) : res card :=
  match p with
  | Node d ks s =>
      if negb (m_bool (meas d)) then Ok CNan
      else let own := if aux || op_join d || op_scan d then actual d else CVal 0 in
           rbind (csum (cout aux) (CVal 0) ks) (fun x => cop Add own (OCard x))
  end.
Definition qerror (p : plan) : res card :=
  let d := data p in
  if negb (m_bool (meas d)) then Ok CNan
  else rbind (cop Add (cmax (est d) (actual d)) (ONum (NInt 1))) (fun l =>
       rbind (cop Add (cmin (est d) (actual d)) (ONum (NInt 1))) (fun s => cop Div l (OCard s))).
