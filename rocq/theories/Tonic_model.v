(** Model of the QEP-S (query execution plan synopsis) of TONIC, postbound/opt/tonic.py 42-886.

    Simplifications: costs are exact rationals instead of doubles.  Operators are numbers.  A table is a pair of its name and
    its alias (alias 0: none); [tlt] is the order of table identifiers.  The (normalised) filter predicate of a table is a
    number given by [filt].  Looking up a missing child inserts an empty node ([DynamicDefaultDict]); recommending operators
    does so, too, but the model leaves out these empty nodes, which hold no costs. *)
From Coq Require Import List Bool Arith QArith Lia.
From Verif Require Import PyBase.
Import ListNotations.
Local Open Scope nat_scope.

Definition tab : Type := nat * nat.
Definition drop_alias (t : tab) : tab := (fst t, 0).
Definition op := nat.

(** The relevant part of a query plan: scans, joins with their estimated costs and nodes with a single input. *)
Inductive plan := PScan (t : tab) | PJoin (o : op) (cost : Q) (outer inner : plan) | PAux (input : plan).
Fixpoint psize (p : plan) : nat := match p with PScan _ => 1 | PJoin _ _ l r => 1 + psize l + psize r | PAux q => 1 + psize q end.
(** plan_depth, _qep.py 1360-1366. *)
Fixpoint depth (p : plan) : nat := match p with PScan _ => 1 | PJoin _ _ l r => 1 + Nat.max (depth l) (depth r) | PAux q => 1 + depth q end.
(** find_first_node(is_join) is not None, _qep.py 1457-1517. *)
Fixpoint has_join (p : plan) : bool := match p with PScan _ => false | PJoin _ _ _ _ => true | PAux q => has_join q end.
(** is_bushy of a join, _qep.py 1290-1299. *)
Definition bushy (l r : plan) : bool := has_join l && has_join r.
(** is_scan_branch, _qep.py 1334-1344; fetch_base_table, 1368-1380. *)
Fixpoint scan_branch (p : plan) : bool := match p with PScan _ => true | PJoin _ _ _ _ => false | PAux q => scan_branch q end.
Fixpoint fetch_base (p : plan) : option tab := match p with PScan t => Some t | PJoin _ _ _ _ => None | PAux q => fetch_base q end.
Fixpoint ptables (p : plan) : list tab := match p with PScan t => [t] | PJoin _ _ l r => ptables l ++ ptables r | PAux q => ptables q end.

(** _iterate_query_plan, tonic.py 91-118: the joins on the deepest branch, bottom-up. *)
Fixpoint iterate (p : plan) : list plan :=
  match p with
  | PScan _ => []
  | PAux q => iterate q
  | PJoin o c l r => (if depth r <? depth l then iterate l else iterate r) ++ [p]
  end.

(** QepsIdentifier, 196-311: the tables without aliases, as a canonical list, and the filter predicate. *)
Definition qid : Type := list tab * option nat.
Definition tab_le (a b : tab) : bool := (fst a <? fst b) || (Nat.eqb (fst a) (fst b) && (snd a <=? snd b)).
Fixpoint insert_tab (t : tab) (l : list tab) : list tab :=
  match l with [] => [t] | x :: l' => if deqb t x then l else if tab_le t x then t :: l else x :: insert_tab t l' end.
Definition canon (l : list tab) : list tab := fold_right (fun t => insert_tab (drop_alias t)) [] l.

(** QEPsNode, 314-368. *)
Inductive qnode := QNode (costs : dict op Q) (children : list (qid * qnode)) (sub : option qnode).
Definition empty_node : qnode := QNode [] [] None.
Definition costs (n : qnode) : dict op Q := match n with QNode c _ _ => c end.
Definition children (n : qnode) : list (qid * qnode) := match n with QNode _ c _ => c end.
Definition subquery (n : qnode) : option qnode := match n with QNode _ _ s => s end.
Definition child (n : qnode) (i : qid) : qnode := match dget (children n) i with Some c => c | None => empty_node end.
Definition set_child (n : qnode) (i : qid) (c : qnode) : qnode := match n with QNode cs ch s => QNode cs (dset ch i c) s end.
Definition sub_root (n : qnode) : qnode := match subquery n with Some s => s | None => empty_node end.
Definition set_sub (n s : qnode) : qnode := match n with QNode cs ch _ => QNode cs ch (Some s) end.

(** A cost, finite or not. *)
Inductive cost := CFin (q : Q) | CInfinite | CNaN.
(** update_costs, 716-734, on the cost table ([defaultdict(float)]: 0 for a new operator). *)
Definition update_costs (gamma : Q) (d : dict op Q) (o : option op) (c : cost) : res (dict op Q) :=
  match o, c with
  | Some o, CFin c => Ok (dset d o (c + gamma * match dget d o with Some x => x | None => 0 end)%Q)
  | _, _ => Raise ValueError
  end.
(** current_recommendation, 704-714, with util.argmin. *)
Fixpoint argminQ (best : op * Q) (d : list (op * Q)) : op :=
  match d with [] => fst best | kv :: rest => argminQ (if negb (Qle_bool (snd best) (snd kv)) then kv else best) rest end.
Definition current_recommendation (d : dict op Q) : option op :=
  match d with kv :: ((_ :: _) as rest) => Some (argminQ kv rest) | _ => None end.

Section Qeps.
  Variables (tlt : tab -> tab -> bool) (filter_aware : bool) (filt : tab -> option nat) (gamma : Q).

  (** _make_identifier, 798-823. *)
  Definition make_id (t : tab) : qid := ([drop_alias t], if filter_aware then filt t else None).
  Definition node_update (n : qnode) (o : op) (c : Q) : res qnode :=
    match n with QNode cs ch s => rmap (fun cs' => QNode cs' ch s) (update_costs gamma cs (Some o) (CFin c)) end.

  (** integrate_costs, 513-602. *)
  Fixpoint integrate (fuel : nat) (n : qnode) (joins : list plan) (skip_first : bool) : res qnode :=
    match fuel with
    | 0 => Raise OutOfFuel
    | S fuel =>
      match joins with
      | [] => Ok n
      | PJoin o c l r :: rest =>
          if bushy l r then
            let first := if depth r <? depth l then r else l in
            let i := (canon (ptables first), None) in
            rbind (node_update (child n i) o c) (fun ch =>
            rbind (integrate fuel (sub_root ch) (iterate first) false) (fun s =>
            rbind (integrate fuel (set_sub ch s) rest false) (fun ch' => Ok (set_child n i ch'))))
          else if scan_branch l && scan_branch r then
            match fetch_base l, fetch_base r with
            | Some tl, Some tr =>
                let '(t1, t2) := if tlt tr tl then (tr, tl) else (tl, tr) in
                if skip_first then
                  rbind (node_update (child n (make_id t2)) o c) (fun ch =>
                  rbind (integrate fuel ch rest false) (fun ch' => Ok (set_child n (make_id t2) ch')))
                else
                  rbind (integrate fuel (child n (make_id t1)) joins true) (fun ch' => Ok (set_child n (make_id t1) ch'))
            | _, _ => Raise AttributeError
            end
          else
            match fetch_base (if scan_branch l then l else r) with
            | Some t =>
                rbind (node_update (child n (make_id t)) o c) (fun ch =>
                rbind (integrate fuel ch rest false) (fun ch' => Ok (set_child n (make_id t) ch')))
            | None => Raise AttributeError
            end
      | _ :: _ => Raise AttributeError
      end
    end.
  (** QEPSynopsis.integrate_costs, 949-960. *)
  Definition integrate_costs (root : qnode) (p : plan) : res qnode := integrate (2 * psize p) root (iterate p) false.

  (** * Recommendations *)
  Inductive jtree := TScan (t : tab) | TJoin (outer inner : jtree).
  Fixpoint tdepth (p : jtree) : nat := match p with TScan _ => 1 | TJoin l r => 1 + Nat.max (tdepth l) (tdepth r) end.
  Fixpoint tsize (p : jtree) : nat := match p with TScan _ => 1 | TJoin l r => 1 + tsize l + tsize r end.
  Fixpoint ttables (p : jtree) : list tab := match p with TScan t => [t] | TJoin l r => ttables l ++ ttables r end.
  (** _iterate_join_tree, 121-143. *)
  Fixpoint titerate (p : jtree) : list (jtree * jtree) :=
    match p with TScan _ => [] | TJoin l r => (if tdepth r <? tdepth l then titerate l else titerate r) ++ [(l, r)] end.
  Definition t_is_scan (p : jtree) : bool := match p with TScan _ => true | _ => false end.
  (** base_table, _hints.py 1349: an AttributeError-like failure for joins (StateError). *)
  Definition base_table (p : jtree) : res tab := match p with TScan t => Ok t | _ => Raise StateError end.

  (** recommend_operators, 424-511: the sequence of assignments (tables, operator).  [path]: the tables of the current path. *)
  Fixpoint recommend (fuel : nat) (n : qnode) (path : list tab) (joins : list (jtree * jtree)) (skip_first : bool) : res (list (list tab * op)) :=
    match fuel with
    | 0 => Raise OutOfFuel
    | S fuel =>
      match joins with
      | [] => Ok []
      | (l, r) :: rest =>
          let own := match current_recommendation (costs n) with Some o => [(canon path, o)] | None => [] end in
          rmap (fun rec => own ++ rec)
          (if negb (t_is_scan l) && negb (t_is_scan r) then
             let sq := if tdepth r <=? tdepth l then l else r in
             let i := (canon (ttables sq), None) in
             let ch := child n i in
             rbind (recommend fuel (sub_root ch) [] (titerate sq) false) (fun inner =>
             rbind (recommend fuel ch (path ++ canon (ttables sq)) rest false) (fun outer => Ok (inner ++ outer)))
           else if t_is_scan l && t_is_scan r then
             rbind (base_table l) (fun tl => rbind (base_table r) (fun tr =>
             let '(t1, t2) := if tlt tr tl then (tr, tl) else (tl, tr) in
             if skip_first then recommend fuel (child n (make_id t2)) (path ++ [drop_alias t2]) rest false
             else recommend fuel (child n (make_id t1)) (path ++ [drop_alias t1]) joins true))
           else
             rbind (match r with TScan t => Ok t | TJoin rl _ => base_table rl end) (fun t =>
             recommend fuel (child n (make_id t)) (path ++ [drop_alias t]) rest false))
      end
    end.
  (** QEPSynopsis.recommend_operators, 926-947. *)
  Definition recommend_operators (root : qnode) (p : jtree) : res (list (list tab * op)) := recommend (2 * tsize p) root [] (titerate p) false.
End Qeps.

(** _tables_in_qeps_path, 178-193, calls the property [tables] as a function: a TypeError for every non-empty path. *)
Definition tables_in_qeps_path (path : list qid) : res (list tab) := match path with [] => Ok [] | _ :: _ => Raise TypeError end.

Section Unknown.
  Variables (tlt : tab -> tab -> bool) (filter_aware : bool) (filt : tab -> option nat) (allowed : list op).
  (** detect_unknown_costs, 604-702.  [path] is the path of the node (its length minus one is the depth of the parent); the
      result maps tables to operators without costs. *)
  Fixpoint detect (fuel : nat) (n : qnode) (path : list qid) (joins : list (jtree * jtree)) (skip_first : bool)
      (unknown : list (list tab * list op)) : res (list (list tab * list op)) :=
    match fuel with
    | 0 => Raise OutOfFuel
    | S fuel =>
      match joins with
      | [] => Ok unknown
      | (l, r) :: rest =>
          rbind (if 2 <=? length path
                 then rmap (fun ts => unknown ++ [(ts, filter (fun o => negb (dmem (costs n) o)) allowed)]) (tables_in_qeps_path path)
                 else Ok unknown) (fun unknown =>
          if negb (t_is_scan l) && negb (t_is_scan r) then
            let sq := if tdepth r <=? tdepth l then l else r in
            let i := (canon (ttables sq), None) in
            let ch := child n i in
            rbind (detect fuel (sub_root ch) [] (titerate sq) false unknown) (fun unknown =>
            detect fuel ch (path ++ [i]) rest false unknown)
          else if t_is_scan l && t_is_scan r then
            rbind (base_table l) (fun tl => rbind (base_table r) (fun tr =>
            let '(t1, t2) := if tlt tr tl then (tr, tl) else (tl, tr) in
            if skip_first then detect fuel (child n (make_id filter_aware filt t2)) (path ++ [make_id filter_aware filt t2]) rest false unknown
            else detect fuel (child n (make_id filter_aware filt t1)) (path ++ [make_id filter_aware filt t1]) joins true unknown))
          else
            rbind (base_table (if t_is_scan r then r else l)) (fun t =>
            detect fuel (child n (make_id filter_aware filt t)) (path ++ [make_id filter_aware filt t]) rest false unknown))
      end
    end.
  (** QEPSynopsis.detect_unknown_costs, 962-990. *)
  Definition detect_unknown_costs (root : qnode) (p : jtree) : res (list (list tab * list op)) := detect (2 * tsize p) root [] (titerate p) false [].
End Unknown.

(** * JSON *)
(** The JSON of a node: null, or an object with its costs, its children and possibly the key "subquery". *)
Inductive qjson := JNull | JNode (costs : dict op Q) (children : list (qid * qjson)) (sub : option qjson).
(** __json__, 858-870: the key "subquery" is always present. *)
Fixpoint dump (n : qnode) : qjson :=
  match n with QNode cs ch s => JNode cs (map (fun kv => (fst kv, dump (snd kv))) ch) (Some match s with Some s => dump s | None => JNull end) end.
(** _load_qeps_from_json, 1049-1105: null has no method [get]; the subquery is read before the children; a child is looked for
    under the key "node" of the parent's object, which does not have this key. *)
Fixpoint load (j : qjson) : res qnode :=
  match j with
  | JNull => Raise AttributeError
  | JNode cs ch sub =>
      rbind (match sub with Some s => rmap Some (load s) | None => Ok None end) (fun s =>
      match ch with [] => Ok (QNode cs [] s) | _ :: _ => Raise KeyError end)
  end.
