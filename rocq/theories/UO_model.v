(** Model of the UES join order optimizer: UESJoinOrderOptimizer, postbound/opt/ues.py 1037-1080, 1106-1477, with the join paths
    of the join graph, postbound/opt/_joingraph.py 462-535, 616-644, 822-897, 1057-1079, and nx_bfs_tree, util/nx.py 133-187.

    The join graph itself is that of JG_model (T: tables, C: columns).  The statistics, the join estimator and the branching
    policy are exchangeable parts of the optimizer; they are given by functions on a state [S] of the statistics container:
    [base] are its base_table_estimates (fixed while a query is optimized), [setb] and [setj] store an upper bound of a table or
    of a join tree, [est] is JoinEstimator.estimate_for, [policy] is BranchingPolicy.generate_subquery_for and [trig] is
    trigger_frequency_update.  Logging is left out. *)
From Coq Require Import List Bool Arith.
From Verif Require Import PyBase Graph Card_model JG_model JT_model.
Import ListNotations.

Section UesOpt.
  Context {T C S : Type} {ET : EqD T} {EC : EqD C} (tab : C -> T).
  Notation jg := (@jg T C).
  Notation jpred := (@jpred C).
  Notation jpath := (T * T * jpred)%type.
  Notation tree := (jt T card).
  (** The parameters of mark_joined, and the order in which the graph library lists the neighbors of a node. *)
  Context (between : T -> list T -> option jpred) (order : list T -> list T) (aord : T -> list (T * jpred) -> list (T * jpred)).
  Context (base : T -> res card) (est : S -> heap -> jg -> jpred -> res card) (policy : S -> heap -> jg -> jpred -> res bool).
  Context (setb : S -> T -> card -> S) (setj : S -> tree -> card -> S) (trig : S -> tree -> T -> jpred -> res S).

  (** * Join paths *)
  (** contains_free_tables 475-483, count_consumed_tables 504-517 *)
  Definition has_free (h : heap) (g : jg) : bool := existsb (free_in h g) (dkeys (g_nodes g)).
  Definition consumed (h : heap) (g : jg) : nat := length (filter (fun t => negb (free_in h g t)) (dkeys (g_nodes g))).
  (** contains_cross_products 462-473 *)
  Definition pairs_of (g : jg) : list (T * T) := map fst (g_edges g).
  Definition has_cross (g : jg) : bool := negb (connectedb (dkeys (g_nodes g)) (pairs_of g)).
  (** contains_free_n_m_joins 485-502 *)
  Definition has_nm (h : heap) (g : jg) : bool :=
    existsb (fun e => (is_available_join h g (fst (fst e)) (snd (fst e)) || initial h g)
                      && existsb (fun p => negb (can_pk_fk_join (info h g (Some (fst p))) (info h g (Some (snd p))))) (snd e)) (g_edges g).
  (** available_n_m_join_paths 616-644 *)
  Definition nm_paths (h : heap) (g : jg) (both : bool) : list jpath :=
    flat_map (fun p => if negb (is_pk_fk_join tab h g (fst (fst p)) (snd (fst p))) && negb (is_pk_fk_join tab h g (snd (fst p)) (fst (fst p)))
                       then p :: (if both && initial h g then [flip p] else []) else []) (available_join_paths h g false).
  (** self._graph.adj[table].items() *)
  Definition nbr (t : T) (e : jpath) : list (T * jpred) :=
    if deqb (fst (fst e)) t then [(snd (fst e), snd e)] else if deqb (snd (fst e)) t then [(fst (fst e), snd e)] else [].
  Definition adjl (g : jg) (t : T) : list (T * jpred) := aord t (flat_map (nbr t) (g_edges g)).
  (** available_pk_fk_joins_for 822-844 *)
  Definition pk_paths (h : heap) (g : jg) (fk : T) : res (list jpath) :=
    if mem fk (dkeys (g_nodes g))
    then Ok (map (fun x => (fk, fst x, snd x)) (filter (fun x => is_pk_fk_join tab h g fk (fst x) && (free_in h g fk || free_in h g (fst x))) (adjl g fk)))
    else Raise ValueError.
  (** The tables of the join partners of a table in a predicate between two tables, 888-893, 1074-1076 *)
  Definition other (p : C * C) (t : T) : T := if deqb (tab (fst p)) t then tab (snd p) else tab (fst p).
  (** _check_pk_fk_join 1057-1079 *)
  Definition check_pk_fk (h : heap) (g : jg) (x : T * jpred) : bool := existsb (fun p => is_pk_fk_join tab h g (other p (fst x)) (fst x)) (snd x).
  (** nx_bfs_tree, nx.py 133-187: nodes are marked as visited when they leave the queue; the result of sorted() is not used. *)
  Fixpoint bfs_paths (fuel : nat) (h : heap) (g : jg) (queue : list (T * jpred)) (visited : list T) : res (list (T * jpred)) :=
    match fuel with
    | 0 => Raise OutOfFuel
    | Datatypes.S fuel =>
        match queue with
        | [] => Ok []
        | x :: q =>
            let visited := fst x :: visited in
            if check_pk_fk h g x
            then rmap (cons x) (bfs_paths fuel h g (q ++ filter (fun y => negb (mem (fst y) visited)) (adjl g (fst x))) visited)
            else bfs_paths fuel h g q visited
        end
    end.
  (** available_deep_pk_join_paths_for 846-897 *)
  Definition deep_paths (fuel : nat) (h : heap) (g : jg) (fk : T) : res (list jpath) :=
    if mem fk (dkeys (g_nodes g))
    then rmap (map (fun x => (match snd x with p :: _ => other p (fst x) | [] => fk end, fst x, snd x))) (bfs_paths fuel h g (adjl g fk) [fk])
    else Raise ValueError.

  (** * The optimizer *)
  Definition mark (h : heap) (g : jg) (t : T) (e : option jpred) : res heap :=
    match mark_joined tab between order h g t e with (h', None) => Ok h' | (_, Some x) => Raise x end.
  Definition less (a b : card) : bool := clt a (OCard b).
  (** [min([x] + l)] *)
  Definition min_from (x : card) (l : list card) : card := fold_left cmin l x.
  (** The loops over candidate joins 1190-1200, 1325-1334, 1349-1358: the first path with the lowest bound below infinity *)
  Fixpoint lowest (s : S) (h : heap) (g : jg) (paths : list jpath) (best : option jpath) (bound : card) : res (option jpath * card) :=
    match paths with
    | [] => Ok (best, bound)
    | p :: r => rbind (est s h g (snd p)) (fun b => if less b bound then lowest s h g r (Some p) b else lowest s h g r best bound)
    end.
  (** join_with for a base table, _hints.py 1517-1563 (see JT_model) *)
  Definition join_table (t : tree) (x : T) (a b : card) : res tree := jt_join_with CNan t (inr x) a (Some b) true.
  Definition join_sub (t u : tree) (a : card) : res tree := jt_join_with CNan t (inl u) a None true.

  (** _apply_pk_fk_join 1397-1433 *)
  Definition apply_join (h : heap) (g : jg) (s : S) (t : tree) (p : jpath) (bound : card) : res (heap * S * tree) :=
    rbind (base (snd (fst p))) (fun c =>
    rbind (join_table t (snd (fst p)) bound c) (fun t =>
    rbind (mark h g (snd (fst p)) (Some (snd p))) (fun h => Ok (h, setj s t bound, t)))).
  (** _star_query_optimizer 1305-1368 *)
  Fixpoint star_loop (fuel : nat) (g : jg) (h : heap) (s : S) (t : tree) : res tree :=
    match fuel with
    | 0 => Raise OutOfFuel
    | Datatypes.S fuel =>
        if has_free h g
        then rbind (lowest s h g (available_join_paths h g false) None CInf) (fun best =>
             match fst best with
             | None => Raise AttributeError
             | Some p => rbind (apply_join h g s t p (snd best)) (fun '(h, s, t) => star_loop fuel g h s t)
             end)
        else Ok t
    end.
  Definition star (fuel : nat) (g : jg) (h : heap) (s : S) : res tree :=
    rbind (lowest s h g (available_join_paths h g false) None CInf) (fun best =>
    match fst best with
    | None => Raise AttributeError
    | Some p =>
        rbind (base (fst (fst p))) (fun c =>
        rbind (mark h g (fst (fst p)) None) (fun h =>
        rbind (apply_join h g s (JScan true (fst (fst p)) c) p (snd best)) (fun '(h, s, t) => star_loop fuel g h s t)))
    end).

  (** 1133-1156: the bounds of the candidate tables *)
  Fixpoint update_bounds (s : S) (h : heap) (g : jg) (paths : list jpath) (best : option T) (bound : card) : res (S * option T * card) :=
    match paths with
    | [] => Ok (s, best, bound)
    | p :: r =>
        let t := snd (fst p) in
        rbind (base t) (fun filter_estimate =>
        rbind (pk_paths h g t) (fun pks =>
        rbind (rmapM (fun q => est s h g (snd q)) pks) (fun bounds =>
        let b := min_from filter_estimate bounds in
        let s := setb s t b in
        if less b bound then update_bounds s h g r (Some t) b else update_bounds s h g r best bound)))
    end.
  (** 1171-1184: the primary key joins of the first table *)
  Fixpoint initial_joins (g : jg) (paths : list jpath) (h : heap) (s : S) (t : tree) : res (heap * tree) :=
    match paths with
    | [] => Ok (h, t)
    | p :: r =>
        rbind (base (snd (fst p))) (fun c =>
        rbind (est s h g (snd p)) (fun b =>
        rbind (mark h g (snd (fst p)) (Some (snd p))) (fun h =>
        rbind (join_table t (snd (fst p)) b c) (fun t => initial_joins g r h s t))))
    end.
  (** _insert_pk_joins 1435-1477 *)
  Fixpoint insert_pk (g : jg) (paths : list jpath) (h : heap) (s : S) (t : tree) : res (heap * S * tree) :=
    match paths with
    | [] => Ok (h, s, t)
    | p :: r =>
        rbind (is_free h g (snd (fst p))) (fun free =>
        if free
        then rbind (est s h g (snd p)) (fun b =>
             rbind (base (snd (fst p))) (fun c =>
             rbind (join_table t (snd (fst p)) b c) (fun t =>
             rbind (mark h g (snd (fst p)) (Some (snd p))) (fun h => insert_pk g r h (setj s t b) t))))
        else insert_pk g r h s t)
    end.
  Fixpoint any (s : S) (h : heap) (g : jg) (paths : list jpath) : res bool :=
    match paths with [] => Ok false | p :: r => rbind (policy s h g (snd p)) (fun b => if b then Ok true else any s h g r) end.
  (** 1162-1188: the first table; LogicalJoinTree.scan(None) is the empty tree, and mark_joined(None) fails *)
  Definition first_table (bf : nat) (g : jg) (h : heap) (s : S) (best : option T) (bound : card) : res (heap * S * tree) :=
    match best with
    | None => Raise KeyError
    | Some x =>
        let t := JScan true x bound in
        rbind (mark h g x None) (fun h =>
        let s := setj s t bound in
        rbind (deep_paths bf h g x) (fun paths => rmap (fun '(h, t) => (h, s, t)) (initial_joins g paths h s t)))
    end.
  (** 1190-1256: one more n:m join *)
  Definition next_table (bf : nat) (eager : bool) (g : jg) (h : heap) (s : S) (t : tree) : res (heap * S * tree) :=
    rbind (lowest s h g (nm_paths h g false) None CInf) (fun best =>
    match fst best with
    | None => Raise AttributeError
    | Some p =>
        let x := snd (fst p) in
        rbind (pk_paths h g x) (fun direct =>
        rbind (any s h g direct) (fun subquery =>
        rbind (if eager then deep_paths bf h g x else pk_paths h g x) (fun pks =>
        rbind (base x) (fun c =>
        rbind (if subquery
               then rbind (mark h g x None) (fun h =>
                    rbind (insert_pk g pks h s (JScan false x c)) (fun '(h, s, sub) =>
                    rbind (join_sub t sub (snd best)) (fun t => Ok (h, setj s t (snd best), t))))
               else rbind (join_table t x (snd best) c) (fun t =>
                    rbind (mark h g x (Some (snd p))) (fun h => insert_pk g pks h (setj s t (snd best)) t)))
          (fun '(h, s, t) => rmap (fun s => (h, s, t)) (trig s t x (snd p)))))))
    end).
  (** _default_ues_optimizer 1106-1260 *)
  Fixpoint default_loop (fuel bf : nat) (eager : bool) (g : jg) (h : heap) (s : S) (t : tree) : res tree :=
    match fuel with
    | 0 => Raise OutOfFuel
    | Datatypes.S fuel =>
        if has_nm h g
        then rbind (update_bounds s h g (nm_paths h g true) None CInf) (fun '(s, best, bound) =>
             rbind (if jt_empty t then first_table bf g h s best bound else next_table bf eager g h s t) (fun '(h, s, t) =>
             default_loop fuel bf eager g h s t))
        else if has_free h g then Raise AssertionError else Ok t
    end.
  (** _binary_join_optimization 1262-1303; [t1], [t2] are the tables in the order of the set; [joins_between] may find nothing,
      and None has no base_predicates() *)
  Definition binary (g : jg) (h : heap) (s : S) (t1 t2 : T) : res tree :=
    rbind (base t1) (fun c1 => rbind (base t2) (fun c2 =>
    let '(small, small_card, large, large_card) := if less c1 c2 then (t1, c1, t2, c2) else (t2, c2, t1, c1) in
    match between large [small] with
    | None => Raise AttributeError
    | Some e => rbind (est s h g e) (fun b => join_table (JScan true large large_card) small b small_card)
    end)).
End UesOpt.

(** optimize_join_order 1037-1080.  [setup]: the state of the statistics for a query, given by its tables and join edges, and
    the base table estimates; [orders]: the order of the set of tables of a query; a component of the join graph is the query
    of its tables and the joins among them (extract_query_fragment).  [kind] are the indexes of the columns. *)
Section Optimize.
  Context {T C S : Type} {ET : EqD T} {EC : EqD C} (tab : C -> T).
  Notation jpred := (@jpred C).
  Notation tree := (jt T card).
  Record query := mkq { q_tables : list T; q_edges : list (T * T * jpred) }.
  Context (between : query -> T -> list T -> option jpred) (order : list T -> list T) (aord : T -> list (T * jpred) -> list (T * jpred)).
  Context (base : query -> T -> res card) (est : query -> S -> heap -> @jg T C -> jpred -> res card) (policy : query -> S -> heap -> @jg T C -> jpred -> res bool).
  Context (setb : S -> T -> card -> S) (setj : S -> tree -> card -> S) (trig : query -> S -> tree -> T -> jpred -> res S) (setup : query -> S).
  Context (kind : C -> ikind) (fuel bf : nat).

  Definition graph_of (q : query) : jg * heap := new_graph empty_heap (q_tables q) (q_edges q) kind.
  (** 1053-1054, 1075-1078 *)
  Definition optimize_connected (eager : bool) (q : query) : res (option tree) :=
    let '(g, h) := graph_of q in
    match dedup (q_tables q) with
    | [] | [_] => Ok None
    | [t1; t2] => rmap Some (binary (between q) (base q) (est q) g h (setup q) t1 t2)
    | _ => rmap Some (if has_nm h g then default_loop tab (between q) order aord (base q) (est q) (policy q) setb setj (trig q) fuel bf eager g h (setup q) (JEmpty true)
                      else star tab (between q) order (base q) (est q) setj fuel g h (setup q))
    end.
  (** nx.connected_components and join_components 519-535 *)
  Fixpoint components (ns : list T) (es : list (T * T)) (todo seen : list T) : list (list T) :=
    match todo with
    | [] => []
    | x :: r => if mem x seen then components ns es r seen else let k := reachable ns es x in k :: components ns es r (k ++ seen)
    end.
  Definition fragment (q : query) (k : list T) : query := mkq k (filter (fun e => mem (fst (fst e)) k && mem (snd (fst e)) k) (q_edges q)).
  Definition join_components (q : query) : list query :=
    let ns := dedup (q_tables q) in map (fragment q) (components ns (map fst (q_edges q)) ns []).
  (** the annotation of a tree; an empty tree has none *)
  Definition annotation (t : tree) : card := match t with JEmpty _ => CNan | JScan _ _ a => a | JJoin _ _ _ a => a end.
  (** 1065-1074; the result of sorted() is not used *)
  Fixpoint cross (t : tree) (l : list tree) : res tree :=
    match l with
    | [] => Ok t
    | u :: l => rbind (cop Mul (annotation t) (OCard (annotation u))) (fun a => rbind (jt_join_with CNan t (inl u) a None true) (fun t => cross t l))
    end.
  (** The components are optimized by a clone (1479-1493) that does not pull primary key tables eagerly.  An empty tree counts
      as false, 1061; JoinOrderOptimizationError is an OtherError. *)
  Definition optimize (eager : bool) (q : query) : res (option tree) :=
    let '(g, _) := graph_of q in
    match dedup (q_tables q) with
    | [] | [_] | [_; _] => optimize_connected eager q
    | _ =>
        if has_cross g
        then rbind (rmapM (fun k => rbind (optimize_connected false k) (fun o => match o with Some t => Ok t | None => Raise OtherError end)) (join_components q)) (fun l =>
             match l with [] => Raise ValueError | t :: l => rmap Some (cross t l) end)
        else optimize_connected eager q
    end.
End Optimize.
Arguments query : clear implicits.

(** * The UES parts: UESBoundEstimator.estimate_for (see Ues_model), UESSubqueryPolicy.generate_subquery_for 930-953,
    LinearJoinTreePolicy 896-899 and the statistics container.  Tables are numbers, columns as in Ues_model. *)
From Verif Require Import Ues_model.
Section Ues.
  Notation ucol := (nat * nat)%type.
  Notation ujg := (@jg nat ucol).
  Definition ues_base (b : dict nat card) (t : nat) : res card := match dget b t with Some c => Ok c | None => Raise KeyError end.
  Definition ues_est (s : stats) (h : heap) (g : ujg) (e : list (ucol * ucol)) : res card := estimate_for (is_pk_fk_join fst h g) s e.
  Definition ues_setb (s : stats) (t : nat) (c : card) : stats := {| base_est := base_est s; upper_bounds := dset (upper_bounds s) t c; freqs := freqs s |}.
  (** bounds of join trees are stored, but only those of tables are looked up *)
  Definition ues_setj (s : stats) (t : jt nat card) (c : card) : stats := s.
  Definition ues_trig (joins : list (ucol * ucol)) (s : stats) (t : jt nat card) (x : nat) (e : list (ucol * ucol)) : res stats :=
    rmap (fun fr => {| base_est := base_est s; upper_bounds := upper_bounds s; freqs := fr |}) (trigger_frequency_update joins (jt_tables t) x e (freqs s)).
  Fixpoint policy_loop (s : stats) (h : heap) (g : ujg) (e : list (ucol * ucol)) : res bool :=
    match e with
    | [] => Ok false
    | (a, b) :: r =>
        let test x := rbind (key (upper_bounds s) x) (fun u => rbind (key (base_est s) x) (fun v => if less u v then Ok true else policy_loop s h g r)) in
        if is_pk_fk_join fst h g (fst a) (fst b) then test (fst a)
        else if is_pk_fk_join fst h g (fst b) (fst a) then test (fst b)
        else policy_loop s h g r
    end.
  Definition ues_policy (s : stats) (h : heap) (g : ujg) (e : list (ucol * ucol)) : res bool := if consumed h g <? 2 then Ok false else policy_loop s h g e.
  Definition linear_policy (s : stats) (h : heap) (g : ujg) (e : list (ucol * ucol)) : res bool := Ok false.
  (** query.predicates().joins_between for the joins of the graph *)
  Definition ues_between (q : query nat ucol) (t : nat) (l : list nat) : option (list (ucol * ucol)) :=
    match filter (fun p => (Nat.eqb (fst (fst p)) t && mem (fst (snd p)) l) || (Nat.eqb (fst (snd p)) t && mem (fst (fst p)) l)) (flat_map snd (q_edges q)) with
    | [] => None
    | e => Some e
    end.
  Definition ues_optimize (b : dict nat card) (fr : dict ucol operand) (kind : ucol -> ikind) (order : list nat -> list nat) (aord : nat -> list (nat * list (ucol * ucol)) -> list (nat * list (ucol * ucol)))
      (linear : bool) (fuel bf : nat) (eager : bool) (q : query nat ucol) : res (option (jt nat card)) :=
    optimize fst ues_between order aord (fun _ => ues_base b) (fun _ => ues_est) (fun _ => if linear then linear_policy else ues_policy) ues_setb ues_setj
      (fun q => ues_trig (flat_map snd (q_edges q))) (fun _ => {| base_est := b; upper_bounds := []; freqs := fr |}) kind fuel bf eager q.
End Ues.
