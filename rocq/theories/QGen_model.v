(** Model of the random query generator, postbound/experiments/querygen.py 29-333.

    Tables are numbers, a column is a pair of its table and its own number.  The graph of the schema (DatabaseSchema.as_graph,
    db/_db.py 1441-1480, see Sch_model) is given by the tables with their columns and an edge for each pair of tables with
    foreign keys from the first to the second; tables without the attribute "columns" are left out.  Random choices are
    arbitrary: a draw has all choices of one round of the loop.  The numbers of tables and filters are natural numbers. *)
From Coq Require Import String List Bool Arith Lia.
From Verif Require Import PyBase Enum_model.
Import ListNotations.

Definition col : Type := nat * nat.
(** as_graph: nodes with columns, edges with the attribute foreign_keys: pairs (fk_col, referenced_col) *)
Record sgraph := mksg { s_nodes : list (nat * list col); s_edges : list (nat * nat * list (col * col)) }.
(** candidate_operators 102-107 *)
Inductive gop := GEqual | GNotEqual | GGreater | GLess.
Definition gops : list gop := [GEqual; GNotEqual; GGreater; GLess].

Section QGen.
  Context {V : Type} (falsy : V -> bool).
  Inductive gpred := GJoin (a b : col) | GFilter (c : col) (o : gop) (v : V) | GAnd (l : list gpred).
  Record gquery := mkgq { g_count : bool; g_from : list nat; g_where : option gpred }.
  (** The database: names of internal tables, keys, data types and the distinct values of a column (a sample for PostgreSQL) *)
  Record gdb := mkgdb { d_postgres : bool; d_internal : nat -> bool; d_primary : col -> bool; d_foreign : col -> bool; d_type : col -> string; d_values : col -> list V }.
  (** The arguments of generate_query 150-161 *)
  Record gargs := mkga { a_count : bool; a_ignore : list nat; a_min_tables : option nat; a_max_tables : option nat; a_min_filters : option nat; a_max_filters : option nat; a_keys : bool; a_numeric : bool }.
  Record draw := mkd { r_tables : nat; r_walk : nat -> nat; r_key : nat -> nat -> nat; r_filters : nat; r_sample : nat -> list col -> list col; r_op : col -> nat; r_value : col -> nat }.
  (** random.randint(lo, hi) *)
  Definition randint (c lo hi : nat) : nat := lo + c mod (Datatypes.S hi - lo).

  (** CompoundPredicate.create_and, qal/_qal.py 3170-3197.  A part can be None, but only if it is the only one. *)
  Definition create_and (l : list (option gpred)) : res (option gpred) :=
    match l with
    | [] => Raise ValueError
    | [p] => Ok p
    | _ => rmap (fun l => Some (GAnd l)) (rmapM (fun p => match p with Some p => Ok p | None => Raise AttributeError end) l)
    end.
  (** schema.get_edge_data, 60-64 *)
  Definition edge_data (g : sgraph) (a b : nat) : option (list (col * col)) := dget (s_edges g) (a, b).
  Definition fk_edge (g : sgraph) (a b : nat) : option (list (col * col)) := match edge_data g a b with Some l => Some l | None => edge_data g b a end.
  (** _generate_join_predicates 29-76 *)
  Fixpoint join_list (d : draw) (g : sgraph) (tables : list nat) : res (list gpred) :=
    match tables with
    | [] => Ok []
    | t :: r =>
        rbind (rmapM (fun u => match fk_edge g t u with None => Ok [] | Some keys => rmap (fun k => [GJoin (snd k) (fst k)]) (choose (r_key d t u) keys) end) r) (fun l =>
        rmap (app (List.concat l)) (join_list d g r))
    end.
  Definition join_predicates (d : draw) (g : sgraph) (tables : list nat) : res (option gpred) := rbind (join_list d g tables) (fun l => create_and (map Some l)).
  (** _generate_filter 79-133: a single value is not in a list ([simplify_result_set], db/_db.py 275-286), and is tested itself *)
  Definition candidates (db : gdb) (c : col) : list V :=
    match d_values db c with [] => [] | [v] => if falsy v then [] else [v] | l => l end.
  Definition gen_filter (d : draw) (db : gdb) (c : col) : res (option gpred) :=
    match candidates db c with
    | [] => Ok None
    | l => rbind (choose (r_value d c) l) (fun v => rbind (choose (r_op d c) gops) (fun o => Ok (Some (GFilter c o v))))
    end.
  (** _is_numeric 136-147 *)
  Definition is_numeric (t : string) : bool :=
    existsb (String.eqb t) ["integer"; "smallint"; "bigint"; "date"; "double precision"; "real"; "numeric"; "decimal"]%string || String.prefix "time" t.

  (** 227-251 *)
  Definition restrict (g : sgraph) (keep : nat -> bool) : sgraph := mksg (filter (fun n => keep (fst n)) (s_nodes g)) (filter (fun e => keep (fst (fst e)) && keep (snd (fst e))) (s_edges g)).
  Definition graph_for (db : gdb) (a : gargs) (g : sgraph) : sgraph :=
    let g := restrict g (fun t => negb (mem t (a_ignore a))) in if d_postgres db then restrict g (fun t => negb (d_internal db t)) else g.
  (** [x or default] *)
  Definition or_else (x : option nat) (default : nat) : nat := match x with Some (Datatypes.S n) => Datatypes.S n | _ => default end.
  Definition min_tables (a : gargs) : nat := or_else (a_min_tables a) 1.
  Definition max_tables (a : gargs) (g : sgraph) : nat := Nat.min (or_else (a_max_tables a) (length (s_nodes g))) (length (s_nodes g)).
  Definition min_filters (a : gargs) : nat := or_else (a_min_filters a) 0.
  Definition max_filters (a : gargs) (g : sgraph) : nat := or_else (a_max_filters a) (length (flat_map snd (s_nodes g))).
  (** to_undirected; edges of a table to itself make no difference for the walk, nx.py 116 *)
  Definition undirected (g : sgraph) : list (nat * nat) := filter (fun e => negb (Nat.eqb (fst e) (snd e))) (map fst (s_edges g)).
  (** 266-285 *)
  Definition available (db : gdb) (a : gargs) (g : sgraph) (tables : list nat) : list col :=
    let cols := flat_map snd (filter (fun n => mem (fst n) tables) (s_nodes g)) in
    let cols := if a_keys a then cols else filter (fun c => negb (d_primary db c) && negb (d_foreign db c)) cols in
    if a_numeric a then filter (fun c => is_numeric (d_type db c)) cols else cols.
  (** 301-315 *)
  Definition filter_predicates (d : draw) (db : gdb) (n : nat) (cols : list col) : res (option gpred) :=
    if (0 <? n) && negb (match cols with [] => true | _ => false end)
    then rbind (rmapM (gen_filter d db) (r_sample d n cols)) (fun l =>
         match filter (fun p => match p with Some _ => true | None => false end) l with [] => Ok None | l => create_and l end)
    else Ok None.
  (** 318-326: the default case appends the join predicates *)
  Fixpoint where_parts (joins : option gpred) (l : list (option gpred)) : list (option gpred) :=
    match l with
    | [] => []
    | None :: r => where_parts joins r
    | Some (GAnd children) :: r => map Some children ++ where_parts joins r
    | Some _ :: r => joins :: where_parts joins r
    end.
  (** 328-330; Where(None) is a ValueError, _qal.py 7137-7139 *)
  Definition where_clause (parts : list (option gpred)) : res (option gpred) :=
    match parts with [] => Ok None | _ => rbind (create_and parts) (fun p => match p with Some p => Ok (Some p) | None => Raise ValueError end) end.
  (** One round of the loop 256-333; None: continue *)
  Definition round (db : gdb) (a : gargs) (g : sgraph) (d : draw) : res (option gquery) :=
    let n := randint (r_tables d) (min_tables a) (max_tables a g) in
    rbind (random_walk (length (s_nodes g)) (r_walk d) (map fst (s_nodes g)) (undirected g) None) (fun walk =>
    let tables := firstn n walk in
    let cols := available db a g tables in
    rbind (if 1 <? n then join_predicates d g tables else Ok None) (fun joins =>
    let current := Nat.min (max_filters a g) (length cols) in
    if current <=? min_filters a then Ok None
    else rbind (filter_predicates d db (randint (r_filters d) (min_filters a) current) cols) (fun filters =>
         rbind (where_clause (where_parts joins [joins; filters])) (fun w => Ok (Some (mkgq (a_count a) tables w)))))).
  (** The next query of the generator, and the number of rounds so far; None: not within [fuel] rounds *)
  Fixpoint rounds (db : gdb) (a : gargs) (g : sgraph) (draws : nat -> draw) (k fuel : nat) : res (option (gquery * nat)) :=
    match fuel with
    | 0 => Ok None
    | Datatypes.S fuel => rbind (round db a g (draws k)) (fun q => match q with Some q => Ok (Some (q, Datatypes.S k)) | None => rounds db a g draws (Datatypes.S k) fuel end)
    end.
  Definition generate (db : gdb) (a : gargs) (g : sgraph) (draws : nat -> draw) (k fuel : nat) : res (option (gquery * nat)) :=
    let g := graph_for db a g in if max_tables a g <? min_tables a then Raise ValueError else rounds db a g draws k fuel.
End QGen.
