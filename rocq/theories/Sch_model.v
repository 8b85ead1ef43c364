(** Model of the database schemas: DatabaseSchema (postbound/db/_db.py 748-1590) and its specialisations
    PostgresSchemaInterface (postbound/postgres.py 1339-1628), MysqlSchemaInterface (postbound/mysql.py 280-406) and
    DuckDBSchema (postbound/duckdb.py 237-382).

    The database server is modelled by its catalog: the constraints and indexes that were declared.  The views of the
    catalog that the code queries (information_schema.table_constraints, key_column_usage, constraint_column_usage,
    pg_index with pg_attribute, duckdb_constraints) are computed from it as documented by the systems, and the SQL text of
    the queries is modelled by joins over these views.  Simplified: one database and one schema, so the conditions on
    catalogs and schemas always hold; names are compared exactly; tables are given by their names. *)
From Coq Require Import List Bool Arith.
From Verif Require Import PyBase Graph.
Import ListNotations.

Set Implicit Arguments.

Section Catalog.
  Context {N : Type} {EN : EqD N}.   (* names *)

  Inductive kkind := KPrimary | KUnique | KForeign | KCheck.
  Definition kkind_eqb (a b : kkind) : bool :=
    match a, b with KPrimary, KPrimary | KUnique, KUnique | KForeign, KForeign | KCheck, KCheck => true | _, _ => false end.

  (** A declared constraint: its name, its table, its columns and, for foreign keys, the referenced table and columns. *)
  Record constr := mkk { k_name : N; k_tab : N; k_kind : kkind; k_cols : list N; k_ref : N; k_rcols : list N }.
  (** A declared index. *)
  Record index := mki { i_name : N; i_tab : N; i_cols : list N; i_prim : bool }.
  Record catalog := mkcat { constrs : list constr; indexes : list index }.

  (** A bound column: its table and its name. *)
  Notation bcol := (N * N)%type.

  (** *** The views *)
  (** information_schema.table_constraints: (constraint_name, table_name, constraint_type). *)
  Definition v_tc (cat : catalog) : list (N * N * kkind) := map (fun k => (k_name k, k_tab k, k_kind k)) (constrs cat).
  (** information_schema.key_column_usage: (constraint_name, table_name, column_name) of the restricted columns of keys. *)
  Definition v_kcu (cat : catalog) : list (N * N * N) :=
    flat_map (fun k => match k_kind k with KCheck => [] | _ => map (fun c => (k_name k, k_tab k, c)) (k_cols k) end) (constrs cat).
  (** information_schema.constraint_column_usage: the used columns; those of the referenced table for foreign keys. *)
  Definition v_ccu (cat : catalog) : list (N * N * N) :=
    flat_map (fun k => match k_kind k with
                       | KForeign => map (fun c => (k_name k, k_ref k, c)) (k_rcols k)
                       | _ => map (fun c => (k_name k, k_tab k, c)) (k_cols k) end) (constrs cat).

  (** SELECT ... FROM table_constraints tc JOIN view u USING (constraint_name, table_name) WHERE tc.table_name = t AND
      [tc.constraint_type IN kinds]: the rows (constraint name, column name).  _db.py 987-1001, 1037-1050, 1112-1126,
      1126-1140, 1291-1305, 1305-1319. *)
  Definition q_own (cat : catalog) (view : list (N * N * N)) (kinds : list kkind) (t : N) : list (N * N) :=
    flat_map (fun '(n, t1, kd) =>
      flat_map (fun '(n', t', c) =>
        if deqb n n' && deqb t1 t' && deqb t1 t && existsb (kkind_eqb kd) kinds then [(n, c)] else []) view) (v_tc cat).
  Definition q_col (c : N) (rows : list (N * N)) : list (N * N) := filter (fun r => deqb (snd r) c) rows.

  (** DatabaseSchema.is_primary_key, _db.py 956-1012. *)
  Definition is_primary_key (cat : catalog) (t c : N) : bool :=
    match q_col c (q_own cat (v_ccu cat) [KPrimary] t) with [] => false | _ => true end.

  (** DatabaseSchema.primary_key_column, _db.py 1014-1066. *)
  Definition primary_key_column (cat : catalog) (t : N) : res (option bcol) :=
    match q_own cat (v_ccu cat) [KPrimary] t with
    | [] => Ok None
    | [r] => Ok (Some (t, snd r))
    | _ => Raise ValueError
    end.

  (** DatabaseSchema.has_secondary_index, _db.py 1068-1156 (the UNION only removes duplicates). *)
  Definition has_secondary_index (cat : catalog) (t c : N) : bool :=
    match q_col c (q_own cat (v_ccu cat) [KUnique] t) ++ q_col c (q_own cat (v_kcu cat) [KForeign] t) with [] => false | _ => true end.

  (** DatabaseSchema.has_index, _db.py 1223-1252. *)
  Definition has_index (cat : catalog) (t c : N) : bool := is_primary_key cat t c || has_secondary_index cat t c.

  (** DatabaseSchema.indexes_on, _db.py 1254-1337. *)
  Definition indexes_on (cat : catalog) (t c : N) : list N :=
    dedup (map fst (q_col c (q_own cat (v_ccu cat) [KPrimary; KUnique] t) ++ q_col c (q_own cat (v_kcu cat) [KForeign] t))).

  (** The joins of the foreign key queries: the rows (table, column) of constraint_column_usage with the name of a foreign
      key constraint that restricts the column.  [same_tab] tells whether the constraint is also joined by its table:
      _db.py 1190-1209 does, postgres.py 1493-1506 does not. *)
  Definition q_foreign (same_tab : bool) (cat : catalog) (t c : N) : list bcol :=
    flat_map (fun '(n1, t1, c1) =>
      if deqb t1 t && deqb c1 c then
        flat_map (fun '(n2, t2, kd) =>
          if deqb n1 n2 && (negb same_tab || deqb t1 t2) && kkind_eqb kd KForeign then
            flat_map (fun '(n3, t3, c3) => if deqb n1 n3 then [(t3, c3)] else []) (v_ccu cat)
          else []) (v_tc cat)
      else []) (v_kcu cat).

  (** DatabaseSchema.foreign_keys_on, _db.py 1158-1221: the query selects (table_schema, table_name, column_name), but the
      first two entries become table and column.  [sch] is the name of the schema. *)
  Definition foreign_keys_on (sch : N) (cat : catalog) (t c : N) : list bcol :=
    dedup (map (fun '(t3, c3) => (sch, t3)) (q_foreign true cat t c)).

  (** PostgresSchemaInterface.foreign_keys_on, postgres.py 1487-1516. *)
  Definition pg_foreign_keys_on (cat : catalog) (t c : N) : list bcol := dedup (q_foreign false cat t c).

  (** key_column_usage of MySQL also has the referenced columns: (table, column, referenced table, referenced column). *)
  Definition v_my_kcu (cat : catalog) : list (N * N * option bcol) :=
    flat_map (fun k => match k_kind k with
                       | KForeign => map (fun '(c, r) => (k_tab k, c, Some (k_ref k, r))) (combine (k_cols k) (k_rcols k))
                       | KCheck => []
                       | _ => map (fun c => (k_tab k, c, None)) (k_cols k) end) (constrs cat).
  (** MysqlSchemaInterface.foreign_keys_on, mysql.py 345-361. *)
  Definition my_foreign_keys_on (cat : catalog) (t c : N) : list bcol :=
    dedup (flat_map (fun '(t1, c1, r) => match r with
                                         | Some d => if deqb t1 t && deqb c1 c then [d] else []
                                         | None => [] end) (v_my_kcu cat)).

  (** DuckDBSchema.foreign_keys_on, duckdb.py 336-382: constraints on exactly this column, first referenced column. *)
  Definition duck_foreign_keys_on (cat : catalog) (t c : N) : list bcol :=
    dedup (flat_map (fun k => if kkind_eqb (k_kind k) KForeign && deqb (k_tab k) t && deqb (k_cols k) [c]
                              then match k_rcols k with r :: _ => [(k_ref k, r)] | [] => [] end else []) (constrs cat)).

  (** *** Indexes of PostgreSQL *)
  (** pg_index joined with the attributes of the index: (index name, table, column, indisprimary). *)
  Definition v_index (cat : catalog) : list (N * N * N * bool) :=
    flat_map (fun i => map (fun c => (i_name i, i_tab i, c, i_prim i)) (dedup (i_cols i))) (indexes cat).

  (** The query of PostgresSchemaInterface._fetch_indexes, postgres.py 1606-1617: (column, indisprimary). *)
  Definition q_indexes (cat : catalog) (t : N) : list (N * bool) :=
    flat_map (fun '(n, t1, c, p) => if deqb t1 t then [(c, p)] else []) (v_index cat).
  (** dict(result_set), postgres.py 1621; [rows] is the result set in the order in which the server delivered it. *)
  Definition index_map (rows : list (N * bool)) : dict N bool := dict_of rows.
  (** PostgresSchemaInterface.is_primary_key, postgres.py 1402-1408. *)
  Definition pg_is_primary_key (rows : list (N * bool)) (c : N) : bool :=
    match dget (index_map rows) c with Some b => b | None => false end.
  (** PostgresSchemaInterface.has_secondary_index, postgres.py 1410-1422. *)
  Definition pg_has_secondary_index (rows : list (N * bool)) (c : N) : bool :=
    negb match dget (index_map rows) c with Some b => b | None => true end.
  (** has_index (inherited, _db.py 1223-1252) with the two methods of PostgreSQL. *)
  Definition pg_has_index (rows rows' : list (N * bool)) (c : N) : bool := pg_is_primary_key rows c || pg_has_secondary_index rows' c.
  (** PostgresSchemaInterface.indexes_on, postgres.py 1424-1449. *)
  Definition pg_indexes_on (cat : catalog) (t c : N) : list N :=
    dedup (flat_map (fun '(n, t1, c1, p) => if deqb t1 t && deqb c1 c then [n] else []) (v_index cat)).
  (** PostgresSchemaInterface.indexed_column, postgres.py 1451-1485: the query and the first row of the result. *)
  Definition q_indexed (cat : catalog) (i : N) : list bcol :=
    flat_map (fun '(n, t, c, p) => if deqb n i then [(t, c)] else []) (v_index cat).
  Definition pg_indexed_column (rows : list bcol) : option bcol := hd_error rows.

  (** *** The schema as a graph *)
  (** ForeignKeyRef, _db.py 707. *)
  Notation fkref := (bcol * bcol)%type.
  Record sgraph := mksg { g_nodes : list N; g_edges : dict (N * N) (list fkref) }.
  Definition add_node (g : sgraph) (t : N) : sgraph := mksg (if mem t (g_nodes g) then g_nodes g else g_nodes g ++ [t]) (g_edges g).

  Section Graph.
    Context (tables : list N) (is_view : N -> bool) (colnames : N -> list N) (fks : bcol -> list bcol) (pk : N -> res (option bcol)).
    (** DatabaseSchema.columns, _db.py 817-871: the names of the columns, bound to the table. *)
    Definition columns (t : N) : list bcol := map (fun c => (t, c)) (colnames t).

    (** as_graph, first loop: _db.py 1458-1467.  The attributes of the nodes (columns, types, primary key) are left out;
        computing the primary key can fail. *)
    Fixpoint graph_nodes (ts : list N) (g : sgraph) (cols : list bcol) : res (sgraph * list bcol) :=
      match ts with
      | [] => Ok (g, cols)
      | t :: r => if is_view t then graph_nodes r g cols
                  else rbind (pk t) (fun _ => graph_nodes r (add_node g t) (cols ++ columns t))
      end.
    (** as_graph, second loop: _db.py 1469-1478. *)
    Definition graph_edge (g : sgraph) (r : fkref) : sgraph :=
      let e := (fst (fst r), fst (snd r)) in
      match dget (g_edges g) e with
      | Some l => mksg (g_nodes g) (dset (g_edges g) e (l ++ [r]))
      | None => let g' := add_node (add_node g (fst e)) (snd e) in mksg (g_nodes g') (dset (g_edges g') e [r])
      end.
    (** [iter] is the order in which the set of all columns is traversed. *)
    Definition as_graph (iter : list bcol -> list bcol) : res sgraph :=
      rmap (fun '(g, cols) => fold_left graph_edge (flat_map (fun c => map (fun d => (c, d)) (fks c)) (iter (dedup cols))) g)
           (graph_nodes tables (mksg [] []) []).

    (** The graph of join_equivalence_keys and join_equivalence_classes, _db.py 1499-1503 and 1522-1526. *)
    Definition fk_edges : list (bcol * bcol) := flat_map (fun c => map (fun d => (c, d)) (fks c)) (flat_map columns tables).
    Definition fk_nodes : list bcol := dedup (flat_map (fun e => [fst e; snd e]) fk_edges).
    (** nx.connected_components: the nodes in order, skipping those that were already seen. *)
    Fixpoint components (ns : list bcol) (es : list (bcol * bcol)) (todo seen : list bcol) : list (list bcol) :=
      match todo with
      | [] => []
      | x :: r => if mem x seen then components ns es r seen
                  else let k := reachable ns es x in k :: components ns es r (k ++ seen)
      end.
    (** join_equivalence_classes, _db.py 1512-1527. *)
    Definition join_classes : list (list bcol) := components fk_nodes fk_edges fk_nodes [].
    (** join_equivalence_keys, _db.py 1482-1510. *)
    Definition join_keys : dict bcol (list bcol) :=
      fold_left (fun d k => fold_left (fun d c => dset d c k) k d) join_classes [].

    (** *** Lookups *)
    (** A column to look up: a text, an unbound column or a column of a table. *)
    Inductive lcol := LName (c : N) | LFree (c : N) | LBound (t c : N).
    Definition lname (l : lcol) : N := match l with LName c | LFree c => c | LBound _ c => c end.
    (** Equality with a bound column: a text is not a column, ColumnReference.__eq__ (_core.py 1137-1142) compares the
        tables. *)
    Definition lcol_eqb (l : lcol) (b : bcol) : bool := match l with LBound t c => deqb (t, c) b | _ => false end.

    (** DatabaseSchema.lookup_column, _db.py 911-954. *)
    Fixpoint lookup_column (l : lcol) (cands : list N) (expect : bool) : res (option N) :=
      match cands with
      | [] => if expect then Raise ValueError else Ok None
      | t :: r => if existsb (lcol_eqb l) (columns t) then Ok (Some t) else lookup_column l r expect
      end.
    (** MysqlSchemaInterface.lookup_column, mysql.py 284-303. *)
    Fixpoint my_lookup_column (l : lcol) (cands : list N) (expect : bool) : res (option N) :=
      match cands with
      | [] => if expect then Raise ValueError else Ok None
      | t :: r => if mem (lname l) (colnames t) then Ok (Some t) else my_lookup_column l r expect
      end.
    (** PostgresSchemaInterface.lookup_column, postgres.py 1374-1400; [lower] is str.lower, [iter] the order of a set. *)
    Fixpoint pg_lookup_in (lower : N -> N) (c : N) (cands : list N) (expect : bool) : res (option N) :=
      match cands with
      | [] => if expect then Raise ValueError else Ok None
      | t :: r => if mem c (colnames t) || mem (lower c) (colnames t) then Ok (Some t) else pg_lookup_in lower c r expect
      end.
    Definition pg_lookup_column (lower : N -> N) (iter : list N -> list N) (l : lcol) (cands : list N) (expect : bool) : res (option N) :=
      pg_lookup_in lower (lname l) (if 5 <? length cands then iter (dedup cands) else cands) expect.
  End Graph.

  (** *** The tables of PostgreSQL *)
  (** PostgresSchemaInterface.tables, postgres.py 1352-1372: [stored schema] are the tables of a schema on the server,
      [system] the names starting with pg_; the state is the cached set. *)
  Definition pg_tables (stored : N -> list N) (system : N -> bool) (cache : list N) (incl : bool) (sch : N) : list N * list N :=
    match cache with
    | _ :: _ => (cache, cache)
    | [] => let ts := dedup (stored sch) in
            let ts := if incl then ts else filter (fun t => negb (system t)) ts in (ts, ts)
    end.

  (** *** Access by text: DatabaseSchema.__getitem__, _db.py 1535-1579 *)
  (** A text without and with a "." (split at the first one). *)
  Inductive gkey := GPlain (s : N) | GDotted (whole a b : N).
  Inductive info := ITable (t : N) | IColumn (t c : N).
  (** [graph_nodes g] of as_graph and [has_column] describe the server: as the table of the key is looked up in the graph,
      an unknown one makes networkx raise NetworkXError (out_edges), which is no KeyError (OtherError here); data types are fetched with an
      assertion that the column exists (postgres.py 1528-1531). *)
  Definition getitem_table (gr : res sgraph) (t : N) : res info :=
    rbind gr (fun g => if mem t (g_nodes g) then Ok (ITable t) else Raise OtherError).
  Definition getitem_column (has_column : N -> N -> bool) (t c : N) : res info :=
    if has_column t c then Ok (IColumn t c) else Raise AssertionError.
  Definition getitem_text (gr : res sgraph) (has_column : N -> N -> bool) (k : gkey) : res info :=
    match getitem_table gr match k with GPlain s => s | GDotted w _ _ => w end with
    | Raise KeyError => match k with
                        | GPlain _ => Raise ValueError
                        | GDotted _ a b => match getitem_column has_column b a with
                                           | Raise KeyError => Raise KeyError
                                           | r => r end end
    | r => r
    end.
End Catalog.
Arguments catalog : clear implicits.
Arguments constr : clear implicits.
