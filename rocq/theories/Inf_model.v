(** Model of the lookups of the join graph, postbound/opt/_joingraph.py 646-669, 1114-1148 (on the graph of JG_model); of TableInfo of
    database schemas, postbound/db/_db.py 726-747; of _query_plan_labels, postbound/vis/optimizer.py 327-353; and of actual_plan_cost,
    postbound/opt/_analysis.py 70-95.

    Simplifications: tables of schemas are names; hints and costs of databases are functions. *)
From Coq Require Import List Bool Arith ZArith Ascii String.
From Verif Require Import PyBase Ident_model JG_model.
Import ListNotations.

Section Graph.
  Context {T C : Type} {ET : EqD T} {EC : EqD C} (tab : C -> T).
  Definition has_table (g : @jg T C) (t : T) : bool := mem t (dkeys (g_nodes g)).
  (** The neighbours of a table with the predicates of the edges (adj of the graph library) *)
  Definition neighbours (g : @jg T C) (t : T) : list (T * list (C * C)) :=
    flat_map (fun e => if deqb (fst (fst e)) t then [(snd (fst e), snd e)] else if deqb (snd (fst e)) t then [(fst (fst e), snd e)] else []) (g_edges g).
  (** available_join_paths_for 646-669 *)
  Definition available_join_paths_for (h : heap) (g : @jg T C) (t : T) : res (list (T * T * list (C * C))) :=
    if has_table g t then Ok (map (fun n => (t, fst n, snd n)) (filter (fun n => is_available_join h g t (fst n)) (neighbours g t)))
    else Raise ValueError.
  (** _index_info_for 1114-1132, __getitem__ 1143-1148 *)
  Definition table_info (h : heap) (g : @jg T C) (t : T) : res (bool * list (C * ixinfo)) :=
    if has_table g t then
      rmap (fun free => (free, map (fun e => (fst e, index_at h (snd e))) (filter (fun e => deqb t (tab (fst e))) (g_index g)))) (is_free h g t)
    else Raise KeyError.
End Graph.

(** ** TableInfo of schemas: a column is its name and its table, if any. *)
Record column := { c_name : string; c_table : option string }.
Record colinfo := { ci_column : column; ci_datatype : string }.
(** ColumnReference.__eq__, _core.py 1137-1142 *)
Definition column_eq (a b : column) : bool := deqb (normalize (c_name a)) (normalize (c_name b)) && deqb (c_table a) (c_table b).
Inductive key := KName (s : string) | KColumn (c : column).
(** __getitem__ 735-741; ColumnReference.__init__, _core.py 1004-1005, for empty names *)
Definition get_column (table : string) (columns : list colinfo) (k : key) : res colinfo :=
  let look c := match find (fun i => column_eq (ci_column i) c) columns with Some i => Ok i | None => Raise KeyError end in
  match k with
  | KName s => if deqb s ""%string then Raise ValueError else look {| c_name := s; c_table := Some table |}
  | KColumn c => look c
  end.
(** __iter__ 746-747 *)
Definition iterate (columns : list colinfo) : list column := map ci_column columns.

(** ** Labels of plans *)
Inductive kind := Join | Scan (table : string) | Auxiliary.
Inductive node := Node (k : kind) (type : string) (subplan : option (string * node)).
Definition nl : string := String (ascii_of_nat 10) EmptyString.
Open Scope string_scope.
(** _query_plan_labels 327-353; [annotate] gives the empty text for no annotations. *)
Fixpoint plan_label (annotate : node -> string) (target : string) (n : node) : string :=
  match n with
  | Node k type sub =>
      let l := match sub with
               | Some (name, root) => "<<SubPlan>> " ++ target ++ nl ++ plan_label annotate name root
               | None => match k with Join => type | Scan t => "<<" ++ type ++ ">>" ++ nl ++ t | Auxiliary => type end
               end in
      let l := match sub with Some (name, _) => l ++ nl ++ "Subplan: " ++ name | None => l end in
      if deqb (annotate n) "" then l else l ++ nl ++ annotate n
  end.
Close Scope string_scope.

(** ** actual_plan_cost 70-95: without a database, the pool itself is used, which does not have hinting(). *)
Section Cost.
  Context {D Q P : Type} (hints : D -> Q -> P -> Q) (cost : D -> Q -> Z) (is_analyze : P -> bool) (with_actual_card : P -> P).
  Definition actual_plan_cost (pool : list (string * D)) (q : Q) (p : P) (db : option D) : res Z :=
    if is_analyze p then
      match db with
      | Some d => Ok (cost d (hints d q (with_actual_card p)))
      | None => Raise AttributeError
      end
    else Raise ValueError.
End Cost.
