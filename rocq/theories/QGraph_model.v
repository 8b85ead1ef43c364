(** Model of the annotated join graph of a query's predicates (QueryPredicates.join_graph, postbound/qal/_qal.py 4411-4481),
    of the two further strategies of QueryPredicates.joins_between (4807-4900), and of the SimpleJoin view (3944-4175).

    As in [Pred_model], [fs], [js] and [ts] enumerate the sets filters(), joins() and root.tables(); the query has predicates.
    A networkx graph is its nodes with their "predicate" attribute ([None] for a node that was only created by an edge) and its
    undirected edges with their label. *)
From Coq Require Import List Bool Arith.
From Verif Require Import PyBase Pred_model Expr_model.
Import ListNotations.

Section NX.
  Context {N A L : Type} {EN : EqD N}.
  Record nxgraph := mkg { g_nodes : dict N (option A); g_edges : list (N * N * L) }.
  Definition g_empty : nxgraph := mkg [] [].
  Definition same_edge (u v : N) (e : N * N * L) : bool :=
    let '(a, b, _) := e in (deqb u a && deqb v b) || (deqb u b && deqb v a).
  Definition has_edge (es : list (N * N * L)) (u v : N) : bool := existsb (same_edge u v) es.
  Definition edge_label (es : list (N * N * L)) (u v : N) : option L := option_map snd (find (same_edge u v) es).
  (** Graph.add_node with the attribute. *)
  Definition add_node (g : nxgraph) (n : N) (a : A) : nxgraph := mkg (dset (g_nodes g) n (Some a)) (g_edges g).
  Definition touch (ns : dict N (option A)) (n : N) : dict N (option A) := if dmem ns n then ns else dset ns n None.
  (** Graph.add_edge with a label: the label of an edge that exists is overwritten. *)
  Definition add_edge (g : nxgraph) (u v : N) (l : L) : nxgraph :=
    mkg (touch (touch (g_nodes g) u) v)
        (if has_edge (g_edges g) u v
         then map (fun e => if same_edge u v e then (fst e, l) else e) (g_edges g)
         else g_edges g ++ [(u, v, l)]).
  (** nx.contracted_nodes(g, u, v): the edges of [v] become edges of [u]; an edge that exists keeps its label (the other one is
      stored under the key "contraction", which nobody reads). *)
  Definition contract (g : nxgraph) (u v : N) : res nxgraph :=
    if negb (dmem (g_nodes g) v) then Raise KeyError else
    let at_v (e : N * N * L) := let '(a, b, _) := e in deqb a v || deqb b v in
    let r (n : N) := if deqb n v then u else n in
    Ok (fold_left (fun h e => let '(a, b, l) := e in if has_edge (g_edges h) (r a) (r b) then h else add_edge h (r a) (r b) l)
                  (filter at_v (g_edges g)) (mkg (ddel (g_nodes g) v) (filter (fun e => negb (at_v e)) (g_edges g)))).
  Fixpoint contract_all (g : nxgraph) (u : N) (vs : list N) : res nxgraph :=
    match vs with [] => Ok g | v :: r => rbind (contract g u v) (fun h => contract_all h u r) end.
End NX.
Arguments nxgraph : clear implicits.

Section QG.
  Context {E : Type} (ecols : E -> list col).
  Notation pred := (pred E).

  (** filters_for, 4484-4513: the conjunction of the filters that contain the table, if there are any. *)
  Definition conj (ps : list pred) : option pred := match ps with [] => None | [p] => Some p | _ => Some (PAnd ps) end.
  Definition node_filter (fs : list pred) (t : tbl) : option pred := conj (filters_for ecols fs t).

  (** join_graph(), 4442-4453.  networkx refuses None as a node (ValueError). *)
  Definition jgraph := nxgraph tbl (option pred) pred.
  Fixpoint add_pairs (j : pred) (ps : list (col * col)) (g : jgraph) : res jgraph :=
    match ps with
    | [] => Ok g
    | (x, y) :: r => match c_tab x, c_tab y with
                     | Some t, Some u => add_pairs j r (add_edge g t u j)
                     | _, _ => Raise ValueError
                     end
    end.
  Fixpoint add_joins (js : list pred) (g : jgraph) : res jgraph :=
    match js with
    | [] => Ok g
    | j :: r => rbind (join_partners ecols j) (fun ps => rbind (add_pairs j ps g) (fun g' => add_joins r g'))
    end.
  Definition join_graph (fs js : list pred) (ts : list tbl) : res jgraph :=
    add_joins js (fold_left (fun g t => add_node g t (node_filter fs t)) ts g_empty).

  (** join_graph(merge_aliases=True), 4455-4481.  [base] is TableReference.drop_alias.  The end points of the edges are taken
      from frozensets of columns, hence the nodes of the graph are tables and columns. *)
  Section Merged.
    Context (base : tbl -> tbl).
    Inductive gnode := GT (t : tbl) | GC (c : col).
    #[global] Instance EqD_gnode : EqD gnode.
    Proof. intros [t|c] [u|d]; try (right; discriminate). - destruct (eqd t u); [left|right]; congruence. - destruct (eqd c d); [left|right]; congruence. Defined.
    (** ColumnReference.drop_table_alias, _core.py 1106-1118. *)
    Definition drop_table_alias (c : col) : col := match c_tab c with Some t => mkcol (Some (base t)) (c_name c) | None => c end.
    (** The attributes of a node: the filter of every alias; the aliases are its keys. *)
    Definition alias_filters := dict tbl (option pred).
    (** The label of an edge: the join predicate per pair of columns.  A frozenset of two columns is its ordered pair. *)
    Definition col_joins := dict (col * col) pred.
    Definition mgraph := nxgraph gnode alias_filters col_joins.
    (** table2alias, table2preds, 4455-4462 *)
    Definition group_aliases (fs : list pred) (ts : list tbl) : dict tbl alias_filters :=
      fold_left (fun d t => dset d (base t) (dset (match dget d (base t) with Some a => a | None => [] end) t (node_filter fs t))) ts [].
    (** col2join, 4466-4470 *)
    Fixpoint col2join (js : list pred) (d : col_joins) : res col_joins :=
      match js with
      | [] => Ok d
      | j :: r => rbind (join_partners ecols j) (fun ps => col2join r (fold_left (fun d p => dset d (norm_pair p) j) ps d))
      end.
    (** tab2join, 4472-4475 *)
    Definition tab2join (d : col_joins) : dict (col * col) col_joins :=
      fold_left (fun m e => let k := norm_pair (drop_table_alias (fst (fst e)), drop_table_alias (snd (fst e))) in
                            dset m k (dset (match dget m k with Some x => x | None => [] end) (fst e) (snd e))) d [].
    (** 4477-4479: unpacking a frozenset with one element is a ValueError *)
    Fixpoint add_merged (es : list (col * col * col_joins)) (g : mgraph) : res mgraph :=
      match es with
      | [] => Ok g
      | (a, b, l) :: r => if deqb a b then Raise ValueError else add_merged r (add_edge g (GC a) (GC b) l)
      end.
    Definition join_graph_merged (fs js : list pred) (ts : list tbl) : res mgraph :=
      rbind (col2join js []) (fun d =>
      add_merged (tab2join d) (fold_left (fun g e => add_node g (GT (fst e)) (snd e)) (group_aliases fs ts) g_empty)).
  End Merged.

  (** AbstractPredicate.joins_table, 2251-2270. *)
  Definition joins_table (j : pred) (t : tbl) : res bool :=
    if negb (is_join ecols j) then Ok false
    else rmap (existsb (fun '(x, y) => belongs_to x t || belongs_to y t)) (join_partners ecols j).
  Fixpoint filterM {A} (f : A -> res bool) (l : list A) : res (list A) :=
    match l with [] => Ok [] | x :: r => rbind (f x) (fun b => rbind (filterM f r) (fun r' => Ok (if b then x :: r' else r'))) end.
  (** joins_between(.., _computation="legacy") for two tables, 4831-4842; the result is what is passed to create_and. *)
  Definition legacy_single (js : list pred) (x y : tbl) : res (list pred) :=
    if deqb x y then Ok []
    else rbind (joins_for ecols js x) (fun l => filterM (fun j => joins_table j y) l).
  (** ... and for collections of tables, 4844-4852: the recursive call does not pass the strategy on. *)
  Definition legacy_many (m : dict (list nat) pred) (xs ys : list tbl) : list pred :=
    flat_map (fun x => flat_map (fun y =>
      match conj (map_joins_between m [x] [y]) with Some j => [j] | None => [] end) (dedup ys)) (dedup xs).
  (** joins_between(.., _computation="graph"), 4875-4900, for non-empty collections [x :: xs] and [y :: ys]. *)
  Definition graph_between (fs js : list pred) (ts : list tbl) (x : tbl) (xs : list tbl) (y : tbl) (ys : list tbl) : res (option pred) :=
    rbind (join_graph fs js ts) (fun g =>
    rbind (contract_all g x xs) (fun g => rbind (contract_all g y ys) (fun g => Ok (edge_label (g_edges g) x y)))).
End QG.

(** ** SimpleJoin, 3944-4175 *)
Record sjoin := mksj { sj_pred : pred sx; sj_l : col; sj_r : col }.
(** __init__, 4060-4084; wrap 4007 *)
Definition wrap_join (p : pred sx) : res sjoin :=
  match p with
  | PBin op a b =>
      if negb (is_join x_direct p) then Raise ValueError
      else if negb (deqb op OpEq) then Raise ValueError
      else rbind (unwrap_expr a) (fun l => rbind (unwrap_expr b) (fun r =>
           match l, r with UCol l, UCol r => Ok (mksj p l r) | _, _ => Raise ValueError end))
  | _ => Raise ValueError
  end.
(** can_wrap, 4010-4031: what [_unwrap_expression] raises is not caught *)
Definition can_wrap_join (p : pred sx) : res bool :=
  match p with
  | PBin op a b =>
      if negb (is_join x_direct p) then Ok false
      else if negb (deqb op OpEq) then Ok false
      else rbind (unwrap_expr a) (fun l => rbind (unwrap_expr b) (fun r =>
           Ok (match l, r with UCol _, UCol _ => true | _, _ => false end)))
  | _ => Ok false
  end.
(** wrap_all, 4051-4058 *)
Fixpoint wrap_all_joins (ps : list (pred sx)) : list sjoin :=
  match ps with
  | [] => []
  | p :: r => match wrap_join p with Ok v => v :: wrap_all_joins r | Raise _ => wrap_all_joins r end
  end.
(** joins, 4103-4110, for a table and for a column *)
Definition sj_joins_table (v : sjoin) (t : tbl) : bool := deqb (c_tab (sj_l v)) (Some t) || deqb (c_tab (sj_r v)) (Some t).
Definition sj_joins_column (v : sjoin) (c : col) : bool := deqb (sj_l v) c || deqb (sj_r v) c.
(** partner_of, 4122-4133.  The partner of a table is the [table] attribute of a column, which may be None itself. *)
Definition partner_of_table (v : sjoin) (t : tbl) : option tbl :=
  if negb (sj_joins_table v t) then None
  else if deqb (c_tab (sj_l v)) (Some t) then c_tab (sj_r v) else c_tab (sj_l v).
Definition partner_of_column (v : sjoin) (c : col) : option col :=
  if negb (sj_joins_column v c) then None else if deqb (sj_l v) c then Some (sj_r v) else Some (sj_l v).
(** columns 4141-4142, join_partners 4150-4151 *)
Definition sj_columns (v : sjoin) : list col := [sj_l v; sj_r v].
Definition sj_join_partners (v : sjoin) : list (col * col) := [(sj_l v, sj_r v)].
