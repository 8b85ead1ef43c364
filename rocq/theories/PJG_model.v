(** Model of plot_join_graph, postbound/vis/optimizer.py 48-173; of merged_annotation and setup_annotations 294-324; and of the escaping of
    labels for relational algebra 448-458.

    Simplifications: a drawing is the list of its nodes (identifier, label, colour) and edges (start, target, directed); annotations of
    tables are texts; texts to be escaped are lists of characters. *)
From Coq Require Import List Bool Arith Ascii String.
From Verif Require Import PyBase Ident_model JG_model.
Import ListNotations.

Record drawing := { d_nodes : list (string * string * string); d_edges : list (string * string * bool) }.
Definition nl : string := String (ascii_of_nat 10) EmptyString.
(** Lines 92-95, 112-115 *)
Definition table_label (name : string) (annotation : option string) : string := (name ++ match annotation with Some a => nl ++ a | None => "" end)%string.

(** ** Join graphs: _plot_join_graph_directly 105-128 *)
Section Graph.
  Context {T C : Type} {ET : EqD T} {EC : EqD C} (tab : C -> T) (str : T -> string) (annotate : T -> option string).
  Definition graph_edge (h : heap) (g : @jg T C) (s t : T) : string * string * bool :=
    if is_pk_fk_join tab h g s t then (str s, str t, true)
    else if is_pk_fk_join tab h g t s then (str t, str s, true)
    else (str s, str t, false).
  Definition plot_directly (h : heap) (g : @jg T C) : drawing :=
    {| d_nodes := map (fun t => (str t, table_label (str t) (annotate t), if free_in h g t then "black"%string else "blue"%string)) (dkeys (g_nodes g));
       d_edges := map (fun e => graph_edge h g (fst (fst e)) (snd (fst e))) (g_edges g) |}.
End Graph.

(** ** Queries: [joins] gives the pairs of joined columns of an edge of the join graph of the query. *)
Section Query.
  Context {T C : Type} (tab : C -> T) (str : T -> string) (annotate : T -> option string) (is_primary_key has_secondary_index : C -> bool).
  Record qgraph := { q_tables : list T; q_edges : list (T * T * list (C * C)) }.
  (** _render_pk_fk_join_edge 54-79 *)
  Definition query_edge (e : T * T * list (C * C)) : string * string * bool :=
    let plain := (str (fst (fst e)), str (snd (fst e)), false) in
    match snd e with
    | [(a, b)] => if is_primary_key a && has_secondary_index b then (str (tab b), str (tab a), true)
                  else if is_primary_key b && has_secondary_index a then (str (tab a), str (tab b), true)
                  else plain
    | _ => plain
    end.
  (** _plot_join_graph_from_query 82-102, [None] for queries without predicates.  Without include_pk_fk_joins, nodes and edges are added to
      the class gv.Graph instead of an instance (line 90): a required argument is missing. *)
  Definition plot_query (q : option qgraph) (include_pk_fk_joins : bool) : res drawing :=
    match q with
    | None => Ok {| d_nodes := []; d_edges := [] |}
    | Some q =>
        if include_pk_fk_joins then
          Ok {| d_nodes := map (fun t => (str t, table_label (str t) (annotate t), "black"%string)) (q_tables q); d_edges := map query_edge (q_edges q) |}
        else match q_tables q, q_edges q with
             | [], [] => Ok {| d_nodes := []; d_edges := [] |}                (* the class itself; nothing is added *)
             | _, _ => Raise TypeError
             end
    end.
End Query.

(** ** Annotations: merged_annotation 294-300, setup_annotations 303-324 *)
Section Annotations.
  Context {T : Type} (estimated filtered true_cards : T -> string).
  Definition annotation_fn (k : string) : option (T -> string) :=
    if deqb k "estimated-cards"%string then Some estimated else if deqb k "filter-cards"%string then Some filtered else if deqb k "true-cards"%string then Some true_cards else None.
  Fixpoint joined (l : list string) : string := match l with [] => "" | [x] => x | x :: r => (x ++ nl ++ joined r)%string end.
  Definition merged (fs : list (T -> string)) (t : T) : string := joined (map (fun f => f t) fs).
  Fixpoint annotators (ks : list string) : res (list (T -> string)) :=
    match ks with
    | [] => Ok []
    | k :: r => match annotation_fn k with None => Raise ValueError | Some f => rmap (cons f) (annotators r) end
    end.
  Definition setup (ks : list string) : res (T -> string) :=
    rbind (annotators ks) (fun fs => match fs with [] => Raise ValueError | [f] => Ok f | _ => Ok (merged fs) end).
End Annotations.

(** ** _escape_label 448-449 *)
Definition replace (c : ascii) (by_ : list ascii) (s : list ascii) : list ascii := flat_map (fun x => if Ascii.eqb x c then by_ else [x]) s.
Definition chars := list_ascii_of_string.
Definition escape (s : list ascii) : list ascii := replace ">" (chars "&gt;") (replace "<" (chars "&lt;") s).
