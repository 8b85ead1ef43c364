(** Model of the connectivity checks of [QueryPredicates] (postbound/qal/_qal.py) and of the cross product check built on
    top of them. *)
From Coq Require Import List Bool Arith.
From Verif Require Import PyBase Pred_model Graph.
Import ListNotations.

Section QP.
  Context {E : Type} (ecols : E -> list col).
  Notation pred := (pred E).

  (** Edges added by _join_tables_check for one table, _qal.py 4759-4764: from [t] to every partner table in [ts]. *)
  Definition partner_tables (j : pred) (t : tbl) (ts : list tbl) : res (list tbl) :=
    rmap (fun cs => filter (fun u => mem u ts) (flat_map (fun c => match c_tab c with Some u => [u] | None => [] end) cs))
         (join_partners_of ecols j t).

  Fixpoint concatM {A B} (f : A -> res (list B)) (l : list A) : res (list B) :=
    match l with [] => Ok [] | x :: r => rbind (f x) (fun y => rbind (concatM f r) (fun ys => Ok (y ++ ys))) end.

  Definition check_edges (js : list pred) (ts : list tbl) : res (list (tbl * tbl)) :=
    concatM (fun t => rbind (joins_for ecols js t) (fun js' =>
      rmap (map (fun u => (t, u))) (concatM (fun j => partner_tables j t ts) js'))) ts.

  (** QueryPredicates.joins_tables on a non-empty QueryPredicates, _qal.py 4661-4673 and 4744-4765; [root_tabs] is
      [self._root.tables()]; [ts] enumerates the set of requested tables. *)
  Definition joins_tables (js : list pred) (root_tabs ts : list tbl) : res bool :=
    match ts with
    | [] => Raise ValueError
    | [t] => Ok (mem t root_tabs)
    | _ => rmap (connectedb ts) (check_edges js ts)
    end.

  (** QueryPredicates.join_graph restricted to what is_connected sees, _qal.py 4442-4453: nodes are the tables of the
      predicates plus the end points of the edges; unbound columns give the node [None]. *)
  Definition join_graph_nodes (root_tabs : list tbl) (es : list (option tbl * option tbl)) : list (option tbl) :=
    dedup (map Some root_tabs ++ flat_map (fun e => [fst e; snd e]) es).

  (** CrossProductPreCheck.check_supported_query, validation.py 434-446: nx.is_connected of the join graph.  With no
      predicates the graph is empty and networkx raises NetworkXPointlessConcept. *)
  Definition cross_product_check (js : list pred) (root_tabs : list tbl) : res bool :=
    rbind (jg_edges ecols js) (fun es =>
      match join_graph_nodes root_tabs es with
      | [] => Raise OtherError
      | ns => Ok (connectedb ns es)
      end).

  (** SelectStatement.contains_cross_product, _qal.py 9075-9088.  [has_from]: there is a FROM clause; [has_preds]: the
      query has predicates.  [len()] of the generator nx.connected_components raises TypeError. *)
  Definition contains_cross_product (has_from has_preds : bool) (js : list pred) (root_tabs : list tbl) : res bool :=
    if negb has_from then Ok false
    else if negb has_preds then Ok true
    else rbind (jg_edges ecols js) (fun _ => Raise TypeError).
End QP.
