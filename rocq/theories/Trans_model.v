(** Model of the predicate transformations of [postbound/transform.py]. *)
From Coq Require Import List Bool Arith.
From Verif Require Import PyBase Pred_model.
Import ListNotations.

Section Trans.
  Context {E : Type} {EE : EqD E} (ecols : E -> list col).
  Notation pred := (pred E).

  (** flatten_and_predicate, transform.py 125-169.  [ord l] is the order in which Python iterates over the set whose
      elements are those of [l] ([len] and [create_and] see the set's elements).  Recursion only enters AND children; if
      the recursive call collapsed to one non-AND compound predicate, its [children] are spliced in all the same
      (line 159-160), where NOT's single child is not iterable. *)
  Section Flatten.
    Context (ord : list pred -> list pred).
    Fixpoint flatten_and (p : pred) : res pred :=
      match p with
      | PAnd ps =>
          rbind ((fix go l := match l with
                 | [] => Ok []
                 | c :: r =>
                     rbind (match c with
                            | PAnd _ => rbind (flatten_and c) (fun c' =>
                                          match c' with
                                          | PAnd cs | POr cs => Ok cs
                                          | PNot _ => Raise TypeError
                                          | b => Ok [b]
                                          end)
                            | _ => Ok [c]
                            end)
                           (fun xs => rbind (go r) (fun ys => Ok (xs ++ ys)))
                 end) ps)
                (fun cs => match ord cs with [x] => Ok x | l => create_and l end)
      | _ => Ok p
      end.
  End Flatten.

  (** _get_predicate_fragment, transform.py 241-292.  For NOT, [compound_predicate.children] is one predicate and cannot
      be iterated. *)
  Fixpoint fragment (ts : list tbl) (p : pred) : res (option pred) :=
    let kids := fix go l := match l with
                | [] => Ok []
                | c :: r => rbind (fragment ts c) (fun x => rbind (go r) (fun ys =>
                              Ok (match x with Some q => q :: ys | None => ys end)))
                end in
    match p with
    | PNot _ => Raise TypeError
    | PAnd ps => rbind (kids ps) (fun cs => Ok (match cs with [] => None | [q] => Some q | _ => Some (PAnd cs) end))
    | POr ps => rbind (kids ps) (fun cs => Ok (match cs with [] => None | [q] => Some q | _ => Some (POr cs) end))
    | b => Ok (if subsetb (ptabs ecols b) ts then Some b else None)
    end.

  (** remove_predicate, transform.py 789-830. *)
  Fixpoint remove_pred (x p : pred) : option pred :=
    let kids := fix go l := match l with
                | [] => []
                | c :: r => match remove_pred x c with Some q => q :: go r | None => go r end
                end in
    if deqb p x then None
    else match p with
         | PNot q => match remove_pred x q with Some q' => Some (PNot q') | None => None end
         | PAnd ps => match kids ps with [] => None | [q] => Some q | cs => Some (PAnd cs) end
         | POr ps => match kids ps with [] => None | [q] => Some q | cs => Some (POr cs) end
         | b => Some b
         end.

  (** rename_columns_in_predicate, transform.py 1618-1693, for a renaming function [ren] on expressions
      (rename_columns_in_expression). *)
  Fixpoint rename_pred (ren : E -> E) (p : pred) : pred :=
    match p with
    | PBin op a b => PBin op (ren a) (ren b)
    | PBetween a lo hi => PBetween (ren a) (ren lo) (ren hi)
    | PIn a vs => PIn (ren a) (map ren vs)
    | PUn op a => PUn op (ren a)
    | PNot q => PNot (rename_pred ren q)
    | PAnd ps => PAnd (map (rename_pred ren) ps)
    | POr ps => POr (map (rename_pred ren) ps)
    end.

  (** The edges of the equivalence graph in determine_join_equivalence_classes, _qal.py 3577-3591. *)
  Definition ec_edge (p : pred) : list (col * col) :=
    match p with
    | PBin OpEq a b =>
        if is_join ecols p
        then match dedup (ecols a ++ ecols b) with [c; d] => [(c, d)] | _ => [] end
        else []
    | _ => []
    end.
  Definition ec_edges (js : list pred) : list (col * col) := flat_map ec_edge js.

  (** Connected components of the graph with these edges (nx.connected_components, _qal.py 3593-3596): merge the classes
      of the two end points, edge by edge. *)
  Definition ec_merge (classes : list (list col)) (e : col * col) : list (list col) :=
    let hit k := mem (fst e) k || mem (snd e) k in
    dedup (fst e :: snd e :: concat (filter hit classes)) :: filter (fun k => negb (hit k)) classes.
  Definition ec_classes (js : list pred) : list (list col) := fold_left ec_merge (ec_edges js) [].

  (** generate_predicates_for_equivalence_classes, _qal.py 3599-3631 with util.collections.pairs: all two-element
      combinations; [colexp] is ColumnExpression. *)
  Fixpoint all_pairs {A} (l : list A) : list (A * A) :=
    match l with [] => [] | x :: r => map (fun y => (x, y)) r ++ all_pairs r end.
  Definition ec_predicates (colexp : col -> E) (classes : list (list col)) : list pred :=
    flat_map (fun k => map (fun '(c, d) => PBin OpEq (colexp c) (colexp d)) (all_pairs k)) classes.

  (** add_ec_predicates, transform.py 641-669: the conditions of the new WHERE clause ([js]/[fs] = joins()/filters()). *)
  Definition add_ec (colexp : col -> E) (js fs : list pred) : res pred :=
    create_and (ec_predicates colexp (ec_classes js) ++ fs).

  (** FROM items of an explicit query: DirectTableSource, JoinTableSource with join type INNER and its condition
      (optional), everything else (_qal.py 6380-6790, transform.py 190-216). *)
  Inductive source :=
  | SDirect (t : tbl)
  | SInner (l r : source) (cond : option pred)
  | SOther.

  (** The work-list loop of explicit_to_implicit, transform.py 190-216.  Python pops from the end: the list is kept
      reversed.  A missing join condition would append [None]; that is the [None] entry. *)
  Fixpoint src_size (s : source) : nat := match s with SInner l r _ => S (src_size l + src_size r) | _ => 1 end.
  Fixpoint e2i_loop (fuel : nat) (work : list source) (tabs : list tbl) (preds : list (option pred))
    : res (list tbl * list (option pred)) :=
    match fuel with
    | 0 => Raise OutOfFuel
    | S fuel =>
        match work with
        | [] => Ok (tabs, preds)
        | SDirect t :: w => e2i_loop fuel w (tabs ++ [t]) preds
        | SInner l r c :: w => e2i_loop fuel (r :: l :: w) tabs (preds ++ [c])
        | SOther :: _ => Raise ValueError
        end
    end.
  Definition e2i_collect (items : list source) : res (list tbl * list (option pred)) :=
    e2i_loop (S (fold_right (fun s n => src_size s + n) 0 items)) (rev items) [] [].

  (** explicit_to_implicit, transform.py 172-238: FROM tables and WHERE condition of the result; the other clauses of the
      result are listed in the theorem about dropped clauses. *)
  Definition all_some {A} (l : list (option A)) : option (list A) :=
    fold_right (fun x acc => match x, acc with Some a, Some r => Some (a :: r) | _, _ => None end) (Some []) l.
  Definition e2i (ord : list pred -> list pred) (items : list source) (where_ : option pred) : res (list tbl * pred) :=
    rbind (e2i_collect items) (fun '(tabs, preds) =>
      match all_some preds with
      | None => Raise AttributeError
      | Some ps =>
          rbind (create_and (match where_ with Some w => w :: ps | None => ps end)) (fun p =>
            rbind (flatten_and ord p) (fun p' => Ok (tabs, p')))
      end).
End Trans.
