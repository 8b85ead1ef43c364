(** Model of extract_query_fragment, postbound/transform.py 241-292 and 313-481, for entire queries (as in Src_model).

    Simplifications: those of Src_model.  In particular LIMIT is not modelled; extract_query_fragment always keeps it (479, 400), it
    drops hints and EXPLAIN of plain queries and keeps those of set queries (401-402).  The predicates alone are the subject of C12. *)
From Coq Require Import List Bool Arith.
From Verif Require Import PyBase Src_model.
Import ListNotations.

(** The parameter projection, 317: "keep", "star" or "*", "count_star", anything else *)
Inductive projection := PKeep | PStar | PCount | POther.

Section Frag.
  (** The kinds of the nodes for OR, NOT and COUNT *)
  Context (kor knot kcount : nat).
  (** The order in which the tables of a query are iterated; tables() is a set. *)
  Context (ord : list (option tref) -> list (option tref)).

  Definition wanted (ref : list tref) (t : option tref) : bool := match t with Some t => mem t ref | None => false end.
  (** tables().issubset(referenced_tables) *)
  Definition inside (ref : list tref) (l : list (option tref)) : bool := forallb (wanted ref) l.
  (** referenced_tables.issubset(tables()) *)
  Definition covers (ref : list tref) (l : list (option tref)) : bool := forallb (fun t => mem (Some t) l) ref.

  (** _get_predicate_fragment, 241-292.  The children of NOT are a single predicate, which cannot be iterated. *)
  Fixpoint frag_e (ref : list tref) (e : expr) : res (option expr) :=
    let kids := fix go l := match l with
                | [] => Ok []
                | c :: r => rbind (frag_e ref c) (fun x => rbind (go r) (fun ys => Ok (match x with Some q => q :: ys | None => ys end)))
                end in
    match e with
    | EAnd ps => rbind (kids ps) (fun cs => Ok (match cs with [] => None | [c] => Some c | _ => Some (EAnd cs) end))
    | ENode k a args =>
        if Nat.eqb k knot then Raise TypeError
        else if Nat.eqb k kor then rbind (kids args) (fun cs => Ok (match cs with [] => None | [c] => Some c | _ => Some (ENode k a cs) end))
        else Ok (if inside ref (tables_e e) then Some e else None)
    | _ => Ok (if inside ref (tables_e e) then Some e else None)
    end.
  (** 441-447, 464-470 *)
  Definition frag_opt (ref : list tref) (o : option expr) : res (option expr) := match o with Some e => frag_e ref e | None => Ok None end.
  (** 364-377 *)
  Definition frag_ctes (ref : list tref) (ctes : list cte) : list cte := filter (fun w => mem (TVirt (target_of w)) ref) ctes.
  (** 379-387, 449-462 *)
  Definition frag_list (ref : list tref) (l : list expr) : list expr := filter (fun e => inside ref (tables_e e)) l.
  (** 406-425.  [distinct] is only a flag for the new clause. *)
  Definition star : list (expr * option cname) := [(EStar, None)].
  Definition keeps_target (ref : list tref) (x : expr * option cname) : bool :=
    (inside ref (tables_e (fst x)) && covers ref (tables_e (fst x))) || match columns_e (fst x) with [] => true | _ => false end.
  Definition frag_select (ref : list tref) (p : projection) (targets : list (expr * option cname)) (distinct : option (list expr)) : res (list (expr * option cname) * option (list expr)) :=
    match p with
    | PKeep => Ok (match filter (keeps_target ref) targets with [] => star | l => l end, match distinct with Some _ => Some [] | None => None end)
    | PStar => Ok (star, None)
    | PCount => Ok ([(ENode kcount true [EStar], None)], None)
    | POther => Raise ValueError
    end.
  (** 430-439, and From.__init__, _qal.py 6955-6960 *)
  Definition frag_from (ref : list tref) (q : query) (from : option (fkind * list source)) : res (option (fkind * list source)) :=
    match from with
    | None => Ok None
    | Some _ => match flat (fun t => match t with Some t => if mem t ref then [SDirect t] else [] | None => [] end) (ord (tables_q q)) with
                | [] => Raise ValueError
                | l => Ok (Some (FImplicit, l))
                end
    end.
  (** extract_query_fragment 355-481.  The fragments of the sides of a set query always keep the projection (390-393); SetQuery.__init__
      (_qal.py 9453-9459) asks both sides whether they are EXPLAIN queries, which None cannot answer. *)
  Fixpoint extract (ref : list tref) (p : projection) (q : query) : res (option query) :=
    match q with
    | QSel ctes targets distinct from wh gr hv od =>
        match from with
        | Some (FOther, _) => Raise ValueError
        | _ =>
            if covers ref (tables_q q)
            then rbind (frag_select ref p targets distinct) (fun sel =>
                 rbind (frag_from ref q from) (fun from' =>
                 rbind (frag_opt ref wh) (fun wh' =>
                 rbind (frag_opt ref hv) (fun hv' =>
                 Ok (Some (QSel (frag_ctes ref ctes) (fst sel) (snd sel) from' wh' (frag_list ref gr) hv' (frag_list ref od)))))))
            else Ok None
        end
    | QSet op l r ctes od =>
        if covers ref (tables_q q)
        then rbind (extract ref PKeep l) (fun l' => rbind (extract ref PKeep r) (fun r' =>
             match l', r' with Some l', Some r' => Ok (Some (QSet op l' r' (frag_ctes ref ctes) (frag_list ref od))) | _, _ => Raise AttributeError end))
        else Ok None
    end.
End Frag.
