(** Model of the mutable join graph, postbound/opt/_joingraph.py 101-333, 405-614, 681-1039.

    Tables and columns are abstract; the state that a join graph can change -- the "free" attribute of the nodes and the index
    information of the columns -- lives in a heap, such that graphs could share it.  An edge carries the pairs of joined columns
    of its base predicates (one per predicate, as only predicates with exactly two columns become part of the graph, 433-438).
    The join predicate that mark_joined infers from the query is given by a function.  [order] is the iteration order of Python sets. *)
From Coq Require Import List Bool Arith.
From Verif Require Import PyBase.
Import ListNotations.

Section JoinGraph.
  Context {T C : Type} {ET : EqD T} {EC : EqD C} (tab : C -> T).
  (** IndexInfo 202-333 *)
  Inductive ikind := Primary | Secondary | NoIndex.
  Record ixinfo := mkix { ix_kind : ikind; ix_invalid : bool }.
  Definition is_primary (i : ixinfo) : bool := negb (ix_invalid i) && match ix_kind i with Primary => true | _ => false end.
  Definition is_secondary (i : ixinfo) : bool := negb (ix_invalid i) && match ix_kind i with Secondary => true | _ => false end.
  Definition is_indexed (i : ixinfo) : bool := is_primary i || is_secondary i.
  (** can_pk_fk_join 285-311 *)
  Definition can_pk_fk_join (i j : ixinfo) : bool :=
    if negb (is_indexed i) || negb (is_indexed j) then false else if is_secondary i && is_secondary j then false else true.

  Record heap := mkh { h_free : list bool; h_index : list ixinfo }.
  Definition empty_heap : heap := mkh [] [].
  Fixpoint update {A} (l : list A) (i : nat) (x : A) : list A := match l, i with [], _ => [] | _ :: l, 0 => x :: l | y :: l, S i => y :: update l i x end.

  Definition jpred : Type := list (C * C).
  Record jg := mkjg { g_nodes : dict T nat; g_edges : list (T * T * jpred); g_index : dict C nat }.
  Definition free_at (h : heap) (a : nat) : bool := nth a (h_free h) true.
  Definition index_at (h : heap) (a : nat) : ixinfo := nth a (h_index h) (mkix NoIndex false).

  (** __init__ 405-450, given the tables, the merged edges (440-443) and the index kind of the columns.  Edges are kept in the
      order in which the graph library lists them. *)
  Fixpoint alloc_free (ts : list T) (vs : list bool) (h : heap) : dict T nat * heap :=
    match ts, vs with
    | t :: ts, v :: vs => let '(d, h') := alloc_free ts vs (mkh (h_free h ++ [v]) (h_index h)) in ((t, length (h_free h)) :: d, h')
    | _, _ => ([], h)
    end.
  Fixpoint alloc_index (cs : list C) (vs : list ixinfo) (h : heap) : dict C nat * heap :=
    match cs, vs with
    | c :: cs, v :: vs => let '(d, h') := alloc_index cs vs (mkh (h_free h) (h_index h ++ [v])) in ((c, length (h_index h)) :: d, h')
    | _, _ => ([], h)
    end.
  Definition columns_of_edges (es : list (T * T * jpred)) : list C := dedup (flat_map (fun e => flat_map (fun p => [fst p; snd p]) (snd e)) es).
  Definition new_graph (h : heap) (tables : list T) (es : list (T * T * jpred)) (kind : C -> ikind) : jg * heap :=
    let ts := dedup tables in
    let '(nodes, h) := alloc_free ts (map (fun _ => true) ts) h in
    let cs := columns_of_edges es in
    let '(ix, h) := alloc_index cs (map (fun c => mkix (kind c) false) cs) h in
    (mkjg nodes es ix, h).
  (** clone 1028-1039: both parts are copied deeply *)
  Definition clone (h : heap) (g : jg) : jg * heap :=
    let '(nodes, h1) := alloc_free (dkeys (g_nodes g)) (map (free_at h) (dvalues (g_nodes g))) h in
    let '(ix, h2) := alloc_index (dkeys (g_index g)) (map (index_at h1) (dvalues (g_index g))) h1 in
    (mkjg nodes (g_edges g) ix, h2).

  (** is_free_table 681-696 *)
  Definition is_free (h : heap) (g : jg) (t : T) : res bool := match dget (g_nodes g) t with Some a => Ok (free_at h a) | None => Raise KeyError end.
  Definition free_in (h : heap) (g : jg) (t : T) : bool := match is_free h g t with Ok b => b | Raise _ => true end.
  (** initial 452-460, joined_tables 537-545, free_tables 547-555 *)
  Definition initial (h : heap) (g : jg) : bool := forallb (free_in h g) (dkeys (g_nodes g)).
  Definition joined_tables (h : heap) (g : jg) : list T := filter (fun t => negb (free_in h g t)) (dkeys (g_nodes g)).
  Definition free_tables (h : heap) (g : jg) : list T := filter (free_in h g) (dkeys (g_nodes g)).
  (** joins_tables 698-718, _fetch_join_predicate 1093-1112 *)
  Definition connects (t1 t2 : T) (e : T * T * jpred) : bool := (deqb (fst (fst e)) t1 && deqb (snd (fst e)) t2) || (deqb (fst (fst e)) t2 && deqb (snd (fst e)) t1).
  Definition edge_between (g : jg) (t1 t2 : T) : option jpred := option_map snd (find (connects t1 t2) (g_edges g)).
  (** is_available_join 720-751 *)
  Definition is_available_join (h : heap) (g : jg) (t1 t2 : T) : bool :=
    match edge_between g t1 t2 with
    | None => false
    | Some _ => (free_in h g t1 && negb (free_in h g t2)) || (negb (free_in h g t1) && free_in h g t2) || initial h g
    end.
  (** JoinPath 25-98: start, target, condition.  available_join_paths 567-614 *)
  Definition jpath : Type := T * T * jpred.
  Definition flip (p : jpath) : jpath := (snd (fst p), fst (fst p), snd p).
  Definition available_join_paths (h : heap) (g : jg) (both : bool) : list jpath :=
    if initial h g then flat_map (fun e => if both then [e; flip e] else [e]) (g_edges g)
    else flat_map (fun e =>
      let s := fst (fst e) in let t := snd (fst e) in
      if free_in h g s && free_in h g t then []
      else if negb (free_in h g s) && negb (free_in h g t) then []
      else if free_in h g s then [flip e] else [e]) (g_edges g).
  (** is_pk_fk_join 753-790: columns of the tables in the base predicates *)
  Definition col_of (p : C * C) (t : T) : option C := if deqb (tab (fst p)) t then Some (fst p) else if deqb (tab (snd p)) t then Some (snd p) else None.
  Definition info (h : heap) (g : jg) (c : option C) : ixinfo := match c with Some c => match dget (g_index g) c with Some a => index_at h a | None => mkix NoIndex false end | None => mkix NoIndex false end.
  Definition is_pk_fk_join (h : heap) (g : jg) (fk pk : T) : bool :=
    match edge_between g fk pk with
    | None => false
    | Some ps => existsb (fun p => is_indexed (info h g (col_of p fk)) && is_primary (info h g (col_of p pk))) ps
    end.
  (** IndexInfo.invalidate 313-321 *)
  Definition set_free (h : heap) (a : nat) (b : bool) : heap := mkh (update (h_free h) a b) (h_index h).
  Definition set_invalid (h : heap) (a : nat) : heap := mkh (h_free h) (update (h_index h) a (mkix (ix_kind (index_at h a)) true)).
  Definition invalidate (h : heap) (g : jg) (c : C) : heap * option exn := match dget (g_index g) c with Some a => (set_invalid h a, None) | None => (h, Some KeyError) end.
  (** _invalidate_indexes_on 1081-1091 *)
  Definition invalidate_on (h : heap) (g : jg) (t : T) : heap := fold_left (fun h e => if deqb (tab (fst e)) t then set_invalid h (snd e) else h) (g_index g) h.
  (** Lines 1008-1018 *)
  Fixpoint invalidate_pairs (h : heap) (g : jg) (cur : T) (pk_fk fk_pk : bool) (ps : jpred) : heap * option exn :=
    match ps with
    | [] => (h, None)
    | (c1, c2) :: ps =>
        let '(joined, partner) := if deqb (tab c1) cur then (c1, c2) else (c2, c1) in
        let '(h, e) :=
          if pk_fk then invalidate h g partner
          else if fk_pk then invalidate h g joined
          else match invalidate h g partner with (h, Some e) => (h, Some e) | (h, None) => invalidate h g joined end in
        match e with Some e => (h, Some e) | None => invalidate_pairs h g cur pk_fk fk_pk ps end
    end.
  (** Lines 1001-1026; the inner loop over all nodes overwrites the loop's own table variable, [cur]. *)
  Fixpoint partners_loop (h : heap) (g : jg) (cur : T) (edge : jpred) (partners : list T) : heap * option exn :=
    match partners with
    | [] => (h, None)
    | p :: partners =>
        let pk_fk := is_pk_fk_join h g cur p in
        let fk_pk := is_pk_fk_join h g p cur in
        if pk_fk && fk_pk then partners_loop h g cur edge partners
        else match invalidate_pairs h g cur pk_fk fk_pk edge with
             | (h, Some e) => (h, Some e)
             | (h, None) =>
                 if pk_fk then partners_loop h g cur edge partners
                 else let h' := fold_left (fun h t => if free_in h g t || deqb t p then h else invalidate_on h g t) (dkeys (g_nodes g)) h in
                      partners_loop h' g (last (dkeys (g_nodes g)) cur) edge partners
             end
    end.
  (** mark_joined 965-1026; [between] is query.predicates().joins_between(table, joined_tables) *)
  Context (between : T -> list T -> option jpred) (order : list T -> list T).
  Definition partner_tables (edge : jpred) (t : T) : list T :=
    dedup (flat_map (fun p => (if deqb (tab (fst p)) t then [tab (snd p)] else []) ++ (if deqb (tab (snd p)) t then [tab (fst p)] else [])) edge).
  Definition mark_joined (h : heap) (g : jg) (t : T) (edge : option jpred) : heap * option exn :=
    match dget (g_nodes g) t with
    | None => (h, Some KeyError)
    | Some a =>
        let h := set_free h a false in
        if length (joined_tables h g) =? 1 then (h, None)
        else match (match edge with Some e => Some e | None => between t (joined_tables h g) end) with
             | None => (h, None)
             | Some edge => partners_loop h g t edge (order (partner_tables edge t))
             end
    end.

  (** Several join graphs for the same query, created by cloning. *)
  Inductive jop := Mark (i : nat) (t : T) (edge : option jpred) | Clone (i : nat).
  Record world := mkw { w_heap : heap; w_graphs : list jg }.
  Definition jstep (w : world) (o : jop) : world :=
    match o with
    | Mark i t edge => match nth_error (w_graphs w) i with None => w | Some g => mkw (fst (mark_joined (w_heap w) g t edge)) (w_graphs w) end
    | Clone i => match nth_error (w_graphs w) i with None => w | Some g => let '(g', h) := clone (w_heap w) g in mkw h (w_graphs w ++ [g']) end
    end.
  Definition start (tables : list T) (es : list (T * T * jpred)) (kind : C -> ikind) : world := let '(g, h) := new_graph empty_heap tables es kind in mkw h [g].
End JoinGraph.
