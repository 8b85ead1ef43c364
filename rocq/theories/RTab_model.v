(** Model of rename_table and merge_tables, postbound/transform.py 1333-1430, 1700-1924 (columns), 1927-2339 (tables), 2361-2447.

    Names are numbers.  Table references have a full name and an alias (schemas and the virtual flag are left out, neither matters for
    equality: _core.py 905-911).  Expressions and predicates are trees with columns, stars and subqueries as leaves; the special treatment of
    some expressions is kept (see [kind]).  If several clauses of a query cannot be handled, then the model reports the error of the first
    one. *)
From Coq Require Import List Bool Arith.
From Verif Require Import PyBase.
Import ListNotations.

(** TableReference, _core.py 667-920; identifier 791-803, create_virtual. *)
Definition tref : Type := (option nat * option nat)%type.
Definition ident (t : tref) : nat := match snd t, fst t with Some a, _ => a | None, Some n => n | None, None => 0 end.
Definition virt (n : nat) : tref := (None, Some n).
Record col := mkcol { cn : nat; ct : option tref }.
#[global] Instance EqD_col : EqD col.
Proof. intros a b. unfold EqD in *. decide equality; [apply (eqd (A := option (option nat * option nat)))|apply Nat.eq_dec]. Defined.

(** Expressions that need a remark: arithmetic with three or more arguments, array access, simple CASE and quantified expressions. *)
Inductive kind := KPlain (n : nat) | KChain | KAccess | KSimpleCase | KQuant (n : nat).
Inductive setk := SUnion | SIntersect | SExcept.
Inductive condk := KWhere | KHaving.
Inductive fromk := FImplicit | FExplicit | FMixed.
Inductive expr :=
| ECol (c : col) | EStar (t : option tref) | ENode (k : kind) (es : list expr)
| EFilt (f p : expr)                               (* an aggregate with FILTER *)
| EWin (es ord : list expr)                        (* a window function: everything but the ordering, the ordering *)
| ESub (q : query)
| EBroken (es : list expr)                         (* a QuantifierExpression whose arguments are exchanged *)
with source := SDirect (t : tref) | SSub (q : query) (n : option nat) | SJoin (k : nat) (l r : source) (cond : option expr)
with clause :=
| CSelect (ts don : list expr)                     (* targets, DISTINCT ON *)
| CFrom (k : fromk) (ss : list source)
| CCond (k : condk) (p : expr) | CGroup (es : list expr) | COrder (es : list expr) | COther (n : nat)
| CWith (l : list (query * nat))                   (* target_table is the virtual table with that name, 5356-5362 *)
| CSet (k : setk) (l r : query)
with query := Query (cs : list clause).

Section LMap.
  Context {A B : Type} (f : A -> res B).
  Fixpoint lmapM (l : list A) : res (list B) :=
    match l with [] => Ok [] | x :: r => rbind (f x) (fun y => rbind (lmapM r) (fun ys => Ok (y :: ys))) end.
  Definition omapM (o : option A) : res (option B) := match o with Some x => rmap Some (f x) | None => Ok None end.
End LMap.

(** ** rename_columns_in_query 1333-1426, ..._expression 1429-1598, ..._predicate 1618-1693, _..._table_source 1696-1790, ..._clause 1793-1924 *)
Fixpoint rc_e (ren : col -> col) (e : expr) : res expr :=
  match e with
  | ECol c => Ok (ECol (ren c))
  | EStar t => Ok e
  | ENode k es =>
      match k with
      | KChain => match es with [] => Raise ValueError | a :: _ => rbind (rc_e ren a) (fun _ => Raise ValueError) end
      | KSimpleCase => Raise ValueError
      | KAccess => rbind (lmapM (rc_e ren) es) (fun _ => Raise TypeError)
      | _ => rmap (ENode k) (lmapM (rc_e ren) es)
      end
  | EFilt f p => rc_e ren f                          (* the filter is not passed on, 1523-1530 *)
  | EWin es ord => rbind (lmapM (rc_e ren) es) (fun es' => rbind (lmapM (rc_e ren) ord) (fun ord' => Ok (EWin es' ord')))
  | ESub q => rmap ESub (rc_q ren q)
  | EBroken es => Raise ValueError
  end
with rc_s (ren : col -> col) (s : source) : res source :=
  match s with
  | SDirect t => Ok s
  | SSub q n => rmap (fun q' => SSub q' n) (rc_q ren q)
  | SJoin k l r c => rbind (rc_s ren l) (fun l' => rbind (rc_s ren r) (fun r' => rbind (omapM (rc_e ren) c) (fun c' => Ok (SJoin k l' r' c'))))
  end
with rc_c (ren : col -> col) (c : clause) : res clause :=
  match c with
  | CSelect ts don => rmap (fun ts' => CSelect ts' don) (lmapM (rc_e ren) ts)      (* distinct_specifier() as it is, 1872 *)
  | CFrom FImplicit ss => Ok c
  | CFrom k ss => rmap (CFrom k) (lmapM (rc_s ren) ss)
  | CCond k p => rmap (CCond k) (rc_e ren p)
  | CGroup es => rmap CGroup (lmapM (rc_e ren) es)
  | COrder es => rmap COrder (lmapM (rc_e ren) es)
  | COther n => Ok c
  | CWith l => rmap CWith (lmapM (fun p => rmap (fun q' => (q', snd p)) (rc_q ren (fst p))) l)
  | CSet k l r => rbind (rc_q ren l) (fun _ => rbind (rc_q ren r) (fun _ => Raise TypeError))   (* set_operation is keyword-only, 1368-1371 *)
  end
with rc_q (ren : col -> col) (q : query) : res query := match q with Query cs => rmap Query (lmapM (rc_c ren) cs) end.

(** ** The tables in a FROM clause: From.tables with SqlQuery.tables 8700-8729.  [None] is the table of an anonymous subquery, 6397-6398.
    Simplified: expressions report the tables of all their parts. *)
Definition olist {A} (o : option A) : list A := match o with Some x => [x] | None => [] end.
Fixpoint tabs_e (e : expr) : list (option tref) :=
  match e with
  | ECol c => match ct c with Some t => [Some t] | None => [] end
  | EStar t => match t with Some t => [Some t] | None => [] end
  | ENode _ es | EBroken es => flat_map tabs_e es
  | EFilt f p => tabs_e f ++ tabs_e p
  | EWin es ord => flat_map tabs_e es ++ flat_map tabs_e ord
  | ESub q => tabs_q q
  end
with tabs_s (s : source) : list (option tref) :=
  match s with
  | SDirect t => [Some t]
  | SSub q n => tabs_q q ++ [match n with Some n => Some (virt n) | None => None end]
  | SJoin _ l r c => tabs_s l ++ tabs_s r
  end
with tabs_c (c : clause) : list (option tref) :=
  match c with
  | CSelect ts don => flat_map tabs_e ts
  | CFrom _ ss => flat_map tabs_s ss
  | CCond _ p => tabs_e p
  | CGroup es | COrder es => flat_map tabs_e es
  | COther _ => []
  | CWith l => flat_map (fun p => tabs_q (fst p)) l                (* referenced_tables, 5666-5674 *)
  | CSet _ l r => tabs_q l ++ tabs_q r
  end
with tabs_q (q : query) : list (option tref) := match q with Query cs => flat_map tabs_c cs end.

(** ** _TableReferenceRenamer, 1927-2339 *)
Section Tables.
  Context (d : dict tref tref).
  (** 2319-2331 *)
  Definition rn_table (t : tref) : tref := match dget d t with Some u => u | None => t end.
  Definition rn_name (n : nat) : nat := match find (fun e => ident (fst e) =? n) d with Some e => ident (snd e) | None => n end.
  (** 2333-2339 *)
  Definition rn_col (c : col) : col :=
    match ct c with Some t => match dget d t with Some u => mkcol (cn c) (Some u) | None => c end | None => c end.
  Definition targets : list nat := map (fun e => ident (snd e)) d.
  (** 1996-2005: [inter] are the targets that are still expected, [sep] the other identifiers. *)
  Fixpoint keep (sep inter : list nat) (ss : list source) : res (list source) :=
    match ss with
    | [] => Ok []
    | SDirect t :: r =>
        if mem (ident t) sep then rmap (cons (SDirect t)) (keep sep inter r)
        else if negb (mem (ident t) inter) then keep sep inter r
        else rmap (cons (SDirect t)) (keep sep (filter (fun x => negb (x =? ident t)) inter) r)
    | _ => Raise AttributeError
    end.
  (** 1986-2028; From refuses an empty list of items. *)
  Definition used_idents (ss : list source) : res (list nat) :=
    lmapM (fun t => match t with Some t => Ok (ident t) | None => Raise AttributeError end) (flat_map tabs_s ss).
  Definition rename_from (k : fromk) (rename : list source -> res (list source)) (ss : list source) : res clause :=
    rbind (used_idents ss) (fun used =>
    let inter := filter (fun x => mem x targets) used in
    match k with
    | FImplicit =>
        rbind (rename ss) (fun ss' =>
        match inter with
        | [] => Ok (CFrom FImplicit ss')
        | _ => rbind (keep (filter (fun x => negb (mem x inter)) used) inter ss') (fun l =>
               match l with [] => Raise ValueError | _ => Ok (CFrom FImplicit l) end)
        end)
    | _ => match inter with [] => rmap (CFrom k) (rename ss) | _ => Raise ValueError end
    end).
  (** A clause is rebuilt; [None] is the Python list that visit_orderby_clause returns, 2055, which build_query does not accept. *)
  Definition build (cs : list (option clause)) : res query :=
    if existsb (fun c => match c with None => true | _ => false end) cs then Raise ValueError
    else Ok (Query (flat_map olist cs)).
End Tables.
Fixpoint rt_e (d : dict tref tref) (e : expr) : res expr :=
  match e with
  | ECol c => Ok (ECol (rn_col d c))
  | EStar t => Ok (EStar (option_map (rn_table d) t))
  | ENode k es =>
      match k with
      | KQuant _ => rmap EBroken (lmapM (rt_e d) es)                 (* 2244 *)
      | _ => rmap (ENode k) (lmapM (rt_e d) es)
      end
  | EFilt f p => rbind (rt_e d f) (fun f' => rbind (rt_e d p) (fun p' => Ok (EFilt f' p')))
  | EWin es ord =>
      rbind (lmapM (rt_e d) es) (fun es' => match ord with [] => Ok (EWin es' []) | _ => rbind (lmapM (rt_e d) ord) (fun _ => Raise TypeError) end)   (* the list cannot be hashed *)
  | ESub q => rbind (rt_q d q) (fun cs => rmap ESub (build cs))
  | EBroken es => Raise AttributeError
  end
with rt_s (d : dict tref tref) (s : source) : res source :=
  match s with
  | SDirect t => Ok (SDirect (rn_table d t))
  | SSub q n => rbind (rt_q d q) (fun cs => rbind (build cs) (fun q' => Ok (SSub q' (option_map (rn_name d) n))))
  | SJoin k l r c => rbind (rt_s d l) (fun l' => rbind (rt_s d r) (fun r' => rbind (omapM (rt_e d) c) (fun c' => Ok (SJoin k l' r' c'))))
  end
with rt_c (d : dict tref tref) (c : clause) : res (option clause) :=
  match c with
  | CSelect ts don => rmap (fun ts' => Some (CSelect ts' don)) (lmapM (rt_e d) ts)
  | CFrom k ss => rmap Some (rename_from d k (lmapM (rt_s d)) ss)
  | CCond k p => rmap (fun p' => Some (CCond k p')) (rt_e d p)
  | CGroup es => rmap (fun es' => Some (CGroup es')) (lmapM (rt_e d) es)
  | COrder es => rmap (fun _ => None) (lmapM (rt_e d) es)
  | COther n => Ok (Some c)
  | CWith l =>
      rmap (fun l' => Some (CWith l'))
        (lmapM (fun p => rbind (rt_q d (fst p)) (fun cs => rbind (build cs) (fun q' => Ok (q', ident (rn_table d (virt (snd p))))))) l)
  | CSet k l r => rbind (rt_q d l) (fun _ => rbind (rt_q d r) (fun _ => Raise TypeError))     (* dictionaries cannot be hashed *)
  end
with rt_q (d : dict tref tref) (q : query) : res (list (option clause)) := match q with Query cs => lmapM (rt_c d) cs end.

(** ** rename_table, 2361-2416.  [cols] is source_query.columns(), [pre] builds the prefixed column names. *)
Section RenameTable.
  Context (pre : nat -> nat -> nat).
  Definition col_renamings (d : dict tref tref) (target : option tref) (prefix : bool) (cols : list col) : dict col col :=
    dict_of (flat_map (fun c => match ct c with
                                | Some t => if dmem d t then [(c, mkcol (if prefix then pre (ident t) (cn c) else cn c) target)] else []
                                | None => []
                                end) cols).
  Definition lookup_col (r : dict col col) (c : col) : col := match dget r c with Some c' => c' | None => c end.
  Definition rename_tables (q : query) (d : dict tref tref) (target : option tref) (prefix : bool) (cols : list col) : res query :=
    rbind (rc_q (lookup_col (col_renamings d target prefix cols)) q) (fun q' => rbind (rt_q d q') build).
  (** Called with from_table and target_table, or with a dictionary (target_table is None then). *)
  Definition rename_table (q : query) (from to : tref) := rename_tables q [(from, to)] (Some to).
  Definition rename_table_dict (q : query) (d : dict tref tref) := rename_tables q d None.
  (** merge_tables 2419-2447: [tables] in the order in which the set is visited; [columns] is the columns method. *)
  Definition merge_renamings (tables : list tref) (target : tref) (cols : list col) : dict col col :=
    dict_of (flat_map (fun c => match ct c with Some t => if mem t tables then [(c, mkcol (cn c) (Some target))] else [] | None => [] end) cols).
  Definition merge_tables (columns : query -> list col) (q : query) (tables : list tref) (target : tref) : res query :=
    rbind (rc_q (lookup_col (merge_renamings tables target (columns q))) q)
      (fun q' => fold_left (fun acc t => rbind acc (fun m => rename_table m t target false (columns m))) tables (Ok q')).
End RenameTable.
