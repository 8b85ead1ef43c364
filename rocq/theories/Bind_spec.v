(** SQL's rules for names, for C97-C98: which table does a name stand for, in which scope, and which columns does a query have?

    A scope is a FROM clause; names are looked up in the innermost scope first.  CTEs are visible in the CTEs that follow and in the main
    query.  Subqueries in FROM do not see the other entries unless they are LATERAL, join conditions see the tables of the join.  WHERE,
    GROUP BY and HAVING work on the tables, ORDER BY prefers the columns of the result for a plain name.  Expressions without an alias
    have no name that could be used, nor have the columns of VALUES without column names and the columns of functions. *)
From Coq Require Import List Bool Arith.
From Verif Require Import PyBase Bind_model.
Import ListNotations.

(** A table in a FROM clause: the name it goes by, the reference that stands for it and its columns. *)
Record vis := V { v_key : option name; v_ref : tref; v_cols : list name }.
Definition scope := list vis.
Definition cenv := list (name * list name).
Fixpoint find_cte (ce : cenv) (x : name) : option (list name) :=
  match ce with [] => None | (y, s) :: r => if y =? x then Some s else find_cte r x end.
Definition offers (c : name) (v : vis) : bool := mem c (v_cols v).
Definition called (k : name) (v : vis) : bool := match v_key v with Some x => x =? k | None => false end.
(** The table that a column name without qualifier belongs to; none if it is unknown or ambiguous. *)
Fixpoint find_column (env : list scope) (c : name) : option tref :=
  match env with
  | [] => None
  | s :: r => match filter (offers c) s with [] => find_column r c | [v] => Some (v_ref v) | _ => None end
  end.
(** The table that a qualifier stands for. *)
Fixpoint find_table (env : list scope) (k : name) : option vis :=
  match env with
  | [] => None
  | s :: r => match filter (called k) s with [] => find_table r k | [v] => Some v | _ => None end
  end.

(** What there is to say about the names in a query. *)
Inductive fact :=
| FRef (unqualified alias : bool) (table : option tref) (here : list tref)  (* a column; [alias]: it has the name of an alias of the SELECT clause;
                                                                    [here]: tables of the FROM clause so far that have such a column *)
| FStar (table : option tref) (own : bool)                      (* t.star; [own]: t belongs to the FROM clause of the same query *)
| FScan (full : name) (table : tref)                            (* a table in FROM *)
| FDef (x : name) (shadows : bool).                             (* a CTE; [shadows]: there is a visible one of the same name *)
Definition answer (f : fact) : list (option tref) :=
  match f with FRef _ _ t _ | FStar t _ => [t] | FScan _ t => [Some t] | FDef _ _ => [] end.
Definition answers (l : list fact) : list (option tref) := flat_map answer l.

Section Sql.
  Context (schema : name -> list name).
  Section Blocks.
    Context {Q : Type} (sq : list scope -> cenv -> Q -> list fact * list name).
    Definition sql_ref (env : list scope) (here : scope) (als : list name) (r : cref) : fact :=
      match r with
      | Un c => FRef true (mem c als) (find_column env c) (map v_ref (filter (offers c) here))
      | Qu k _ => FRef false false (option_map v_ref (find_table env k)) []
      end.
    Definition sql_item (env : list scope) (ce : cenv) (here : scope) (als : list name) (i : item Q) : list fact :=
      match i with IRef r => [sql_ref env here als r] | ISub q => fst (sq env ce q) end.
    Definition renamed (cols s : list name) : list name := cols ++ skipn (length cols) s.

    Definition sql_cte (outer : list scope) (ce : cenv) (c : cte Q) : list fact * cenv :=
      match c with
      | CQ x cols q => let '(l, s) := sq outer ce q in
          (FDef x (match find_cte ce x with Some _ => true | None => false end) :: l, (x, renamed cols s) :: ce)
      | CV x cols l =>
          (FDef x (match find_cte ce x with Some _ => true | None => false end) :: flat_map (sql_item outer ce [] []) l, (x, cols) :: ce)
      end.
    Fixpoint sql_ctes (outer : list scope) (ce : cenv) (w : list (cte Q)) : list fact * cenv :=
      match w with
      | [] => ([], ce)
      | c :: r => let '(x, ce1) := sql_cte outer ce c in let '(y, ce2) := sql_ctes outer ce1 r in (x ++ y, ce2)
      end.

    (** The entries after [prev] in a FROM clause. *)
    Fixpoint sql_from (outer : list scope) (ce : cenv) (f : fitem Q) (prev : scope) : list fact * scope :=
      match f with
      | FTab full a =>
          let v := match find_cte ce full, a with
                   | Some s, None => V (Some full) (virt full) s
                   | Some s, Some a => V (Some a) (T (Some full) (Some a) true) s
                   | None, None => V (Some full) (T (Some full) None false) (schema full)
                   | None, Some a => V (Some a) (T (Some full) (Some a) false) (schema full)
                   end in
          ([FScan full (v_ref v)], [v])
      | FJoin l r on =>
          let '(x, s1) := sql_from outer ce l prev in let '(y, s2) := sql_from outer ce r (prev ++ s1) in
          (x ++ y ++ flat_map (sql_item ((s1 ++ s2) :: outer) ce (prev ++ s1 ++ s2) []) on, s1 ++ s2)
      | FSub a cols lateral q =>
          let '(x, s) := sq (if lateral then prev :: outer else outer) ce q in (x, [V a (T None a true) (renamed cols s)])
      | FVal a cols l => (flat_map (sql_item outer ce [] []) l, [V a (T None a true) cols])
      | FFun a l => (flat_map (sql_item (prev :: outer) ce prev []) l, [V a (T None a true) []])
      end.
    Fixpoint sql_froms (outer : list scope) (ce : cenv) (f : list (fitem Q)) (prev : scope) : list fact * scope :=
      match f with
      | [] => ([], prev)
      | e :: r => let '(x, s) := sql_from outer ce e prev in let '(y, s') := sql_froms outer ce r (prev ++ s) in (x ++ y, s')
      end.

    Definition sql_target (env : list scope) (ce : cenv) (here : scope) (t : target Q) : list fact :=
      match t with
      | TStar => []
      | TStarOf k => [FStar (option_map v_ref (find_table env k)) (existsb (called k) here)]
      | TCol r _ => [sql_ref env here [] r]
      | TExpr l _ => flat_map (sql_item env ce here []) l
      end.
    (** The columns of the result with the tables they come from. *)
    Definition columns_of (v : vis) : list (name * option tref) := map (fun c => (c, Some (v_ref v))) (v_cols v).
    Definition ref_table (env : list scope) (r : cref) : option tref :=
      match r with Un c => find_column env c | Qu k _ => option_map v_ref (find_table env k) end.
    Definition sql_outputs (env : list scope) (here : scope) (t : target Q) : list (name * option tref) :=
      match t with
      | TStar => flat_map columns_of here
      | TStarOf k => match find_table env k with Some v => columns_of v | None => [] end
      | TCol r None => [(cname r, ref_table env r)]
      | TCol _ (Some a) | TExpr _ (Some a) => [(a, None)]
      | TExpr _ None => []
      end.
    Definition sql_alias (t : target Q) : list name := match t with TCol _ (Some a) | TExpr _ (Some a) => [a] | _ => [] end.
    Definition sql_okey (env : list scope) (ce : cenv) (here : scope) (als : list name) (outs : list (name * option tref)) (k : okey Q) : list fact :=
      match k with
      | OBare c =>
          [FRef true (mem c als) (match find (fun o => fst o =? c) outs with Some o => snd o | None => find_column env c end)
             (map v_ref (filter (offers c) here))]
      | OExpr l => flat_map (sql_item env ce here als) l
      end.
    Definition sql_select (outer : list scope) (ce : cenv) (w : list (cte Q)) (f : list (fitem Q)) (ts : list (target Q)) (wh : list (item Q)) (ob : list (okey Q))
        : list fact * list name :=
      let '(x1, ce1) := sql_ctes outer ce w in
      let '(x2, here) := sql_froms outer ce1 f [] in
      let env := here :: outer in
      let outs := flat_map (sql_outputs env here) ts in
      let als := flat_map sql_alias ts in
      (x1 ++ x2 ++ flat_map (sql_target env ce1 here) ts ++ flat_map (sql_item env ce1 here als) wh ++ flat_map (sql_okey env ce1 here als outs) ob,
       map fst outs).
    Definition sql_setop (outer : list scope) (ce : cenv) (w : list (cte Q)) (l r : Q) (ob : list name) : list fact * list name :=
      let '(x1, ce1) := sql_ctes outer ce w in
      let '(x2, s) := sq outer ce1 l in
      let '(x3, _) := sq outer ce1 r in
      (x1 ++ x2 ++ x3 ++ map (fun _ => FRef true false None []) ob, s).
  End Blocks.
  Fixpoint sql (outer : list scope) (ce : cenv) (q : query) : list fact * list name :=
    match q with
    | QSel w f ts wh ob => sql_select sql outer ce w f ts wh ob
    | QSet w l r ob => sql_setop sql outer ce w l r ob
    end.
End Sql.

(** ** Queries with consistent names *)
Section All.
  Context {A : Type} (P : A -> Prop).
  Fixpoint All (l : list A) : Prop := match l with [] => True | a :: r => P a /\ All r end.
End All.
Section Named.
  (** What each alias stands for in the whole query ([None]: a name of tables), which names are CTEs, which are used as qualifiers. *)
  Context (al : name -> option tref) (is_cte qual : name -> bool).
  Section Blocks.
    Context {Q : Type} (nq : Q -> Prop).
    Definition named_ref (r : cref) : Prop := match r with Un _ => True | Qu k _ => qual k = true end.
    Definition named_item (i : item Q) : Prop := match i with IRef r => named_ref r | ISub q => nq q end.
    Definition named_target (t : target Q) : Prop :=
      match t with TStar => True | TStarOf k => qual k = true | TCol r _ => named_ref r | TExpr l _ => All named_item l end.
    (** Aliases are no table names and belong to one table; a qualifier that is a table name is not the name of a table with an alias; CTEs
        are used without alias; subqueries have an alias and no column names; there are no functions. *)
    Fixpoint named_from (f : fitem Q) : Prop :=
      match f with
      | FTab full None => al full = None
      | FTab full (Some a) => al full = None /\ al a = Some (T (Some full) (Some a) false) /\ is_cte full = false /\ qual full = false
      | FJoin l r on => named_from l /\ named_from r /\ All named_item on
      | FSub (Some a) cols _ q => al a = Some (virt a) /\ cols = [] /\ nq q
      | FVal (Some a) _ l => al a = Some (virt a) /\ All named_item l
      | FSub None _ _ _ | FVal None _ _ | FFun _ _ => False
      end.
    Definition named_cte (c : cte Q) : Prop :=
      match c with
      | CQ x cols q => al x = None /\ is_cte x = true /\ cols = [] /\ nq q
      | CV x _ l => al x = None /\ is_cte x = true /\ All named_item l
      end.
    Definition named_okey (k : okey Q) : Prop := match k with OBare _ => True | OExpr l => All named_item l end.
    Fixpoint fkeys (f : fitem Q) : list name :=
      match f with
      | FTab full a => [match a with Some a => a | None => full end]
      | FJoin l r _ => fkeys l ++ fkeys r
      | FSub (Some a) _ _ _ | FVal (Some a) _ _ | FFun (Some a) _ => [a]
      | FSub None _ _ _ | FVal None _ _ | FFun None _ => []
      end.
  End Blocks.
  Fixpoint named (q : query) : Prop :=
    match q with
    | QSel w f ts wh ob =>
        All (named_cte named) w /\ (All (named_from named) f /\ NoDup (flat_map fkeys f)) /\ All (named_target named) ts /\ All (named_item named) wh /\ All (named_okey named) ob
    | QSet w l r _ => All (named_cte named) w /\ named l /\ named r
    end.
  (** Columns without qualifier belong to exactly one table of their own FROM clause or to none at all, and are not hidden by an alias;
      qualifiers stand for a table, for t.star one of the same FROM clause; a name that is used for a CTE is not used for another table; CTEs are not redefined. *)
  Definition good (f : fact) : Prop :=
    match f with
    | FRef true true t _ => t = None
    | FRef true false t here => here = match t with Some t => [t] | None => [] end
    | FRef false _ t _ => t <> None
    | FStar t own => t <> None /\ own = true
    | FScan full t => t_virt t = is_cte full
    | FDef _ sh => sh = false
    end.
End Named.
Definition plain_names (schema : name -> list name) (q : query) : Prop :=
  exists al is_cte qual, named al is_cte qual q /\ Forall (good is_cte) (fst (sql schema [] [] q)).
