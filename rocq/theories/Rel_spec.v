(** What queries and relational algebra trees mean.  Independent of the functions of [Rel_model]; only the syntax of expressions,
    predicates, queries and trees is shared.

    A row assigns a value to every column.  Both sides work on groups of rows: a group is a single row up to the point where
    GROUP BY or an aggregate combines several rows. *)
From Coq Require Import List Bool Arith Permutation.
From Verif Require Import PyBase Pred_model Pred_spec Rel_model.
Import ListNotations.

(** How a DBMS interprets expressions over groups of rows, comparison operators and unary predicates. *)
Record rsem (V : Type) := { gval : list (col -> V) -> rx -> V; gop : binop -> V -> V -> tv; gun : unop -> V -> tv }.
Arguments gval {V}. Arguments gop {V}. Arguments gun {V}.

Section Meaning.
  Context {V : Type} {EV : EqD V} (null : V) (M : rsem V).
  Definition tuple := nat -> V.
  Definition row := col -> V.
  Definition group := list row.
  (** The contents of all tables. *)
  Context (db : tbl -> list tuple).

  Fixpoint psem (f : rx -> V) (p : rpred) : tv :=
    match p with
    | PBin op a b => gop M op (f a) (f b)
    | PBetween a lo hi => and3 (gop M OpGe (f a) (f lo)) (gop M OpLe (f a) (f hi))
    | PIn a vs => any3 (map (fun v => gop M OpEq (f a) (f v)) vs)
    | PUn op a => gun M op (f a)
    | PNot q => not3 (psem f q)
    | PAnd ps => all3 (map (psem f) ps)
    | POr ps => any3 (map (psem f) ps)
    end.
  (** A row (or group) qualifies if the condition is true, i.e. neither false nor unknown. *)
  Definition holds (p : rpred) (g : group) : bool := match psem (gval M g) p with T3 => true | _ => false end.

  Definition bind (t : tbl) (u : tuple) (r : row) : row := fun c => if eqd (c_tab c) (Some t) then u (c_name c) else r c.
  (** All combinations of the rows of some tables. *)
  Fixpoint combos (ts : list tbl) : list row :=
    match ts with [] => [fun _ => null] | t :: r => flat_map (fun u => map (bind t u) (combos r)) (db t) end.

  Definition key (gc : list rx) (r : row) : list V := map (gval M [r]) gc.
  (** GROUP BY; without group columns there is exactly one group. *)
  Definition group_by (gc : list rx) (rows : list row) : list group :=
    match gc with
    | [] => [rows]
    | _ => map (fun k => filter (fun r => deqb (key gc r) k) rows) (dedup (map (key gc) rows))
    end.

  (** *** SQL *)
  Fixpoint has_agg (e : rx) : bool :=
    match e with RApp (KAgg _) _ => true | RApp _ l => existsb has_agg l | _ => false end.
  Fixpoint phas_agg (p : rpred) : bool :=
    match p with
    | PBin _ a b => has_agg a || has_agg b
    | PBetween a lo hi => has_agg a || has_agg lo || has_agg hi
    | PIn a vs => has_agg a || existsb has_agg vs
    | PUn _ a => has_agg a
    | PNot q => phas_agg q
    | PAnd ps | POr ps => existsb phas_agg ps
    end.
  Definition oholds (o : option rpred) (g : group) : bool := match o with Some p => holds p g | None => true end.
  Definition grouped (q : squery) : bool :=
    match q_group q with _ :: _ => true | [] => false end
    || match q_select q with Some ts => existsb has_agg ts | None => false end
    || match q_having q with Some h => phas_agg h | None => false end.
  (** FROM and WHERE, then GROUP BY, then HAVING. *)
  Definition sql_rows (q : squery) : list row := filter (fun r => oholds (q_where q) [r]) (combos (q_from q)).
  Definition sql_groups (q : squery) : list group :=
    filter (oholds (q_having q)) (if grouped q then group_by (q_group q) (sql_rows q) else map (fun r => [r]) (sql_rows q)).
  (** The result of a query with an explicit SELECT list, up to order and without LIMIT. *)
  Definition select_of (q : squery) : list rx := match q_select q with Some ts => ts | None => [] end.
  Definition sql_result (q : squery) : list (list V) :=
    let rs := map (fun g => map (gval M g) (select_of q)) (sql_groups q) in if q_distinct q then dedup rs else rs.
  (** Does this list of rows answer the query (ORDER BY aside)? *)
  Definition answers (q : squery) (rs : list (list V)) : Prop :=
    match q_limit q with
    | None => Permutation rs (sql_result q)
    | Some k => length rs = Nat.min k (length (sql_result q)) /\ exists rest, Permutation (rs ++ rest) (sql_result q)
    end.

  (** *** Relational algebra *)
  (** The tables of the relations below a node. *)
  Fixpoint rels (n : rnode) : list tbl :=
    match n with
    | NRel t _ => [t]
    | NSel m _ | NMap m _ | NGroup m _ _ | NSort m _ | NProj m _ | NDup m => rels m
    | NCross l r | NTheta l r _ | NUnion l r | NInter l r | NDiff l r => rels l ++ rels r
    end.
  Definition owned (ts : list tbl) (c : col) : bool := match c_tab c with Some t => mem t ts | None => false end.
  (** Two rows side by side: the columns of the tables [ts] are those of the first row. *)
  Definition merge (ts : list tbl) (r s : row) : row := fun c => if owned ts c then r c else s c.
  Definition gmerge (ts : list tbl) (g h : group) : group := flat_map (fun r => map (merge ts r) h) g.
  Definition cross (ts : list tbl) (L R : list group) : list group := flat_map (fun g => map (gmerge ts g) R) L.

  (** The groups that a node without projection produces. *)
  Fixpoint eval (n : rnode) : list group :=
    match n with
    | NRel t _ => map (fun u => [bind t u (fun _ => null)]) (db t)
    | NSel m p => filter (holds p) (eval m)
    | NCross l r => cross (rels l) (eval l) (eval r)
    | NTheta l r p => filter (holds p) (cross (rels l) (eval l) (eval r))
    | NMap m _ => eval m
    | NGroup m gc _ => group_by gc (concat (eval m))
    | NSort m _ => eval m
    | _ => []
    end.
  (** The tuples that a node above the projection produces; intersection and difference are those of sets, 780-1001. *)
  Fixpoint out (n : rnode) : list (list V) :=
    match n with
    | NProj m ts => map (fun g => map (gval M g) ts) (eval m)
    | NSort m _ | NMap m _ => out m
    | NUnion l r => out l ++ out r
    | NInter l r => dedup (filter (fun x => mem x (out r)) (out l))
    | NDiff l r => dedup (filter (fun x => negb (mem x (out r))) (out l))
    | NDup m => dedup (out m)
    | _ => []
    end.

  (** Set operations of SQL. *)
  Fixpoint sql_set (q : query) : list (list V) :=
    match q with
    | QSel s => sql_result s
    | QSet SUnion l r _ => dedup (sql_set l ++ sql_set r)
    | QSet SUnionAll l r _ => sql_set l ++ sql_set r
    | QSet SIntersect l r _ => dedup (filter (fun x => mem x (sql_set r)) (sql_set l))
    | QSet SExcept l r _ => dedup (filter (fun x => negb (mem x (sql_set r))) (sql_set l))
    end.

  (** What is read off a group through some columns, and equality of results up to order as seen through any columns. *)
  Definition read (cs : list col) (g : group) : list (list V) := map (fun r => map r cs) g.
  Definition same_bag (L L' : list group) : Prop := forall cs, Permutation (map (read cs) L) (map (read cs) L').

  (** The value of an expression only depends on the columns it mentions, and not on the order of the rows of a group. *)
  Definition local_sem : Prop :=
    forall g h e, Permutation (read (xcols e) g) (read (xcols e) h) -> gval M g e = gval M h e.
End Meaning.

(** *** Well-formed queries *)
(** Every column belongs to a table of the FROM clause. *)
Definition bound_in (ts : list tbl) (cs : list col) : Prop := forall c, In c cs -> exists t, c_tab c = Some t /\ In t ts.
(** The conditions that the WHERE clause requires, one level deep. *)
Definition top (p : rpred) : list rpred := match p with PAnd ps => ps | _ => [p] end.
(** A column occurs somewhere in the predicate. *)
Definition uses_columns (p : rpred) : Prop := exists c, In c (pcols xcols p).
(** All columns of the predicate (there are some) belong to one table. *)
Definition one_table (p : rpred) : Prop := exists t, uses_columns p /\ forall c, In c (pcols xcols p) -> c_tab c = Some t.
(** The conditions under which the translation is faithful: every table occurs once in FROM; the conditions in WHERE use columns
    of these tables and no aggregates; all conditions in HAVING use aggregates, and columns of none or several tables; neither
    DISTINCT nor LIMIT. *)
Definition where_ok (q : squery) : Prop :=
  forall p, q_where q = Some p -> bound_in (q_from q) (pcols xcols p) /\ forall r, In r (top p) -> uses_columns r /\ phas_agg r = false.
Definition having_ok (q : squery) : Prop :=
  forall p, q_having q = Some p ->
    bound_in (q_from q) (pcols xcols p) /\ phas_agg p = true /\ ~ one_table p /\ forall r, In r (top p) -> phas_agg r = true /\ ~ one_table r.
Record plain (q : squery) : Prop :=
  { pl_from : NoDup (q_from q); pl_where : where_ok q; pl_having : having_ok q; pl_distinct : q_distinct q = false; pl_limit : q_limit q = None }.

(** *** Queries that can be translated *)
(** Every function has an argument, and no predicate is used as an expression. *)
Fixpoint xok (e : rx) : Prop :=
  match e with
  | RApp (KOther _) _ | RApp _ [] => False
  | RApp _ l => fold_right (fun x P => xok x /\ P) True l
  | _ => True
  end.
(** A column, or a computation whose outermost operation is not ANY, ALL, or an array. *)
Definition head_ok (e : rx) : Prop :=
  match e with
  | RCol _ | RVal _ => True
  | RApp (KQuant _) _ | RApp KArr _ | RApp (KOther _) _ | RStar => False
  | RApp _ _ => True
  end.
(** Uses columns of exactly one table. *)
Definition side (e : rx) (t : tbl) : Prop := xcols e <> [] /\ (forall c, In c (xcols e) -> c_tab c = Some t) /\ head_ok e.
Definition simple_condition (r : rpred) : Prop :=
  uses_columns r /\ phas_agg r = false /\ (forall e, In e (pexprs r) -> xok e) /\
  match r with
  | PAnd _ => False
  | PBin _ a b => one_table r \/ exists t u, t <> u /\ side a t /\ side b u
  | _ => True
  end.
Definition late_condition (r : rpred) : Prop := (uses_columns r \/ phas_agg r = true) /\ forall e, In e (pexprs r) -> xok e.
Record translatable (q : squery) : Prop :=
  { tr_from : q_from q <> [] /\ NoDup (q_from q);
    tr_where : forall p, q_where q = Some p -> top p <> [] /\ bound_in (q_from q) (pcols xcols p) /\ forall r, In r (top p) -> simple_condition r;
    tr_having : forall p, q_having q = Some p -> late_condition p /\ forall r, In r (top p) -> late_condition r;
    tr_order : forall k, In k (q_order q) -> head_ok (fst k) }.

(** *** Availability of expressions *)
(** Literals and [*] always are available, everything else has to be provided. *)
Definition usable (prov : list rx) (e : rx) : Prop := match e with RVal _ | RStar => True | _ => In e prov end.
(** A mapping can compute functions of what its input provides and what it computes itself; it cannot invent columns, nor aggregate. *)
Definition computable (prov : list rx) (e : rx) : Prop :=
  match e with RApp (KAgg _) _ => False | RApp _ l => forall a, In a l -> usable prov a | _ => False end.
(** Every operator of the tree finds the expressions it works on. *)
Fixpoint avail (n : rnode) : Prop :=
  match n with
  | NRel _ _ => True
  | NSel m p => avail m /\ forall e, In e (pexprs p) -> usable (provided m) e
  | NCross l r | NUnion l r | NInter l r | NDiff l r => avail l /\ avail r
  | NTheta l r p => avail l /\ avail r /\ forall e, In e (pexprs p) -> usable (provided l ++ provided r) e
  | NMap m es => avail m /\ forall e, In e es -> computable (provided m ++ es) e
  | NGroup m gc ag =>
      avail m /\ (forall g, In g gc -> usable (provided m) g) /\
      forall a, In a ag -> match a with RApp (KAgg _) l => forall x, In x l -> usable (provided m) x | _ => False end
  | NSort m ks => avail m /\ forall k, In k ks -> usable (provided m) (fst k)
  | NProj m ts => avail m /\ forall e, In e ts -> usable (provided m) e
  | NDup m => avail m
  end.
(** The columns and aggregates that an expression is built from. *)
Fixpoint atoms (e : rx) : list rx :=
  match e with RCol _ | RApp (KAgg _) _ => [e] | RApp _ l => flat_map atoms l | _ => [] end.
Definition late_exprs (q : squery) : list rx := select_of q ++ match q_having q with Some p => pexprs p | None => [] end.
(** GROUP BY columns only; no aggregates of aggregates; after grouping, only the group columns and aggregates are used; ORDER BY literals,
    columns, and aggregates of the SELECT and HAVING clauses. *)
Record regular (q : squery) : Prop :=
  { rg_from : NoDup (q_from q);
    rg_bound : bound_in (q_from q) (sel_cols q);
    rg_where : where_ok q;
    rg_group : forall g, In g (q_group q) -> exists c, g = RCol c;
    rg_nested : forall k l a, In (RApp (KAgg k) l) (flat_map atoms (late_exprs q)) -> In a l -> has_agg a = false;
    rg_late : grouped q = true -> forall c, In (RCol c) (flat_map atoms (late_exprs q)) -> In (RCol c) (q_group q);
    rg_order : forall k, In k (q_order q) ->
      match fst k with
      | RVal _ => True
      | RCol c => grouped q = true -> In (RCol c) (q_group q)
      | RApp (KAgg _) _ => In (fst k) (flat_map atoms (late_exprs q))
      | _ => False
      end }.

(** The rows come out sorted by the keys: a sort with only a mapping and a projection above. *)
Inductive sorted_by (ks : list (rx * bool)) : rnode -> Prop :=
| sorted_here n : sorted_by ks (NSort n ks)
| sorted_map n es : sorted_by ks n -> sorted_by ks (NMap n es)
| sorted_proj n ts : sorted_by ks n -> sorted_by ks (NProj n ts).
