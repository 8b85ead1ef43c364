(* Queries as collections of clauses, and the functions that assemble them.

   postbound/qal/_qal.py 8474-8514, 8919-8952, 9174-9175   SqlQuery
   postbound/qal/_qal.py 9184-9393      ImplicitSqlQuery, ExplicitSqlQuery, MixedSqlQuery
   postbound/qal/_qal.py 9441-9484, 9776-9817, 10007-10018 SetQuery
   postbound/qal/_qal.py 10054-10216    build_query
   postbound/transform.py 672-786       as_star_query, as_count_star_query, drop_hints, as_explain
   postbound/transform.py 833-957       add_clause, drop_clause, replace_clause

   Simplifications: the contents of a clause are opaque (a number per
   content), except for the queries below set operations.  Clauses with equal
   contents are identical.  Clauses are never empty (their constructors refuse
   that: _qal.py 5629, 5965, 6957, 7215, 7468), hence all of them are true in
   the sense of bool(). *)
From Coq Require Import List Bool Arith.
From Verif Require Import PyBase.
Import ListNotations.

(* From and its two subclasses, _qal.py 6926, 7019, 7074 *)
Inductive from_kind := FImplicit | FExplicit | FPlain.
(* Limit / PostgresLimitClause (postgres.py 2163) and Explain /
   PostgresExplainClause (postgres.py 2140): the flag tells the subclass *)
(* SqlQuery and its subclasses *)
Inductive qclass := QBase | QImplicit | QExplicit | QMixed.
(* SetOperator, _qal.py 79-96 *)
Inductive setop := OpUnion | OpUnionAll | OpIntersect | OpExcept.

#[global] Instance EqD_from_kind : EqD from_kind.
Proof. intros a b. unfold EqD in *. decide equality. Defined.
#[global] Instance EqD_qclass : EqD qclass.
Proof. intros a b. unfold EqD in *. decide equality. Defined.
#[global] Instance EqD_setop : EqD setop.
Proof. intros a b. unfold EqD in *. decide equality. Defined.

Definition content := nat.
Record sub := mkSub { s_pg : bool; s_content : content }.
Record from := mkFrom { f_kind : from_kind; f_content : content }.

(* Hint(preparatory_statements, query_hints), _qal.py 5101; 0 is the empty string *)
Record hint := mkHint { h_prep : content; h_query : content }.

Inductive query :=
| QSql (cls : qclass) (hints : option hint) (explain : option sub) (cte : option content)
       (select : content) (from_clause : option from) (where_clause group having order : option content)
       (limit : option sub)
| QSet (op : setop) (l r : query) (hints : option hint) (explain : option sub) (cte : option content)
       (order : option content) (limit : option sub).

Inductive clause :=
| CHint (h : hint) | CExplain (s : sub) | CCte (c : content) | CSelect (c : content) | CFrom (f : from)
| CWhere (c : content) | CGroup (c : content) | CHaving (c : content) | COrder (c : content) | CLimit (s : sub)
| CUnion (l r : query) (all : bool) | CExcept (l r : query) | CIntersect (l r : query).

Definition olist {A} (o : option A) : list A := match o with Some a => [a] | None => [] end.
Definition omap {A B} (f : A -> B) (o : option A) : option B := match o with Some a => Some (f a) | None => None end.

(* SetQuery.clauses, _qal.py 9802-9810 *)
Definition set_clause (op : setop) (l r : query) : clause :=
  match op with
  | OpUnion => CUnion l r false
  | OpUnionAll => CUnion l r true
  | OpIntersect => CIntersect l r
  | OpExcept => CExcept l r
  end.

(* SqlQuery.clauses, _qal.py 8936-8952, and SetQuery.clauses, 9793-9817 *)
Definition clauses (q : query) : list clause :=
  match q with
  | QSql _ hi ex ct se fr wh gr ha od li =>
      olist (omap CHint hi) ++ olist (omap CExplain ex) ++ olist (omap CCte ct) ++ [CSelect se]
      ++ olist (omap CFrom fr) ++ olist (omap CWhere wh) ++ olist (omap CGroup gr) ++ olist (omap CHaving ha)
      ++ olist (omap COrder od) ++ olist (omap CLimit li)
  | QSet op l r hi ex ct od li =>
      olist (omap CHint hi) ++ olist (omap CExplain ex) ++ olist (omap CCte ct) ++ [set_clause op l r]
      ++ olist (omap COrder od) ++ olist (omap CLimit li)
  end.

(* the query class chosen by build_query, _qal.py 10085, 10103-10109,
   10178-10216 *)
Definition class_for (f : option from) : qclass :=
  match f with
  | None => QImplicit
  | Some f => match f_kind f with FImplicit => QImplicit | FExplicit => QExplicit | FPlain => QMixed end
  end.

Definition is_explain (q : query) : bool :=
  match q with
  | QSql _ _ ex _ _ _ _ _ _ _ _ => match ex with Some _ => true | None => false end
  | QSet _ _ _ _ ex _ _ _ => match ex with Some _ => true | None => false end
  end.

(* SetQuery.__init__ removes EXPLAIN from its input queries by rebuilding them
   from the other clauses, _qal.py 9453-9464.  [strip_explain_correct] in
   Clause_proofs.v shows that this function is that reconstruction. *)
Fixpoint strip_explain (q : query) : query :=
  if is_explain q then
    match q with
    | QSql _ hi _ ct se fr wh gr ha od li => QSql (class_for fr) hi None ct se fr wh gr ha od li
    | QSet op l r hi _ ct od li => QSet op (strip_explain l) (strip_explain r) hi None ct od li
    end
  else q.

(* SetQuery.__init__, _qal.py 9441-9473 *)
Definition set_query (op : setop) (l r : query) (hi : option hint) (ex : option sub) (ct od : option content)
  (li : option sub) : query :=
  QSet op (strip_explain l) (strip_explain r) hi ex ct od li.

(* the local variables of build_query, _qal.py 10085-10092 *)
Record acc := mkAcc {
  a_implicit : bool; a_explicit : bool; a_set : bool;
  a_cte : option content; a_select : option content; a_from : option from; a_where : option content;
  a_group : option content; a_having : option content; a_order : option content; a_limit : option sub;
  a_union : option (query * query * bool); a_except : option (query * query);
  a_intersect : option (query * query); a_explain : option sub; a_hint : option hint
}.
Definition acc0 : acc :=
  mkAcc true true false None None None None None None None None None None None None None.

(* one iteration of the loop, _qal.py 10093-10134; None stands for a clause
   that is None and is skipped (10094) *)
Definition bstep (a : acc) (c : option clause) : acc :=
  let '(mkAcc im xp st ct se fr wh gr ha od li un exc int ex hi) := a in
  match c with
  | None => a
  | Some (CCte c) => mkAcc im xp st (Some c) se fr wh gr ha od li un exc int ex hi
  | Some (CSelect c) => mkAcc im xp st ct (Some c) fr wh gr ha od li un exc int ex hi
  | Some (CFrom f) =>
      match f_kind f with
      | FImplicit => mkAcc true false st ct se (Some f) wh gr ha od li un exc int ex hi
      | FExplicit => mkAcc false true st ct se (Some f) wh gr ha od li un exc int ex hi
      | FPlain => mkAcc false false st ct se (Some f) wh gr ha od li un exc int ex hi
      end
  | Some (CWhere c) => mkAcc im xp st ct se fr (Some c) gr ha od li un exc int ex hi
  | Some (CGroup c) => mkAcc im xp st ct se fr wh (Some c) ha od li un exc int ex hi
  | Some (CHaving c) => mkAcc im xp st ct se fr wh gr (Some c) od li un exc int ex hi
  | Some (COrder c) => mkAcc im xp st ct se fr wh gr ha (Some c) li un exc int ex hi
  | Some (CLimit s) => mkAcc im xp st ct se fr wh gr ha od (Some s) un exc int ex hi
  | Some (CUnion l r all) => mkAcc im xp true ct se fr wh gr ha od li (Some (l, r, all)) exc int ex hi
  | Some (CExcept l r) => mkAcc im xp true ct se fr wh gr ha od li un (Some (l, r)) int ex hi
  | Some (CIntersect l r) => mkAcc im xp true ct se fr wh gr ha od li un exc (Some (l, r)) ex hi
  | Some (CExplain s) => mkAcc im xp st ct se fr wh gr ha od li un exc int (Some s) hi
  | Some (CHint h) => mkAcc im xp st ct se fr wh gr ha od li un exc int ex (Some h)
  end.

(* the final part, _qal.py 10136-10216.  MixedSqlQuery.__init__ (9370-9375)
   refuses implicit and explicit FROM clauses. *)
Definition bfinish (a : acc) : res query :=
  let '(mkAcc im xp st ct se fr wh gr ha od li un exc int ex hi) := a in
  if st then
    rbind (match un, exc, int with
           | Some (l, r, all), _, _ => Ok (if all : bool then OpUnionAll else OpUnion, l, r)
           | None, Some (l, r), _ => Ok (OpExcept, l, r)
           | None, None, Some (l, r) => Ok (OpIntersect, l, r)
           | None, None, None => Raise ValueError
           end)
      (fun '(op, l, r) =>
       match se, fr, wh, gr, ha with
       | None, None, None, None, None => Ok (set_query op l r hi ex ct od li)
       | _, _, _, _, _ => Raise ValueError
       end)
  else
    match se with
    | None => Raise ValueError
    | Some s =>
        if im then Ok (QSql QImplicit hi ex ct s fr wh gr ha od li)
        else if xp then Ok (QSql QExplicit hi ex ct s fr wh gr ha od li)
        else match fr with
             | Some (mkFrom FImplicit _) | Some (mkFrom FExplicit _) => Raise ValueError
             | _ => Ok (QSql QMixed hi ex ct s fr wh gr ha od li)
             end
    end.

(* build_query, _qal.py 10054-10216 *)
Definition build_query (cs : list (option clause)) : res query :=
  bfinish (fold_left bstep cs acc0).

Definition build (cs : list clause) : res query := build_query (map Some cs).

(* ---- types of clauses ---- *)

Inductive ctype :=
| THint | TExplain | TPgExplain | TCte | TSelect | TFrom | TImplicitFrom | TExplicitFrom | TWhere | TGroup
| THaving | TOrder | TLimit | TPgLimit | TUnion | TExcept | TIntersect.

#[global] Instance EqD_ctype : EqD ctype.
Proof. intros a b. unfold EqD in *. decide equality. Defined.

(* type(clause) *)
Definition type_of (c : clause) : ctype :=
  match c with
  | CHint _ => THint
  | CExplain s => if s_pg s then TPgExplain else TExplain
  | CCte _ => TCte
  | CSelect _ => TSelect
  | CFrom f => match f_kind f with FImplicit => TImplicitFrom | FExplicit => TExplicitFrom | FPlain => TFrom end
  | CWhere _ => TWhere | CGroup _ => TGroup | CHaving _ => THaving | COrder _ => TOrder
  | CLimit s => if s_pg s then TPgLimit else TLimit
  | CUnion _ _ _ => TUnion | CExcept _ _ => TExcept | CIntersect _ _ => TIntersect
  end.

(* isinstance(clause, t) *)
Definition isinstance (c : clause) (t : ctype) : bool :=
  deqb (type_of c) t
  || match t with
     | TExplain => deqb (type_of c) TPgExplain
     | TLimit => deqb (type_of c) TPgLimit
     | TFrom => deqb (type_of c) TImplicitFrom || deqb (type_of c) TExplicitFrom
     | _ => false
     end.

(* ---- transform.py ---- *)

(* add_clause, transform.py 854-859 *)
Definition add_clause (q : query) (new : list clause) : res query :=
  let types := map type_of new in
  build (filter (fun c => negb (mem (type_of c) types)) (clauses q) ++ new).

(* drop_clause, transform.py 905-913; the argument are clause types or clauses *)
Definition drop_clause (q : query) (drop : list (ctype + clause)) : res query :=
  let types := map (fun d => match d with inl t => t | inr c => type_of c end) drop in
  build (filter (fun c => negb (mem (type_of c) types)) (clauses q)).

(* replace_clause, transform.py 940-957.  The set of available replacements is
   iterated in some order: [reps] is that order.  The replacement that is
   chosen is removed from the set by identity. *)
Fixpoint pick (c : clause) (reps : list clause) : option (clause * list clause) :=
  match reps with
  | [] => None
  | r :: rest =>
      if isinstance r (type_of c) then Some (r, rest)
      else match pick c rest with Some (x, rest') => Some (x, r :: rest') | None => None end
  end.
Fixpoint replace_loop (cs : list clause) (reps : list clause) : list clause :=
  match cs with
  | [] => []
  | c :: rest =>
      match pick c reps with
      | Some (r, reps') => r :: replace_loop rest reps'
      | None => c :: replace_loop rest reps
      end
  end.
Definition replace_clause (q : query) (reps : list clause) : res query := build (replace_loop (clauses q) reps).

(* as_star_query / as_count_star_query, transform.py 689-717: [star] is the
   new SELECT clause *)
Definition with_select (q : query) (star : content) : res query :=
  build (filter (fun c => negb (isinstance c TSelect)) (clauses q) ++ [CSelect star]).

(* as_explain, transform.py 766-769 *)
Definition as_explain (q : query) (e : sub) : res query :=
  build (filter (fun c => negb (isinstance c TExplain)) (clauses q) ++ [CExplain e]).

Definition q_hints (q : query) : option hint :=
  match q with QSql _ hi _ _ _ _ _ _ _ _ _ => hi | QSet _ _ _ hi _ _ _ _ => hi end.

(* drop_hints, transform.py 738-746 *)
Definition drop_hints (q : query) (preparatory_only : bool) : res query :=
  let new := match q_hints q with
             | Some h => if preparatory_only then Some (CHint (mkHint 0 (h_query h))) else None
             | None => None
             end in
  build_query (map Some (filter (fun c => negb (isinstance c THint)) (clauses q)) ++ [new]).

(* ---- equality of queries ---- *)

(* `a == b` with methods that test isinstance(other, type(self)): for objects
   of a class and a proper subclass Python asks the object of the subclass
   first, whose test fails.  Hence both classes must be the same. *)
Definition same_class (a b : qclass) : bool := deqb a b.

(* `a == b` for Limit and Explain clauses *)
Definition sub_eq (a b : sub) : bool := Bool.eqb (s_pg a) (s_pg b) && deqb (s_content a) (s_content b).
Definition from_eq (a b : from) : bool := deqb (f_kind a) (f_kind b) && deqb (f_content a) (f_content b).
Definition hint_eq (a b : hint) : bool := deqb (h_prep a) (h_prep b) && deqb (h_query a) (h_query b).

Definition oeq {A} (eq : A -> A -> bool) (a b : option A) : bool :=
  match a, b with Some x, Some y => eq x y | None, None => true | _, _ => false end.

(* SqlQuery.__eq__, _qal.py 9174-9175, and SetQuery.__eq__, 10007-10018.  The
   list of clauses of a select query is compared element by element; a
   position is taken by the same kind of clause on both sides or the lists
   differ. *)
Fixpoint query_eq (a b : query) : bool :=
  match a, b with
  | QSql c1 hi1 ex1 ct1 se1 fr1 wh1 gr1 ha1 od1 li1, QSql c2 hi2 ex2 ct2 se2 fr2 wh2 gr2 ha2 od2 li2 =>
      same_class c1 c2 && oeq hint_eq hi1 hi2 && oeq sub_eq ex1 ex2 && oeq deqb ct1 ct2 && deqb se1 se2
      && oeq from_eq fr1 fr2 && oeq deqb wh1 wh2 && oeq deqb gr1 gr2 && oeq deqb ha1 ha2 && oeq deqb od1 od2
      && oeq sub_eq li1 li2
  | QSet o1 l1 r1 hi1 ex1 ct1 od1 li1, QSet o2 l2 r2 hi2 ex2 ct2 od2 li2 =>
      query_eq l1 l2 && query_eq r1 r2 && deqb o1 o2 && oeq deqb ct1 ct2 && oeq deqb od1 od2 && oeq sub_eq li1 li2
      && oeq hint_eq hi1 hi2 && oeq sub_eq ex1 ex2
  | _, _ => false
  end.
