(** Model of replace_expressions and replace_predicate, postbound/transform.py 960-1333.

    Names are numbers.  Expressions are opaque except for subqueries (SubqueryExpression, qal/_qal.py 1209-1290), because the
    replacement decides what happens below an expression.  The replacement is a total function, exceptions that it raises are left
    out.  A query is the list of its clauses; build_query (qal/_qal.py 10054-10216) gives back a query with the same clauses if no
    clause is lost or changes its type, see C16.  SimpleFilter and SimpleJoin are predicates of their own ([inr]). *)
From Coq Require Import List Bool Arith.
From Verif Require Import PyBase Pred_model.
Import ListNotations.

(** JoinType, qal/_qal.py 6672-6703: the types that need a condition and CROSS JOIN. *)
Inductive jtype := JInner | JOuter | JLeft | JRight | JCross.
Inductive fkind := FImplicit | FExplicit | FMixed.
Inductive setop := SUnion | SUnionAll | SIntersect | SExcept.
(** The table of a VALUES list: TableReference with [full_name] and [alias] (_core.py 667-920); an alias alone is a virtual table. *)
Inductive vtab := VReal (name : nat) (alias : option nat) | VVirt (alias : nat).
(** identifier(), _core.py 791-803 *)
Definition identifier (t : vtab) : nat := match t with VReal n None => n | VReal _ (Some a) => a | VVirt a => a end.

Inductive expr := EAtom (n : nat) | ENode (n : nat) (es : list expr) | ESub (q : query)
with source :=
| SDirect (t : nat)
| SSub (q : query) (name : option nat) (lateral : bool)
| SJoin (l r : source) (cond : option (pred expr + nat)) (j : jtype)
| SValues (rows : list (list expr)) (t : option vtab) (cols : list nat)
| SFun (f : expr) (alias : option nat)
with cte := WQuery (q : query) (name : nat) (mat : option bool) | WValues (rows : list (list expr)) (name : nat) (cols : list nat) (mat : option bool)
with clause :=
| CHint (n : nat) | CExplain (n : nat)
| CWith (l : list cte) (recursive : bool)
| CSelect (targets : list (expr * nat)) (distinct : option (list expr))   (* [Some []] is DISTINCT, [Some es] DISTINCT ON *)
| CFrom (k : fkind) (ss : list source)
| CWhere (p : pred expr + nat) | CGroup (es : list expr) (distinct : bool) | CHaving (p : pred expr + nat)
| COrder (es : list (expr * nat))                                         (* expression, direction and position of nulls *)
| CLimit (n : nat)
| CSet (op : setop) (l r : query)
with query := Query (cs : list clause).

Section LMap.
  Context {A B : Type} (f : A -> res B).
  Fixpoint lmapM (l : list A) : res (list B) :=
    match l with [] => Ok [] | x :: r => rbind (f x) (fun y => rbind (lmapM r) (fun ys => Ok (y :: ys))) end.
End LMap.

Section Replace.
  Context (f : expr -> expr).

  (** _replace_expression_in_predicate, 960-1021; the constructors of the predicates do not look at the expressions *)
  Fixpoint rx_p (p : pred expr) : pred expr :=
    match p with
    | PBin op a b => PBin op (f a) (f b)
    | PBetween a lo hi => PBetween (f a) (f lo) (f hi)
    | PIn a vs => PIn (f a) (map f vs)
    | PUn op a => PUn op (f a)
    | PNot q => PNot (rx_p q)
    | PAnd ps => PAnd (map rx_p ps)
    | POr ps => POr (map rx_p ps)
    end.
  Definition rx_pred (p : pred expr + nat) : res (pred expr + nat) :=
    match p with inl p => Ok (inl (rx_p p)) | inr _ => Raise ValueError end.

  Section Rec.
    Context (rq : query -> res query).     (* the recursive call of replace_expressions *)

    (** _replace_expression_in_table_source, 1024-1099 *)
    Fixpoint rx_s (s : source) : res source :=
      match s with
      | SDirect t => Ok s
      | SSub q name lat =>
          match f (ESub q) with
          | ESub q' => rbind (rq q') (fun q'' => Ok (SSub q'' name lat))
          | _ => Raise AssertionError
          end
      | SJoin l r c j =>
          rbind (rx_s l) (fun l' => rbind (rx_s r) (fun r' =>
            match c with
            | Some c => rbind (rx_pred c) (fun c' => Ok (SJoin l' r' (Some c') j))
            | None => Ok (SJoin l' r' None j)
            end))
      | SValues rows t cols =>
          match t with
          | Some t => Ok (SValues (map (map f) rows) (Some (VVirt (identifier t))) cols)
          | None => Raise AttributeError
          end
      | SFun g alias => Ok (SFun (f g) alias)
      end.

    (** the loop over the CTEs, 1135-1154 *)
    Definition rx_w (w : cte) : res cte :=
      match w with
      | WQuery q name mat => rbind (rq q) (fun q' => Ok (WQuery q' name mat))
      | WValues rows name cols mat => Ok (WValues (map (map f) rows) name cols mat)
      end.

    (** _replace_expressions_in_clause, 1102-1205 *)
    Definition rx_c (c : clause) : res clause :=
      match c with
      | CHint _ | CExplain _ | CLimit _ => Ok c
      | CWith l rec => rbind (lmapM rx_w l) (fun l' => Ok (CWith l' rec))
      | CSelect ts d => Ok (CSelect (map (fun t => (f (fst t), snd t)) ts) d)
      | CFrom FImplicit ss => Ok c
      | CFrom k ss => rbind (lmapM rx_s ss) (fun ss' => Ok (CFrom k ss'))
      | CWhere p => rbind (rx_pred p) (fun p' => Ok (CWhere p'))
      | CGroup es d => Ok (CGroup (map f es) d)
      | CHaving p => rbind (rx_pred p) (fun p' => Ok (CHaving p'))
      | COrder es => Ok (COrder (map (fun t => (f (fst t), snd t)) es))
      | CSet op l r => rbind (rq l) (fun l' => rbind (rq r) (fun r' => Ok (CSet op l' r')))
      end.
  End Rec.

  (** replace_expressions, 1208-1233.  The recursion is on what the replacement made of a subquery, hence the fuel. *)
  Fixpoint rx_q (n : nat) (q : query) : res query :=
    match n with
    | 0 => Raise OutOfFuel
    | S m => match q with Query cs => rbind (lmapM (rx_c (rx_q m)) cs) (fun cs' => Ok (Query cs')) end
    end.
End Replace.

(** ** replace_predicate *)
Section Predicate.
  Context {E : Type} {EE : EqD E}.
  Notation pred := (pred E).

  (** _perform_predicate_replacement, 1236-1278 *)
  Fixpoint replace_pred (old new p : pred) : pred :=
    if deqb p old then new
    else match p with
         | PNot q => PNot (replace_pred old new q)
         | PAnd ps => PAnd (map (replace_pred old new) ps)
         | POr ps => POr (map (replace_pred old new) ps)
         | _ => p
         end.

  (** A query as far as replace_predicate is concerned: the WHERE and HAVING conditions and everything else.
      replace_predicate, 1281-1333 *)
  Context {O : Type}.
  Definition replace_predicate (old new : pred) (q : option pred * option pred * O) : option pred * option pred * O :=
    let '(w, h, o) := q in
    match w, h with
    | None, None => q
    | _, _ => (option_map (replace_pred old new) w, option_map (replace_pred old new) h, o)
    end.
End Predicate.
