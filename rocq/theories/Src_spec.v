(** What a query consists of, and what its tables, columns, subqueries, free tables, predicates and result columns are. *)
From Coq Require Import List Bool Arith.
From Verif Require Import PyBase Src_model.
Import ListNotations.
Set Implicit Arguments.

(** The parts of a query. *)
Inductive node := NE (e : expr) | NS (s : source) | NW (w : cte) | NQ (q : query).

(** All direct parts of a part: nothing is left out. *)
Definition kids (n : node) : list node :=
  match n with
  | NE (EAnd ps) => map NE ps
  | NE (ENode _ _ args) => map NE args
  | NE (ESub q) => [NQ q]
  | NE _ => []
  | NS (SDirect _) => []
  | NS (SSub q _ _) => [NQ q]
  | NS (SValues _ _) => []
  | NS (SFun f _) => [NE f]
  | NS (SJoin l r c _) => [NS l; NS r] ++ map NE (optl c)
  | NW (WQuery q _) => [NQ q]
  | NW (WValues _ _) => []
  | NQ (QSel ctes targets distinct from wh gr hv od) =>
      map NW ctes ++ map NE (map fst targets) ++ map NE (match distinct with Some l => l | None => [] end)
      ++ map NS (match from with Some (_, l) => l | None => [] end) ++ map NE (optl wh) ++ map NE gr ++ map NE (optl hv) ++ map NE od
  | NQ (QSet _ l r ctes od) => [NQ l; NQ r] ++ map NW ctes ++ map NE od
  end.

(** [m] occurs in [n]. *)
Inductive within (m : node) : node -> Prop :=
| w_here : within m m
| w_down n k : In k (kids n) -> within m k -> within m n.

(** The tables and columns that a part mentions itself. *)
Inductive table_at : node -> tref -> Prop :=
| ta_col t n : table_at (NE (ECol (Col (Some t) n))) t
| ta_colof t c : table_at (NE (ECol (ColOf (Some t) c))) t
| ta_direct t : table_at (NS (SDirect t)) t
| ta_sub q a l : table_at (NS (SSub q (Some a) l)) (TVirt a)
| ta_values t cols : table_at (NS (SValues (Some t) cols)) t
| ta_fun f a : table_at (NS (SFun f (Some a))) (TVirt a).
Inductive column_at : node -> colref -> Prop :=
| ca_col c : column_at (NE (ECol c)) c
| ca_values t cols c : In c cols -> column_at (NS (SValues t cols)) (Col t c)
| ca_cte t cols c : In c cols -> column_at (NW (WValues t cols)) (Col (Some (TVirt t)) c).
Definition mentions_table (n : node) (t : tref) : Prop := exists m, within m n /\ table_at m t.
Definition mentions_column (n : node) (c : colref) : Prop := exists m, within m n /\ column_at m c.

(** The outermost subqueries of a part: subqueries of subqueries and of CTEs do not count. *)
Inductive nested : node -> query -> Prop :=
| n_expr q : nested (NE (ESub q)) q
| n_source q t l : nested (NS (SSub q t l)) q
| n_down n k q : match n with NE (ESub _) | NS (SSub _ _ _) => False | _ => True end -> match k with NQ _ | NW _ => False | _ => True end ->
    In k (kids n) -> nested k q -> nested n q.
Inductive subquery_of : query -> query -> Prop :=
| so_here q s : nested (NQ q) s -> subquery_of q s
| so_left op l r w o s : subquery_of l s -> subquery_of (QSet op l r w o) s
| so_right op l r w o s : subquery_of r s -> subquery_of (QSet op l r w o) s.

(** ** Scoping: the tables that a query does not bind itself *)
(** The tables that a FROM item makes available to the other clauses. *)
Inductive provides : source -> tref -> Prop :=
| p_direct t : provides (SDirect t) t
| p_sub q a l : provides (SSub q (Some a) l) (TVirt a)
| p_values t cols : provides (SValues (Some t) cols) t
| p_fun f a : provides (SFun f (Some a)) (TVirt a)
| p_left l r c j t : provides l t -> provides (SJoin l r c j) t
| p_right l r c j t : provides r t -> provides (SJoin l r c j) t.
Definition items (from : option (fkind * list source)) : list source := match from with Some (_, l) => l | None => [] end.
Definition provided (from : option (fkind * list source)) (t : tref) : Prop := exists s, In s (items from) /\ provides s t.
Definition clause_exprs (q : query) : list expr :=
  match q with
  | QSel _ targets distinct _ wh gr hv od => map fst targets ++ (match distinct with Some l => l | None => [] end) ++ optl wh ++ gr ++ optl hv ++ od
  | QSet _ _ _ _ od => od
  end.
(** The columns of table [t] occur in the expression or query and have to be bound outside of it.  The flag of [free_s]
    tells whether the reference may be resolved by the other FROM items (LATERAL and function calls). *)
Inductive free_e (t : tref) : expr -> Prop :=
| f_col c : col_table c = Some t -> free_e t (ECol c)
| f_and ps e : In e ps -> free_e t e -> free_e t (EAnd ps)
| f_node k a args e : In e args -> free_e t e -> free_e t (ENode k a args)
| f_sub q : free_q t q -> free_e t (ESub q)
with free_s (t : tref) : bool -> source -> Prop :=
| f_derived q a l : free_q t q -> free_s t l (SSub q a l)
| f_fun f a : free_e t f -> free_s t true (SFun f a)
| f_left l r c j b : free_s t b l -> free_s t b (SJoin l r c j)
| f_right l r c j : free_s t false r -> free_s t false (SJoin l r c j)
| f_right_lat l r c j : free_s t true r -> ~ provides l t -> free_s t true (SJoin l r c j)
| f_cond l r c j : free_e t c -> ~ provides l t -> ~ provides r t -> free_s t false (SJoin l r (Some c) j)
with free_q (t : tref) : query -> Prop :=
| f_expr ctes targets di from wh gr hv od e : In e (clause_exprs (QSel ctes targets di from wh gr hv od)) -> free_e t e -> ~ provided from t ->
    free_q t (QSel ctes targets di from wh gr hv od)
| f_from ctes targets di from wh gr hv od s : In s (items from) -> free_s t false s -> free_q t (QSel ctes targets di from wh gr hv od)
| f_lateral ctes targets di from wh gr hv od s : In s (items from) -> free_s t true s -> ~ provided from t -> free_q t (QSel ctes targets di from wh gr hv od)
| f_cte ctes targets di from wh gr hv od q n : In (WQuery q n) ctes -> free_q t q -> free_q t (QSel ctes targets di from wh gr hv od)
| f_setl op l r w o : free_q t l -> free_q t (QSet op l r w o)
| f_setr op l r w o : free_q t r -> free_q t (QSet op l r w o)
| f_setc op l r w o q n : In (WQuery q n) w -> free_q t q -> free_q t (QSet op l r w o)
| f_seto op l r w o e : In e o -> free_e t e -> free_q t (QSet op l r w o).
Scheme free_e_mut := Minimality for free_e Sort Prop with free_s_mut := Minimality for free_s Sort Prop with free_q_mut := Minimality for free_q Sort Prop.
Combined Scheme free_mut from free_e_mut, free_s_mut, free_q_mut.

(** [t] is read by a FROM clause somewhere in the query. *)
Definition scanned (q : query) (t : tref) : Prop := within (NS (SDirect t)) (NQ q).

(** Queries over database tables only, without explicit joins, CTEs and derived tables: subqueries occur in expressions. *)
Definition plain_at (n : node) : Prop :=
  match n with
  | NQ (QSel ctes _ di from _ _ _ _) => ctes = [] /\ di = None /\ exists k l, from = Some (k, l) /\ forall s, In s l -> exists t, s = SDirect t
  | NQ (QSet _ _ _ ctes od) => ctes = [] /\ od = []
  | _ => True
  end.
Definition plain (q : query) : Prop := forall m, within m (NQ q) -> plain_at m.

(** ** Predicates *)
(** The conditions that a query states itself or by means of derived tables and CTEs. *)
Inductive pred_of : query -> expr -> Prop :=
| po_where ctes ta di from p gr hv od : pred_of (QSel ctes ta di from (Some p) gr hv od) p
| po_from ctes ta di from wh gr hv od s p : In s (items from) -> pred_of_s s p -> pred_of (QSel ctes ta di from wh gr hv od) p
| po_cte ctes ta di from wh gr hv od q n p : In (WQuery q n) ctes -> pred_of q p -> pred_of (QSel ctes ta di from wh gr hv od) p
with pred_of_s : source -> expr -> Prop :=
| ps_sub q a l p : pred_of q p -> pred_of_s (SSub q a l) p
| ps_on l r c j : pred_of_s (SJoin l r (Some c) j) c
| ps_left l r c j p : pred_of_s l p -> pred_of_s (SJoin l r c j) p
| ps_right l r c j p : pred_of_s r p -> pred_of_s (SJoin l r c j) p.
Scheme pred_of_mut := Minimality for pred_of Sort Prop with pred_of_s_mut := Minimality for pred_of_s Sort Prop.
Combined Scheme pred_mut from pred_of_mut, pred_of_s_mut.
(** A condition holds for given truth values of the predicates other than AND. *)
Fixpoint holds (v : expr -> Prop) (e : expr) : Prop :=
  match e with EAnd ps => (fix all l := match l with [] => True | x :: r => holds v x /\ all r end) ps | _ => v e end.
(** The queries whose predicates can be collected: a FROM clause everywhere, no set operations. *)
Inductive readable : query -> Prop :=
| rd ctes ta di k l wh gr hv od : (forall q n, In (WQuery q n) ctes -> readable q) -> (forall s, In s l -> readable_s s) ->
    readable (QSel ctes ta di (Some (k, l)) wh gr hv od)
with readable_s : source -> Prop :=
| rs_direct t : readable_s (SDirect t)
| rs_values a c : readable_s (SValues a c)
| rs_fun f a : readable_s (SFun f a)
| rs_sub q a l : readable q -> readable_s (SSub q a l)
| rs_join l r c j : readable_s l -> readable_s r -> readable_s (SJoin l r c j).
Scheme readable_mut := Minimality for readable Sort Prop with readable_s_mut := Minimality for readable_s Sort Prop.
Combined Scheme read_mut from readable_mut, readable_s_mut.

(** ** Result columns *)
(** The name of each result column, None if the query does not name it. *)
Fixpoint col_names (q : query) : list (option cname) :=
  match q with
  | QSel _ targets _ _ _ _ _ _ =>
      map (fun x => match x with (_, Some n) => Some n | (ECol (Col _ n), None) => Some n | _ => None end) targets
  | QSet _ l r _ _ => map (fun p => match p with (Some n, _) => Some n | (None, o) => o end) (combine (col_names l) (col_names r))
  end.
(** Unnamed columns are numbered from left to right. *)
Definition named_at (l : list (option cname)) (i : nat) (c : cname) : Prop :=
  match nth_error l i with
  | Some (Some n) => c = n
  | Some None => c = NColumn (S (length (filter (fun o => match o with None => true | _ => false end) (firstn i l))))
  | None => False
  end.
Fixpoint starless (q : query) : Prop :=
  match q with
  | QSel _ targets _ _ _ _ _ _ => forall x, In x targets -> fst x <> EStar /\ forall t c, fst x <> ECol (ColOf t c)
  | QSet _ l r _ _ => starless l /\ starless r /\ length (col_names l) = length (col_names r)
  end.

(** The number of rows of a query with an aggregate and without GROUP BY: all rows form one group, which HAVING may drop. *)
Definition ungrouped_rows (keep : bool) (q : query) : option nat :=
  match q with
  | QSel _ targets _ _ _ [] hv _ => if existsb (fun x => match fst x with ENode _ true _ => true | _ => false end) targets
      then Some (match hv with Some _ => if keep then 1 else 0 | None => 1 end) else None
  | _ => None
  end.

(** ** Conditions under which nothing is lost *)
(** What [tables()] does not look at is mentioned elsewhere. *)
Definition t_ok (n : node) : Prop :=
  match n with
  | NS (SFun f None) => forall t, ~ mentions_table (NE f) t
  | NS (SJoin l r (Some c) _) => forall t, mentions_table (NE c) t -> mentions_table (NS l) t \/ mentions_table (NS r) t
  | NQ (QSel _ _ (Some d) from _ _ _ _) => forall e t, In e d -> mentions_table (NE e) t -> exists s, In s (items from) /\ mentions_table (NS s) t
  | NQ (QSet _ l r ctes od) => forall k t, In k (map NW ctes ++ map NE od) -> mentions_table k t -> mentions_table (NQ l) t \/ mentions_table (NQ r) t
  | _ => True
  end.
(** columns() *)
Definition no_values (n : node) : Prop := match n with NW (WValues _ cols) => cols = [] | _ => True end.
Definition c_ok (n : node) : Prop :=
  no_values n /\
  match n with
  | NQ (QSel _ ta (Some d) _ _ _ _ _) => forall e c, In e d -> mentions_column (NE e) c -> exists x, In x ta /\ mentions_column (NE (fst x)) c
  | NQ (QSet _ l r ctes od) => forall k c, In k (map NW ctes ++ map NE od) -> mentions_column k c -> mentions_column (NQ l) c \/ mentions_column (NQ r) c
  | _ => True
  end.
(** itercolumns() *)
Definition i_ok (n : node) : Prop :=
  no_values n /\
  match n with
  | NQ (QSel _ ta (Some d) _ _ _ _ _) => forall e c, In e d -> mentions_column (NE e) c -> exists x, In x ta /\ mentions_column (NE (fst x)) c
  | _ => True
  end.
(** Queries without subqueries in the places that subqueries() does not look at. *)
Fixpoint visible (q : query) : Prop :=
  match q with
  | QSel _ _ di from _ _ _ _ =>
      (forall e s, In e (match di with Some l => l | None => [] end) -> ~ nested (NE e) s)
      /\ match from with
         | Some (FImplicit, l) => forall s, In s l -> exists t, s = SDirect t
         | Some (FOther, l) => forall s, In s l -> match s with SFun f _ => forall q', ~ nested (NE f) q' | SJoin _ _ _ _ => False | _ => True end
         | None => True
         end
  | QSet _ l r _ od => visible l /\ visible r /\ forall e s, In e od -> ~ nested (NE e) s
  end.
Definition user (o : option cname) : Prop := match o with Some (NColumn _) => False | _ => True end.
(** No result column is called "column_..." by the query itself. *)
Fixpoint user_names (q : query) : Prop :=
  match q with QSel _ _ _ _ _ _ _ _ => forall o, In o (col_names q) -> user o | QSet _ l r _ _ => user_names l /\ user_names r end.
