(** Specification of the plan analysis functions. *)
From Coq Require Import List Bool Arith ZArith QArith Permutation.
From Verif Require Import PyBase FSet Hint_model Card_model QPlan_model JT_model JT_spec Ana_model.
Import ListNotations.
Local Open Scope nat_scope.

(** ** Differences of plans *)
(** Plans of scans and binary joins without subplans. *)
Inductive jplan : plan -> Prop :=
| jp_scan d : op_scan d = true -> jplan (Node d [] None)
| jp_join d o i : op_join d = true -> jplan o -> jplan i -> jplan (Node d [o; i] None).
(** What there is to say about two corresponding nodes. *)
Definition node_change (l r : plan) (c : change) : Prop :=
  let a := data l in let b := data r in
  (est a <> est b /\ c = DEstimate (est a) (est b) (mkfs (tables l)))
  \/ (m_card (meas a) <> m_card (meas b) /\ c = DActual (m_card (meas a)) (m_card (meas b)) (mkfs (tables l)))
  \/ (ecost a <> ecost b /\ c = DCost (ecost a) (ecost b) (mkfs (tables l)))
  \/ (ntype a <> ntype b /\ c = DOperator (ntype a) (ntype b) (mkfs (tables l))).
(** The differences of two plans: the nodes are paired from the root downwards, a join that has its inputs swapped is paired crosswise, and
    subplans of different tables are a difference as a whole. *)
Inductive differs : plan -> plan -> change -> Prop :=
| df_tables l r : ~ seteq (tables l) (tables r) -> differs l r (DStructure (mkfs (tables l)) (mkfs (tables r)))
| df_node l r c : seteq (tables l) (tables r) -> node_change l r c -> differs l r c
| df_swapped d o i s d' o' i' s' :
    seteq (tables (Node d [o; i] s)) (tables (Node d' [o'; i'] s')) -> op_join d = true -> seteq (tables i) (tables o') ->
    differs (Node d [o; i] s) (Node d' [o'; i'] s') (DDirection (Node d [o; i] s) (Node d' [o'; i'] s'))
| df_cross_inner d o i s d' o' i' s' c :
    seteq (tables (Node d [o; i] s)) (tables (Node d' [o'; i'] s')) -> op_join d = true -> seteq (tables i) (tables o') ->
    differs i o' c -> differs (Node d [o; i] s) (Node d' [o'; i'] s') c
| df_cross_outer d o i s d' o' i' s' c :
    seteq (tables (Node d [o; i] s)) (tables (Node d' [o'; i'] s')) -> op_join d = true -> seteq (tables i) (tables o') ->
    differs o i' c -> differs (Node d [o; i] s) (Node d' [o'; i'] s') c
| df_inner d o i s d' o' i' s' c :
    seteq (tables (Node d [o; i] s)) (tables (Node d' [o'; i'] s')) -> op_join d = true -> ~ seteq (tables i) (tables o') ->
    differs i i' c -> differs (Node d [o; i] s) (Node d' [o'; i'] s') c
| df_outer d o i s d' o' i' s' c :
    seteq (tables (Node d [o; i] s)) (tables (Node d' [o'; i'] s')) -> op_join d = true -> ~ seteq (tables i) (tables o') ->
    differs o o' c -> differs (Node d [o; i] s) (Node d' [o'; i'] s') c.
(** Two numbers that are both known, or the same. *)
Definition comparable (a b : card) : Prop := a = b \/ (exists x y, a = CVal x /\ b = CVal y).
Definition nodes_comparable (l r : plan) : Prop :=
  comparable (est (data l)) (est (data r)) /\ comparable (m_card (meas (data l))) (m_card (meas (data r)))
  /\ (ecost (data l) = None -> ecost (data r) = None).
(** All corresponding joins have their inputs swapped (as far as the tables agree). *)
Inductive swapped : plan -> plan -> Prop :=
| sw_tables l r : ~ seteq (tables l) (tables r) -> swapped l r
| sw_scan d r : op_scan d = true -> nodes_comparable (Node d [] None) r -> swapped (Node d [] None) r
| sw_join d o i d' o' i' :
    op_join d = true -> nodes_comparable (Node d [o; i] None) (Node d' [o'; i'] None) ->
    seteq (tables i) (tables o') -> swapped i o' -> swapped o i' -> swapped (Node d [o; i] None) (Node d' [o'; i'] None).

(** ** Depths: a table is joined one step after everything in the intermediate result that it is joined with. *)
Definition latest (P : nat -> nat -> Prop) (m : nat) : Prop := (exists y, P y m) /\ forall y m', P y m' -> m' <= m.
Fixpoint depth_at {A} (t : jt nat A) (x k : nat) : Prop :=
  match t with
  | JEmpty _ => False
  | JScan _ y _ => x = y /\ k = 1
  | JJoin _ (JScan _ y _) (JScan _ z _) _ => (x = y \/ x = z) /\ k = 1
  | JJoin _ (JScan _ y _) i _ => (x = y /\ exists m, latest (depth_at i) m /\ k = S m) \/ depth_at i x k
  | JJoin _ o (JScan _ z _) _ => (x = z /\ exists m, latest (depth_at o) m /\ k = S m) \/ depth_at o x k
  | JJoin _ o i _ => depth_at o x k \/ depth_at i x k
  end.

(** ** Similar trees: equal up to the order of the inputs of joins (and annotations). *)
Inductive same_joins {A} : jt nat A -> jt nat A -> Prop :=
| sj_scan lg lg' x a b : same_joins (JScan lg x a) (JScan lg' x b)
| sj_join lg lg' o i o' i' a b : same_joins o o' -> same_joins i i' -> same_joins (JJoin lg o i a) (JJoin lg' o' i' b)
| sj_swap lg lg' o i o' i' a b : same_joins o i' -> same_joins i o' -> same_joins (JJoin lg o i a) (JJoin lg' o' i' b).

(** ** Binomial coefficients, and the plans over a set of tables *)
Fixpoint binom (n k : nat) : nat :=
  match n, k with _, O => 1 | O, S _ => 0 | S m, S j => binom m j + binom m (S j) end.
(** The Catalan numbers, by the formula of the number of balanced sequences. *)
Definition catalan (n : nat) : nat := binom (2 * n) n - binom (2 * n) (S n).
Inductive xplan := XScan (t op : nat) | XJoin (op : nat) (l r : xplan).
Fixpoint x_tables (p : xplan) : list nat := match p with XScan t _ => [t] | XJoin _ l r => x_tables l ++ x_tables r end.
(** The operators are those below [joins] and [scans]. *)
Fixpoint x_ops (joins scans : nat) (p : xplan) : Prop :=
  match p with XScan _ o => o < scans | XJoin o l r => o < joins /\ x_ops joins scans l /\ x_ops joins scans r end.
Definition plan_for (n joins scans : nat) (p : xplan) : Prop := Permutation (x_tables p) (seq 0 n) /\ x_ops joins scans p.

(** ** The join of the fact table with all dimension tables: every choice of one row of each *)
Fixpoint star_rows {F D : Type} (f : F) (dims : list (@dimension F D)) : list (list D) :=
  match dims with
  | [] => [[]]
  | d :: r => flat_map (fun x => map (cons x) (star_rows f r)) (filter (d_on d f) (d_rows d))
  end.
Definition star_join {F D : Type} (facts : list F) (dims : list (@dimension F D)) : list (F * list D) :=
  flat_map (fun f => map (pair f) (star_rows f dims)) facts.
