(** The result of a query: the values of its expressions for all combinations of rows that satisfy the condition.  SQL's three-valued logic. *)
From Coq Require Import List Bool Arith.
From Verif Require Import PyBase Pred_model MSub_model.
Import ListNotations.

Record interp (V : Type) := mkI {
  i_null : V; i_fun : nat -> list V -> V;
  i_bin : binop -> V -> V -> option bool; i_btw : V -> V -> V -> option bool; i_in : V -> list V -> option bool; i_un : unop -> V -> option bool }.
Arguments i_null {V}. Arguments i_fun {V}. Arguments i_bin {V}. Arguments i_btw {V}. Arguments i_in {V}. Arguments i_un {V}.

Section Sem.
  Context {V : Type} (I : interp V).
  Fixpoint ev (v : col -> V) (e : xpr) : V := match e with XCol c => v c | XFun n l => i_fun I n (map (ev v) l) end.
  Definition tv_not (b : option bool) : option bool := option_map negb b.
  Definition tv_and (a b : option bool) : option bool :=
    match a, b with Some false, _ | _, Some false => Some false | Some true, Some true => Some true | _, _ => None end.
  Definition tv_or (a b : option bool) : option bool :=
    match a, b with Some true, _ | _, Some true => Some true | Some false, Some false => Some false | _, _ => None end.
  Fixpoint tv (v : col -> V) (p : prd) : option bool :=
    match p with
    | PBin op a b => i_bin I op (ev v a) (ev v b)
    | PBetween a lo hi => i_btw I (ev v a) (ev v lo) (ev v hi)
    | PIn a vs => i_in I (ev v a) (map (ev v) vs)
    | PUn op a => i_un I op (ev v a)
    | PNot q => tv_not (tv v q)
    | PAnd ps => fold_right (fun q b => tv_and (tv v q) b) (Some true) ps
    | POr ps => fold_right (fun q b => tv_or (tv v q) b) (Some false) ps
    end.
  Definition istrue (b : option bool) : bool := match b with Some true => true | _ => false end.
  (** WHERE keeps a row iff the condition is true *)
  Definition keeps (v : col -> V) (w : option prd) : bool := match w with None => true | Some p => istrue (tv v p) end.

  (** A row maps column names to values; an environment gives a row to each table. *)
  Definition row := nat -> V.
  Definition env := list (tbl * row).
  Fixpoint lookup (k : env) (t : tbl) : option row := match k with [] => None | (u, r) :: k' => if Nat.eqb t u then Some r else lookup k' t end.
  Definition val (k : env) (c : col) : V :=
    match c_tab c with Some t => match lookup k t with Some r => r (c_name c) | None => i_null I end | None => i_null I end.

  Context (db : tbl -> list row).
  Definition cross (xs ys : list env) : list env := flat_map (fun x => map (fun y => x ++ y) ys) xs.
  Fixpoint combos (ts : list tbl) : list env :=
    match ts with [] => [[]] | t :: r => cross (map (fun x => [(t, x)]) (db t)) (combos r) end.
  (** The row of a subquery: the values of its columns, by name. *)
  Definition sub_row (cols : list col) (k : env) : row :=
    fun n => match find (fun c => Nat.eqb (c_name c) n) cols with Some c => val k c | None => i_null I end.
  Fixpoint rows_of (i : item) : list env :=
    match i with
    | IDirect t => map (fun x => [(t, x)]) (db t)
    | IWrap j => rows_of j
    | IJoin l r c => filter (fun k => keeps (val k) c) (cross (rows_of l) (rows_of r))
    | ISub s name => map (fun k => [(name, sub_row (s_cols s) k)]) (filter (fun k => keeps (val k) (s_where s)) (combos (s_from s)))
    end.
  Definition from_rows (l : list item) : list env := fold_right (fun i acc => cross (rows_of i) acc) [[]] l.
  Definition result (q : query) : list (list V) :=
    map (fun k => map (ev (val k)) (q_rest q)) (filter (fun k => keeps (val k) (q_where q)) (from_rows (q_from q))).
End Sem.

(** The conjuncts of a predicate *)
Fixpoint conjuncts (p : prd) : list prd := match p with PAnd ps => flat_map conjuncts ps | _ => [p] end.
(** [x] is [p] or somewhere inside of it *)
Inductive within (x : prd) : prd -> Prop :=
| w_here : within x x
| w_not p : within x p -> within x (PNot p)
| w_and p ps : In p ps -> within x p -> within x (PAnd ps)
| w_or p ps : In p ps -> within x p -> within x (POr ps).
(** No disjunction mixes filters and joins. *)
Definition unmixed (p : prd) : Prop := forall ps, In (POr ps) (conjuncts p) -> 2 <= length ps /\
  ((forall c, In c ps -> is_join xcols c = false) \/ (forall c, In c ps -> is_join xcols c = true)).
(** A query whose FROM clause is a list of tables *)
Definition plain_from (q : query) (F : list tbl) : Prop := q_from q = map IDirect F /\ NoDup F.
