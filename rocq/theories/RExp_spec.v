(** What replacing expressions means, independent of how it is done: the expressions of a query (in the order in which they are
    written) and the rest of the query. *)
From Coq Require Import List Bool Arith.
From Verif Require Import PyBase Pred_model RExp_model.
Import ListNotations.

Section Flat.
  Context {A B : Type} (f : A -> list B).
  Fixpoint flat (l : list A) : list B := match l with [] => [] | x :: r => f x ++ flat r end.
End Flat.

(** ** The expressions.  [don] tells whether the expressions of DISTINCT ON count, too.  Those of CTEs, of subqueries in FROM and of the
    parts of a set operation count. *)
Fixpoint xs_p (p : pred expr) : list expr :=
  match p with
  | PBin _ a b => [a; b]
  | PBetween a lo hi => [a; lo; hi]
  | PIn a vs => a :: vs
  | PUn _ a => [a]
  | PNot q => xs_p q
  | PAnd ps | POr ps => flat xs_p ps
  end.
Definition xs_pred (p : pred expr + nat) : list expr := match p with inl p => xs_p p | inr _ => [] end.
Fixpoint xs_s (don : bool) (s : source) : list expr :=
  match s with
  | SDirect _ => []
  | SSub q _ _ => xs_q don q
  | SJoin l r c _ => xs_s don l ++ xs_s don r ++ match c with Some c => xs_pred c | None => [] end
  | SValues rows _ _ => concat rows
  | SFun g _ => [g]
  end
with xs_w (don : bool) (w : cte) : list expr := match w with WQuery q _ _ => xs_q don q | WValues rows _ _ _ => concat rows end
with xs_c (don : bool) (c : clause) : list expr :=
  match c with
  | CHint _ | CExplain _ | CLimit _ => []
  | CWith l _ => flat (xs_w don) l
  | CSelect ts d => map fst ts ++ (if don then match d with Some es => es | None => [] end else [])
  | CFrom _ ss => flat (xs_s don) ss
  | CWhere p | CHaving p => xs_pred p
  | CGroup es _ => es
  | COrder es => map fst es
  | CSet _ l r => xs_q don l ++ xs_q don r
  end
with xs_q (don : bool) (q : query) : list expr := match q with Query cs => flat (xs_c don) cs end.

(** ** The rest: all of these expressions are blanked out, except for DISTINCT ON. *)
Definition blank := EAtom 0.
Fixpoint sk_p (p : pred expr) : pred expr :=
  match p with
  | PBin op _ _ => PBin op blank blank
  | PBetween _ _ _ => PBetween blank blank blank
  | PIn _ vs => PIn blank (map (fun _ => blank) vs)
  | PUn op _ => PUn op blank
  | PNot q => PNot (sk_p q)
  | PAnd ps => PAnd (map sk_p ps)
  | POr ps => POr (map sk_p ps)
  end.
Definition sk_pred (p : pred expr + nat) : pred expr + nat := match p with inl p => inl (sk_p p) | inr n => inr n end.
Definition sk_rows (rows : list (list expr)) : list (list expr) := map (map (fun _ => blank)) rows.
Fixpoint sk_s (s : source) : source :=
  match s with
  | SDirect t => SDirect t
  | SSub q n lat => SSub (sk_q q) n lat
  | SJoin l r c j => SJoin (sk_s l) (sk_s r) (option_map sk_pred c) j
  | SValues rows t cols => SValues (sk_rows rows) t cols
  | SFun _ a => SFun blank a
  end
with sk_w (w : cte) : cte := match w with WQuery q n m => WQuery (sk_q q) n m | WValues rows n cols m => WValues (sk_rows rows) n cols m end
with sk_c (c : clause) : clause :=
  match c with
  | CHint n => CHint n | CExplain n => CExplain n | CLimit n => CLimit n
  | CWith l r => CWith (map sk_w l) r
  | CSelect ts d => CSelect (map (fun t => (blank, snd t)) ts) d
  | CFrom k ss => CFrom k (map sk_s ss)
  | CWhere p => CWhere (sk_pred p) | CHaving p => CHaving (sk_pred p)
  | CGroup es d => CGroup (map (fun _ => blank) es) d
  | COrder es => COrder (map (fun t => (blank, snd t)) es)
  | CSet op l r => CSet op (sk_q l) (sk_q r)
  end
with sk_q (q : query) : query := match q with Query cs => Query (map sk_c cs) end.

(** The replacement leaves subqueries as a whole alone. *)
Definition keeps_subqueries (f : expr -> expr) : Prop := forall q, f (ESub q) = ESub q.

(** ** Queries without surprises: plain predicates, named VALUES lists, and implicit FROM clauses with tables only. *)
Definition plain_pred (p : pred expr + nat) : Prop := match p with inl _ => True | inr _ => False end.
Definition direct (s : source) : bool := match s with SDirect _ => true | _ => false end.
Section All.
  Context {A : Type} (P : A -> Prop).
  Fixpoint all (l : list A) : Prop := match l with [] => True | x :: r => P x /\ all r end.
End All.
Fixpoint plain_s (s : source) : Prop :=
  match s with
  | SDirect _ | SFun _ _ => True
  | SSub q _ _ => plain_q q
  | SJoin l r c _ => plain_s l /\ plain_s r /\ match c with Some c => plain_pred c | None => True end
  | SValues _ t _ => match t with Some (VVirt _) => True | _ => False end
  end
with plain_w (w : cte) : Prop := match w with WQuery q _ _ => plain_q q | WValues _ _ _ _ => True end
with plain_c (c : clause) : Prop :=
  match c with
  | CWith l _ => all plain_w l
  | CFrom k ss => all plain_s ss /\ (k = FImplicit -> forallb direct ss = true)
  | CWhere p | CHaving p => plain_pred p
  | CSet _ l r => plain_q l /\ plain_q r
  | _ => True
  end
with plain_q (q : query) : Prop := match q with Query cs => all plain_c cs end.

(** ** Predicates.  [holds] is the truth value of a base predicate; the value of a compound predicate is that of three-valued logic
    or any other: [vnot], [vand] and [vor] are arbitrary. *)
Section Value.
  Context {E V : Type} (holds : pred E -> V) (vnot : V -> V) (vand vor : list V -> V).
  Fixpoint value (p : pred E) : V :=
    match p with
    | PNot q => vnot (value q)
    | PAnd ps => vand (map value ps)
    | POr ps => vor (map value ps)
    | b => holds b
    end.
End Value.
(** [occurs x p]: x is p or a part of p *)
Inductive occurs {E} (x : pred E) : pred E -> Prop :=
| occ_here : occurs x x
| occ_not p : occurs x p -> occurs x (PNot p)
| occ_and p ps : In p ps -> occurs x p -> occurs x (PAnd ps)
| occ_or p ps : In p ps -> occurs x p -> occurs x (POr ps).
