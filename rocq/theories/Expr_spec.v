(** What it means that a column occurs in an expression, what expressions mean, and what a simplified filter says. *)
From Coq Require Import List Bool Arith ZArith String.
From Verif Require Import PyBase Pred_model Pred_spec MPrint_model Expr_model.
Import ListNotations.

(** The expressions a predicate is made of. *)
Fixpoint pexprs {E} (p : pred E) : list E :=
  match p with
  | PBin _ a b => [a; b]
  | PBetween a lo hi => [a; lo; hi]
  | PIn a vs => a :: vs
  | PUn _ a => [a]
  | PNot q => pexprs q
  | PAnd ps | POr ps => flat_map pexprs ps
  end.
(** Everything an expression is made of. *)
Definition parts (e : sx) : list sx :=
  match e with
  | XStatic _ | XStar _ | XCol _ | XSub _ => []
  | XCast a _ ps _ => a :: ps
  | XMath _ a bs => a :: bs
  | XFun _ args _ flt => args ++ oapp pexprs flt
  | XArr es => es
  | XAcc a i l h => a :: olist i ++ olist l ++ olist h
  | XWin f ps os flt => f :: ps ++ os ++ oapp pexprs flt
  | XCase cs s el => flat_map (fun c => [fst c; snd c]) cs ++ olist s ++ olist el
  | XQuant _ a => [a]
  | XP p => pexprs p
  end.

(** The column [c] occurs in the expression. *)
Inductive occ (c : col) : sx -> Prop :=
| occ_col : occ c (XCol c)
| occ_sub q : In c (sq_cols q) -> occ c (XSub q)
| occ_part e e' : In e' (parts e) -> occ c e' -> occ c e.
(** ... outside of subqueries. *)
Inductive occd (c : col) : sx -> Prop :=
| occd_col : occd c (XCol c)
| occd_part e e' : In e' (parts e) -> occd c e' -> occd c e.
(** The table [t] is mentioned in the expression: by a column, by a star, or by a subquery. *)
Inductive occt (t : tbl) : sx -> Prop :=
| occt_col c : c_tab c = Some t -> occt t (XCol c)
| occt_star : occt t (XStar (Some t))
| occt_sub q : In t (sq_tabs q) -> occt t (XSub q)
| occt_part e e' : In e' (parts e) -> occt t e' -> occt t e.

(** Expressions whose own leaves are all among the leaves of their children. *)
Definition passes (e : sx) : bool := match e with XCol _ | XStar _ | XSub _ => false | XFun _ _ _ (Some _) => false | _ => true end.
(** No column is lost at this node: further arguments of arithmetic expressions count only if [tuples], FILTER only if
    [filters]; the direct parts of CASE and the partitioning of a window function are never bare columns. *)
Definition here (tuples filters : bool) (e : sx) : bool :=
  match e with
  | XMath _ _ (_ :: _ :: _) => tuples
  | XFun _ _ _ (Some _) => filters
  | XWin f ps _ _ => passes f && forallb passes ps
  | XCase cs s el => forallb (fun c => passes (fst c) && passes (snd c)) cs && forallb passes (olist s ++ olist el)
  | _ => true
  end.
Inductive covered (tuples filters : bool) : sx -> Prop :=
| cov e : here tuples filters e = true -> (forall e', In e' (parts e) -> covered tuples filters e') -> covered tuples filters e.

(** Meaning: any compositional semantics.  The values [W] may be anything (for instance functions from groups of rows to
    SQL values); the label says which operation is applied. *)
Inductive lab :=
| LStatic (v : sval) | LStar (t : option tbl) | LCast (ty : string) (arr : bool) | LMath (op : mop)
| LFun (f : string) (dist filtered : bool) | LArr | LAcc (i l h : bool) | LWin (parts ords : nat) (filtered : bool)
| LCase (n : nat) (simple els : bool) | LQuant (all : bool)
| LBin (op : binop) | LBetween | LIn | LUn (op : unop) | LNot | LAnd | LOr.
Record algebra := { W : Type; wop : lab -> list W -> W; wsub : sq -> (col -> W) -> W }.

Definition osome {A} (o : option A) : bool := match o with Some _ => true | None => false end.
Section PEval.
  Context (A : algebra) {E : Type} (ev : E -> W A).
  Fixpoint peval (p : pred E) : W A :=
    match p with
    | PBin op a b => wop A (LBin op) [ev a; ev b]
    | PBetween a lo hi => wop A LBetween [ev a; ev lo; ev hi]
    | PIn a vs => wop A LIn (ev a :: map ev vs)
    | PUn op a => wop A (LUn op) [ev a]
    | PNot q => wop A LNot [peval q]
    | PAnd ps => wop A LAnd (map peval ps)
    | POr ps => wop A LOr (map peval ps)
    end.
End PEval.
Section Eval.
  Context (A : algebra) (r : col -> W A).
  Definition oval {B} (f : B -> W A) (o : option B) : list (W A) := match o with Some x => [f x] | None => [] end.
  Fixpoint eval (e : sx) : W A :=
    match e with
    | XStatic v => wop A (LStatic v) []
    | XStar t => wop A (LStar t) []
    | XCol c => r c
    | XSub q => wsub A q r
    | XCast a ty ps arr => wop A (LCast ty arr) (eval a :: map eval ps)
    | XMath op a bs => wop A (LMath op) (eval a :: map eval bs)
    | XFun f args d flt => wop A (LFun f d (osome flt)) (map eval args ++ oval (peval A eval) flt)
    | XArr es => wop A LArr (map eval es)
    | XAcc a i l h => wop A (LAcc (osome i) (osome l) (osome h)) (eval a :: oval eval i ++ oval eval l ++ oval eval h)
    | XWin f ps os flt => wop A (LWin (List.length ps) (List.length os) (osome flt)) (eval f :: map eval ps ++ map eval os ++ oval (peval A eval) flt)
    | XCase cs s el => wop A (LCase (List.length cs) (osome s) (osome el)) (flat_map (fun c => [eval (fst c); eval (snd c)]) cs ++ oval eval s ++ oval eval el)
    | XQuant al a => wop A (LQuant al) [eval a]
    | XP p => peval A eval p
    end.
End Eval.

(** No function with a FILTER inside. *)
Definition no_filter_node (e : sx) : bool := match e with XFun _ _ _ (Some _) => false | _ => true end.
Inductive no_fun_filter : sx -> Prop :=
| nf e : no_filter_node e = true -> (forall e', In e' (parts e) -> no_fun_filter e') -> no_fun_filter e.
(** No array access, no arithmetic with three or more arguments, no CASE without predicates inside. *)
Definition renameable_node (e : sx) : bool :=
  match e with
  | XAcc _ _ _ _ => false
  | XMath _ _ (_ :: _ :: _) => false
  | XCase cs _ _ => forallb (fun c => match fst c with XP _ => true | _ => false end) cs
  | _ => true
  end.
Inductive renameable : sx -> Prop :=
| rn e : renameable_node e = true -> (forall e', In e' (parts e) -> renameable e') -> renameable e.

(** A concrete algebra: values are texts, every operation concatenates.  It tells all expressions apart that are written
    differently, in particular with and without FILTER. *)
Definition text_algebra : algebra := {| W := nat; wop := fun l ws => (match l with LFun _ _ true => 100 | LStatic (VInt z) => Z.to_nat z | _ => 1 end) + list_sum ws; wsub := fun q _ => sq_id q |}.

(** Algebras that do not tell the truth values from 0 and 1 (as Python does not), for which IN does not depend on the order
    and number of occurrences of its values, and for which subqueries with the same identity mean the same. *)
Definition sql_algebra (A : algebra) : Prop :=
  (forall b : bool, wop A (LStatic (VBool b)) [] = wop A (LStatic (VInt (if b then 1 else 0)%Z)) []) /\
  (forall x l m, seteq l m -> wop A LIn (x :: l) = wop A LIn (x :: m)) /\
  (forall q q' r, sq_id q = sq_id q' -> wsub A q r = wsub A q' r).

(** No IN predicate anywhere. *)
Fixpoint no_in_here {E} (p : pred E) : bool :=
  match p with PIn _ _ => false | PNot q => no_in_here q | PAnd ps | POr ps => forallb no_in_here ps | _ => true end.
Definition no_in_node (e : sx) : bool :=
  match e with XP p => no_in_here p | XFun _ _ _ (Some p) => no_in_here p | XWin _ _ _ (Some p) => no_in_here p | _ => true end.
Inductive no_in : sx -> Prop := ni e : no_in_node e = true -> (forall e', In e' (parts e) -> no_in e') -> no_in e.

(** The condition a simplified filter stands for, as a predicate. *)
Definition uexpr (u : uval) : sx := match u with UCol c => XCol c | UVal v => XStatic v end.
Definition simple_pred (s : simple) : pred sx :=
  match s with
  | SBin c op v => PBin op (XCol c) (uexpr v)
  | SBetween c lo hi => PBetween (XCol c) (uexpr lo) (uexpr hi)
  | SIn c vs => PIn (XCol c) (map uexpr vs)
  end.
(** Operators whose arguments may be swapped. *)
Definition symmetric_op {E} (I : interp E) (op : binop) : Prop := forall x y, opsem I op x y = opsem I op y x.
(** A SQL interpretation of [sx] that reads columns from the row. *)
Definition reads_columns (I : interp sx) : Prop := forall r c, val I r (XCol c) = r c.
(** A leaf: a column or a literal. *)
Definition leaf (e : sx) : bool := match e with XCol _ | XStatic _ => true | _ => false end.
