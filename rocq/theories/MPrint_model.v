(** Model of the text of arithmetic expressions: MathExpression.__str__ and _requires_brackets, postbound/qal/_qal.py
    651-702.  Operands that are not MathExpressions or numbers (columns, casts, function calls, CASE, subqueries) print as
    self-contained text and are represented by the atom [MAtom].  Predicates as operands are not covered. *)
From Coq Require Import List Bool Arith ZArith.
From Verif Require Import PyBase Prec.
Import ListNotations.

(** MathOperator, _qal.py 23-31. *)
Inductive mop := MAdd | MSub | MMul | MDiv | MMod | MCat.
#[global] Instance EqD_mop : EqD mop.
Proof. intros a b. unfold EqD in *. decide equality. Defined.

(** MathExpression has one, two or (as a tuple) more operands, 527-557; StaticValueExpression with a number, 288-293. *)
Inductive mexpr :=
| MAtom (x : nat)
| MNum (z : Z)
| MUn (op : mop) (e : mexpr)
| MBin (op : mop) (l r : mexpr)
| MMany (op : mop) (e : mexpr) (es : list mexpr).

(** [isinstance(child, MathExpression)] and its operator. *)
Definition mop_of (e : mexpr) : option mop := match e with MUn o _ | MBin o _ _ | MMany o _ _ => Some o | _ => None end.

Definition lazy_op (o : mop) : bool := match o with MAdd | MMul | MMod => true | _ => false end.
Definition eager_op (o : mop) : bool := match o with MSub | MDiv => true | _ => false end.
Definition is_cat (o : mop) : bool := match o with MCat => true | _ => false end.

(** _requires_brackets, 651-671. *)
Definition requires_brackets (op : mop) (child : mexpr) : bool :=
  match mop_of child with
  | None => false
  | Some c =>
      if deqb c op then false
      else if is_cat op || is_cat c then true
      else (eager_op op && lazy_op c) || (lazy_op op && eager_op c)
  end.

(** Pieces of text: tokens and blanks. *)
Inductive matom := AAtom (x : nat) | ANum (n : Z).
Definition mtok : Type := tok matom mop.
Inductive piece := Tk (t : mtok) | Blank.
Definition mbracket (l : list piece) : list piece := Tk TL :: l ++ [Tk TR].

(** __str__, 683-702. *)
Fixpoint mprint (e : mexpr) : list piece :=
  match e with
  | MAtom x => [Tk (TAtom (AAtom x))]
  | MNum z => if (z <? 0)%Z then [Tk (TSym MSub); Tk (TAtom (ANum (- z)))] else [Tk (TAtom (ANum z))]
  | MUn op e => Tk (TSym op) :: mprint e
  | MBin op l r =>
      (if requires_brackets op l then mbracket (mprint l) else mprint l) ++ Blank :: Tk (TSym op) :: Blank ::
      (if requires_brackets op r then mbracket (mprint r) else mprint r)
  | MMany op e es => mbracket (mprint e) ++ flat_map (fun x => Tk (TSym op) :: mbracket (mprint x)) es
  end.
