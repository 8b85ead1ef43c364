(** What the order and arithmetic of cardinalities should be: the integers with one infinity on top. *)
From Coq Require Import ZArith QArith.
From Verif Require Import PyBase Card_model.
Local Open Scope Z_scope.

(** The values cardinalities and numbers stand for. *)
Inductive ext := Fin (q : Q) | PosInf | NegInf.
Inductive below : ext -> ext -> Prop :=
| below_fin p q : (p < q)%Q -> below (Fin p) (Fin q)
| below_pos p : below (Fin p) PosInf
| below_neg q : below NegInf (Fin q)
| below_inf : below NegInf PosInf.
Definition same (x y : ext) : Prop :=
  match x, y with Fin p, Fin q => (p == q)%Q | PosInf, PosInf | NegInf, NegInf => True | _, _ => False end.

(** [m * 2^e] as a rational. *)
Definition two_power (m e : Z) : Q := match e with Zneg p => m # (Pos.pow 2 p) | _ => inject_Z (m * 2 ^ e) end.
Definition fmeans (f : fval) (x : ext) : Prop :=
  match f with FNan => False | FInf b => x = (if b then NegInf else PosInf) | FFin m e => x = Fin (two_power m e) end.
Definition cmeans (c : card) (x : ext) : Prop :=
  match c with CNan => False | CInf => x = PosInf | CVal z => x = Fin (inject_Z z) end.
Definition omeans (o : operand) (x : ext) : Prop :=
  match o with OCard c => cmeans c x | ONum (NInt z) => x = Fin (inject_Z z) | ONum (NFlt f) => fmeans f x end.

Definition exact_op (o : aop) (a b : Z) : option Z :=
  match o with Add => Some (a + b) | Sub => Some (a - b) | Mul => Some (a * b) | Div => None end.
