(** How SQL reads arithmetic: [||] binds weakest, then [+ -], then [* / %], then the signs; all infix operators are left
    associative; [--] starts a comment. *)
From Coq Require Import List Bool Arith ZArith.
From Verif Require Import PyBase Prec MPrint_model.
Import ListNotations.

Definition mlvl (o : mop) : nat := match o with MCat => 0 | MAdd | MSub => 1 | _ => 2 end.
Definition mblvl (o : mop) : option nat := Some (mlvl o).
Definition mulvl (o : mop) : option nat := match o with MAdd | MSub => Some 3 | _ => None end.
Definition mreads : list mtok -> tree matom mop -> Prop := reads 4 mblvl mulvl.

(** The tokens of a text, without the blanks. *)
Definition tokens (l : list piece) : list mtok := flat_map (fun p => match p with Tk t => [t] | Blank => [] end) l.
(** No comment starts inside the text. *)
Fixpoint no_comment (l : list piece) : bool :=
  match l with Tk (TSym MSub) :: (Tk (TSym MSub) :: _) => false | _ :: r => no_comment r | [] => true end.

(** Values: any structure in which [+], [*] and [||] are associative and a negative number is the negation of its
    absolute value. *)
Record arith := {
  AV : Type;
  anum : Z -> AV;
  abin : mop -> AV -> AV -> AV;
  aneg : AV -> AV;
  anum_neg : forall z, (z < 0)%Z -> aneg (anum (- z)) = anum z;
  aassoc : forall o x y z, o = MAdd \/ o = MMul \/ o = MCat -> abin o (abin o x y) z = abin o x (abin o y z)
}.
Definition aun (A : arith) (o : mop) (x : AV A) : AV A := match o with MSub => aneg A x | _ => x end.

(** The value of what was read. *)
Fixpoint tval (A : arith) (r : nat -> AV A) (t : tree matom mop) : AV A :=
  match t with
  | EAtom (AAtom x) => r x
  | EAtom (ANum n) => anum A n
  | EBin o a b => abin A o (tval A r a) (tval A r b)
  | EUn o a => aun A o (tval A r a)
  end.
(** The value of an expression. *)
Fixpoint mval (A : arith) (r : nat -> AV A) (e : mexpr) : AV A :=
  match e with
  | MAtom x => r x
  | MNum z => anum A z
  | MUn o e => aun A o (mval A r e)
  | MBin o a b => abin A o (mval A r a) (mval A r b)
  | MMany o e es => fold_left (fun acc x => abin A o acc (mval A r x)) es (mval A r e)
  end.

(** The operators of [e] that appear outside of all brackets in its text. *)
Fixpoint exposed (e : mexpr) : list mop :=
  match e with
  | MBin o l r => o :: (if requires_brackets o l then [] else exposed l) ++ (if requires_brackets o r then [] else exposed r)
  | MMany o _ _ => [o]
  | _ => []
  end.
Definition assocb (o : mop) : bool := match o with MAdd | MMul | MCat => true | _ => false end.
(** The trees whose text keeps their structure: an exposed operator of a left operand binds at least as tight as the
    operator itself, one of a right operand binds tighter or is the same associative operator; signs are only put in front
    of names and non-negative numbers, or of a different sign. *)
Fixpoint faithful (e : mexpr) : bool :=
  match e with
  | MAtom _ | MNum _ => true
  | MUn o e =>
      match o with MAdd | MSub => true | _ => false end &&
      match e with
      | MAtom _ => true
      | MNum z => (0 <=? z)%Z || negb (deqb o MSub)
      | MUn o' _ => negb (deqb o MSub && deqb o' MSub) && faithful e
      | _ => false
      end
  | MBin o l r =>
      faithful l && faithful r &&
      (requires_brackets o l || forallb (fun x => mlvl o <=? mlvl x) (exposed l)) &&
      (requires_brackets o r || forallb (fun x => (mlvl o <? mlvl x) || (deqb x o && assocb o)) (exposed r))
  | MMany o e es => faithful e && forallb faithful es
  end.

(** The integers with SQL's division (truncation towards zero; dividing by zero is arbitrary here) and || read as +. *)
Definition ZA : arith.
Proof.
  refine {| AV := Z; anum := fun z => z; aneg := Z.opp;
            abin := fun o => match o with MAdd => Z.add | MSub => Z.sub | MMul => Z.mul | MDiv => Z.quot | MMod => Z.rem | MCat => Z.add end |}.
  - intros z _. apply Z.opp_involutive.
  - intros o x y z [->|[->| ->]]; symmetry; [apply Z.add_assoc|apply Z.mul_assoc|apply Z.add_assoc].
Defined.
