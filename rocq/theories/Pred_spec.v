(** What SQL predicates mean: three-valued logic over rows (valuations of the referenced columns).  Independent of the
    functions of [Pred_model]; only the syntax is shared. *)
From Coq Require Import List Bool Arith.
From Verif Require Import PyBase Pred_model.
Import ListNotations.

Inductive tv := T3 | F3 | U3.

Definition and3 (x y : tv) : tv :=
  match x, y with F3, _ => F3 | _, F3 => F3 | T3, T3 => T3 | _, _ => U3 end.
Definition or3 (x y : tv) : tv :=
  match x, y with T3, _ => T3 | _, T3 => T3 | F3, F3 => F3 | _, _ => U3 end.
Definition not3 (x : tv) : tv := match x with T3 => F3 | F3 => T3 | U3 => U3 end.

(** Meaning of a conjunction / disjunction of arbitrarily many conditions. *)
Definition all3 (l : list tv) : tv := fold_right and3 T3 l.
Definition any3 (l : list tv) : tv := fold_right or3 F3 l.

(** How a DBMS interprets scalar expressions and operators.  [V] is the domain of SQL values (including NULL). *)
Record interp (E : Type) := {
  V : Type;
  val : (col -> V) -> E -> V;
  opsem : binop -> V -> V -> tv;
  unsem : unop -> V -> tv
}.
Arguments V {E}. Arguments val {E}. Arguments opsem {E}. Arguments unsem {E}.

Section Sem.
  Context {E : Type} (I : interp E).

  Definition row := col -> V I.

  Fixpoint sem (r : row) (p : pred E) : tv :=
    match p with
    | PBin op a b => opsem I op (val I r a) (val I r b)
    | PBetween a lo hi => and3 (opsem I OpGe (val I r a) (val I r lo)) (opsem I OpLe (val I r a) (val I r hi))
    | PIn a vs => any3 (map (fun v => opsem I OpEq (val I r a) (val I r v)) vs)
    | PUn op a => unsem I op (val I r a)
    | PNot q => not3 (sem r q)
    | PAnd ps => all3 (map (sem r) ps)
    | POr ps => any3 (map (sem r) ps)
    end.
End Sem.

(** An OR (not below another OR or a NOT) is homogeneous if it is made only of joins or only of filters.  The notion of
    join is passed in. *)
Fixpoint homogeneous {E} (isj : pred E -> bool) (p : pred E) : Prop :=
  match p with
  | PAnd ps => (fix go l := match l with [] => True | q :: r => homogeneous isj q /\ go r end) ps
  | POr ps => (forall q, In q ps -> isj q = true) \/ (forall q, In q ps -> isj q = false)
  | _ => True
  end.

(** [l] lists the elements of a Python set that was built from the elements of [xs]. *)
Definition lists_set {A} (l xs : list A) : Prop := NoDup l /\ forall x, In x l <-> In x xs.

(** The leaves of a nested conjunction. *)
Fixpoint conjuncts {E} (p : pred E) : list (pred E) :=
  match p with PAnd ps => flat_map conjuncts ps | _ => [p] end.

(** Some base predicate below [p] satisfies [Q]. *)
Fixpoint some_leaf {E} (Q : pred E -> Prop) (p : pred E) : Prop :=
  match p with
  | PNot q => some_leaf Q q
  | PAnd ps | POr ps => (fix go l := match l with [] => False | q :: r => some_leaf Q q \/ go r end) ps
  | b => Q b
  end.

(** A small concrete expression language used for the examples: columns, integer constants (or NULL) and sums. *)
Inductive xe := XCol (c : col) | XInt (v : option nat) | XAdd (a b : xe).
Fixpoint xcols (e : xe) : list col :=
  match e with XCol c => [c] | XInt _ => [] | XAdd a b => xcols a ++ xcols b end.
Fixpoint xval (r : col -> option nat) (e : xe) : option nat :=
  match e with
  | XCol c => r c
  | XInt v => v
  | XAdd a b => match xval r a, xval r b with Some x, Some y => Some (x + y) | _, _ => None end
  end.
Definition tv_of (b : bool) : tv := if b then T3 else F3.
Definition xop (op : binop) (a b : option nat) : tv :=
  match op, a, b with
  | OpIs, _, _ => tv_of (match a, b with Some x, Some y => x =? y | None, None => true | _, _ => false end)
  | OpIsNot, _, _ => tv_of (match a, b with Some x, Some y => negb (x =? y) | None, None => false | _, _ => true end)
  | OpEq, Some x, Some y => tv_of (x =? y)
  | OpNe, Some x, Some y => tv_of (negb (x =? y))
  | OpLt, Some x, Some y => tv_of (x <? y)
  | OpLe, Some x, Some y => tv_of (x <=? y)
  | OpGt, Some x, Some y => tv_of (y <? x)
  | OpGe, Some x, Some y => tv_of (y <=? x)
  | _, _, _ => U3
  end.
Definition XI : interp xe :=
  {| V := option nat; val := xval; opsem := xop; unsem := fun _ v => match v with Some 0 => F3 | Some _ => T3 | None => U3 end |}.

#[global] Instance EqD_xe : EqD xe.
Proof. intros a b. unfold EqD in *. decide equality; apply eqd. Defined.
