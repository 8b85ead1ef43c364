(* Lemmas about equality and hash values of clauses. *)
From Coq Require Import List Bool Arith ZArith.
From Verif Require Import PyBase CHash_model.
Import ListNotations.

Definition OForall (P : obj -> Prop) (o : option obj) : Prop := match o with Some x => P x | None => True end.

(* the immediate members of an object *)
Definition olist (o : option obj) : list obj := match o with Some x => [x] | None => [] end.
Definition members (o : obj) : list obj :=
  match o with
  | OAtom _ | ODirect _ | OLimit _ _ _ _ | OExplain _ _ _ | OHint _ _ => []
  | OExpr _ l | OCte l _ | OFrom _ l | OGroup l _ | OOrder l => l
  | OSubquery x | OWith x _ _ | OProjection x _ | OSubSource x _ _ | OFuncSource x _ | OWhere x | OHaving x | OOrderExpr x _ _ => [x]
  | OValuesWith x _ l _ | OValuesSource _ l x => x :: l
  | OSelect _ l m => l ++ m
  | OJoinSource l r c _ => l :: r :: olist c
  | OUnion l r _ => [l; r]
  | OSql _ slots => some slots
  | OSet l r _ a b c d e => l :: r :: olist a ++ olist b ++ olist c ++ olist d ++ olist e
  end.

Section Ind.
  Context (P : obj -> Prop) (H : forall o, Forall P (members o) -> P o).
  Fixpoint obj_ind2 (o : obj) : P o :=
    let go := fix go (l : list obj) : Forall P l := match l with [] => Forall_nil P | x :: l => Forall_cons x (obj_ind2 x) (go l) end in
    let gos := fix gos (l : list (option obj)) : Forall P (some l) :=
      match l with
      | [] => Forall_nil P
      | None :: l => gos l
      | Some x :: l => Forall_cons x (obj_ind2 x) (gos l)
      end in
    let goo := fun (o : option obj) => match o return Forall P (olist o) with Some x => Forall_cons x (obj_ind2 x) (Forall_nil P) | None => Forall_nil P end in
    let app := fun l m (a : Forall P l) (b : Forall P m) => proj2 (Forall_app P l m) (conj a b) in
    let one := fun x (p : P x) => Forall_cons x p (Forall_nil P) in
    H o (match o return Forall P (members o) with
         | OAtom _ | ODirect _ | OLimit _ _ _ _ | OExplain _ _ _ | OHint _ _ => Forall_nil P
         | OExpr _ l | OCte l _ | OFrom _ l | OGroup l _ | OOrder l => go l
         | OSubquery x | OWith x _ _ | OProjection x _ | OSubSource x _ _ | OFuncSource x _ | OWhere x | OHaving x
         | OOrderExpr x _ _ => one x (obj_ind2 x)
         | OValuesWith x _ l _ | OValuesSource _ l x => Forall_cons x (obj_ind2 x) (go l)
         | OSelect _ l m => app l m (go l) (go m)
         | OJoinSource l r c _ => Forall_cons l (obj_ind2 l) (Forall_cons r (obj_ind2 r) (goo c))
         | OUnion l r _ => Forall_cons l (obj_ind2 l) (one r (obj_ind2 r))
         | OSql _ slots => gos slots
         | OSet l r _ a b c d e =>
             Forall_cons l (obj_ind2 l) (Forall_cons r (obj_ind2 r)
               (app _ _ (goo a) (app _ _ (goo b) (app _ _ (goo c) (app _ _ (goo d) (goo e))))))
         end).
End Ind.

Lemma all2_map {A} (f : A -> A -> bool) (h : A -> Z) l m :
  Forall (fun x => forall y, f x y = true -> h x = h y) l -> all2 f l m = true -> map h l = map h m.
Proof.
  revert m. induction l as [|x l IH]; intros [|y m] H E; try discriminate; [reflexivity|]. cbn [all2] in E.
  apply andb_true_iff in E. destruct E as [E1 E2]. inversion H as [|? ? H1 H2]; subst. cbn [map]. f_equal; [now apply H1|now apply IH].
Qed.

Lemma slots2_all2 f l m : slots2 f l m = all2 f (some l) m.
Proof.
  revert m. induction l as [|[x|] l IH]; intros m; cbn [slots2 some all2]; [reflexivity| |apply IH].
  destruct m as [|y m]; [reflexivity|]. now rewrite IH.
Qed.
