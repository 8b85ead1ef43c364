(** How SQL reads the text of a condition: OR binds weakest, then AND, then NOT. *)
From Coq Require Import List Bool Arith.
From Verif Require Import PyBase Pred_model Pred_spec Prec PPrint_model.
Import ListNotations.

Definition pblvl (s : psym) : option nat := match s with SOr => Some 0 | SAnd => Some 1 | SNot => None end.
Definition pulvl (s : psym) : option nat := match s with SNot => Some 2 | _ => None end.
Definition preads {E} : list (ptok E) -> tree (patom E) psym -> Prop := reads 3 pblvl pulvl.

(** The truth value of what was read. *)
Fixpoint tsem {E} (I : interp E) (r : row I) (t : tree (patom E) psym) : tv :=
  match t with
  | EAtom (neg, b) => if neg then not3 (sem I r b) else sem I r b
  | EBin SOr a b => or3 (tsem I r a) (tsem I r b)
  | EBin _ a b => and3 (tsem I r a) (tsem I r b)
  | EUn _ a => not3 (tsem I r a)
  end.

(** No conjunction directly below a negation. *)
Fixpoint no_not_and {E} (p : pred E) : bool :=
  match p with
  | PNot (PAnd _) => false
  | PNot q => no_not_and q
  | PAnd ps | POr ps => forallb no_not_and ps
  | _ => true
  end.
