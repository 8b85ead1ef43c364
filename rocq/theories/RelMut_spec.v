(** Specification for copies of relational algebra trees. *)
From Coq Require Import List Bool Arith.
From Verif Require Import PyBase Pred_model Rel_model RelMut_model.
Import ListNotations.

(** A node without its inputs: the operator and its attributes. *)
Definition bare (n : rnode) : rnode :=
  let x := NRel 0 [] in
  match n with
  | NRel t cs => NRel t cs
  | NSel _ p => NSel x p | NMap _ es => NMap x es | NGroup _ gc ag => NGroup x gc ag | NSort _ ks => NSort x ks | NProj _ ts => NProj x ts | NDup _ => NDup x
  | NCross _ _ => NCross x x | NTheta _ _ p => NTheta x x p | NUnion _ _ => NUnion x x | NInter _ _ => NInter x x | NDiff _ _ => NDiff x x
  end.
Definition prefix (p q : pos) : Prop := exists s, q = p ++ s.
(** The second tree is the first one with the node [u] put at position [p]: the operators above [p] are the same, and so is everything beside. *)
Record changed_at (old : rnode) (p : pos) (u new : rnode) : Prop :=
  { ch_here : sub new p = Some u;
    ch_above : forall q, prefix q p -> q <> p -> option_map bare (sub new q) = option_map bare (sub old q);
    ch_beside : forall q, ~ prefix q p -> ~ prefix p q -> sub new q = sub old q }.

(** A leaf is a node without inputs; the leaf of a node is unique if every node on the way has one input. *)
Inductive leads_to : rnode -> rnode -> Prop :=
| leads_leaf n : children n = [] -> leads_to n n
| leads_child n c m : children n = [c] -> leads_to c m -> leads_to n m.
