(** When does a predicate join two tables, and when are tables connected?  Written over the syntax only. *)
From Coq Require Import List Bool Arith.
From Verif Require Import PyBase Pred_model Pred_spec.
Import ListNotations.

Definition mentions (cs : list col) (t : tbl) : Prop := exists c, In c cs /\ c_tab c = Some t.

(** A base predicate relates two different tables: a comparison relates all tables it mentions; BETWEEN and IN relate the
    tested expression with the bounds/values and the tables inside the tested expression with each other. *)
Definition leaf_links {E} (ecols : E -> list col) (t u : tbl) (b : pred E) : Prop :=
  t <> u /\
  match b with
  | PBin _ x y => mentions (ecols x ++ ecols y) t /\ mentions (ecols x ++ ecols y) u
  | PBetween x lo hi =>
      let all := ecols x ++ ecols lo ++ ecols hi in
      (mentions (ecols x) t /\ mentions all u) \/ (mentions (ecols x) u /\ mentions all t)
  | PIn x vs =>
      let all := ecols x ++ flat_map ecols vs in
      (mentions (ecols x) t /\ mentions all u) \/ (mentions (ecols x) u /\ mentions all t)
  | PUn _ x => mentions (ecols x) t /\ mentions (ecols x) u
  | _ => False
  end.

Definition links {E} (ecols : E -> list col) (t u : tbl) (p : pred E) : Prop := some_leaf (leaf_links ecols t u) p.

(** Reflexive-transitive closure inside a node set. *)
Inductive chain {A} (R : A -> A -> Prop) (ns : list A) : A -> A -> Prop :=
| chain_refl x : In x ns -> chain R ns x x
| chain_step x y z : chain R ns x y -> R y z -> In z ns -> chain R ns x z.

(** The tables [ts] hang together through the predicates [js]. *)
Definition tables_connected {E} (ecols : E -> list col) (js : list (pred E)) (ts : list tbl) : Prop :=
  forall t u, In t ts -> In u ts -> chain (fun a b => exists j, In j js /\ links ecols a b j) ts t u.
