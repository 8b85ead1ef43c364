(** Answers directly from the catalog of the schema that was set last. *)
From Coq Require Import List Bool Arith String.
From Verif Require Import PyBase Ident_model SCache_model.
Import ListNotations.

Section Spec.
  Context {D : Type} {E : EqD D} (catalog : D -> option string -> string -> list string).
  Definition table_columns (s : option D) (t : tab) : list string := match s with Some d => catalog d (t_schema t) (t_name t) | None => [] end.
  (** The first table that is not virtual and has the column. *)
  Definition owner (s : option D) (col : string) (ts : list tab) : option tab := find (fun t => negb (t_virtual t) && mem col (table_columns s t)) ts.
  Definition direct (s : option D) (o : sop) : option D * answer :=
    match o with
    | Init s' => (s', AInit)
    | Lookup col ts => (s, ATable (owner s col ts))
    | ColumnsOf t => (s, ACols (table_columns s t))
    end.
  Fixpoint direct_run (s : option D) (ops : list sop) : list answer := match ops with [] => [] | o :: ops => let '(s, a) := direct s o in a :: direct_run s ops end.
  (** Tables without an explicit database schema. *)
  Definition unqualified (o : @sop D) : Prop := match o with Lookup _ ts => Forall (fun t => t_schema t = None) ts | ColumnsOf t => t_schema t = None | Init _ => True end.
End Spec.
