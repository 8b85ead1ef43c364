(** Model of _normalize_filter_predicate, postbound/opt/tonic.py 146-175, with TableReference.drop_alias, postbound/_core.py 823-839.

    Simplifications: a predicate is given by its shape (operators, functions and constants) and its columns in order; renaming columns keeps the
    shape (C13); tables() are the tables of its columns (C05).  Tables are tuples ((name, schema), (alias, virtual)). *)
From Coq Require Import List Bool String.
From Verif Require Import PyBase Ident_model.
Import ListNotations.

Definition tab : Type := (string * string) * (string * bool).
Definition virtual (t : tab) : bool := snd (snd t).
Definition drop_alias (t : tab) : res tab := if virtual t then Raise StateError else Ok (fst t, (""%string, false)).
Definition col : Type := string * option tab.
Section Normalize.
  Context {S : Type}.
  Definition pred : Type := S * list col.
  Definition pred_tables (p : pred) : list tab := flat_map (fun c => match snd c with Some t => [t] | None => [] end) (snd p).
  Definition rename_columns (p : pred) (d : dict col col) : pred :=
    (fst p, map (fun c => match dget d c with Some c' => c' | None => c end) (snd p)).
  Definition normalize (tables : list tab) (p : option pred) : res (option pred) :=
    match p with
    | None => Ok None
    | Some p =>
      let referenced := filter (fun t => mem t tables) (pred_tables p) in
      rbind (rmapM (fun t => rbind (drop_alias t) (fun u => Ok (t, u))) referenced) (fun renamed_tables =>
      let renamed_columns := flat_map (fun c => match snd c with
        | Some t => match dget renamed_tables t with Some u => [(c, (fst c, Some u))] | None => [] end
        | None => [] end) (snd p) in
      Ok (Some (rename_columns p renamed_columns)))
    end.
End Normalize.
Arguments pred : clear implicits.
