(** Configurations as functions from parameters to values. *)
From Coq Require Import List Bool Arith String.
From Verif Require Import PyBase Ident_model Conf_model.
Import ListNotations.

Definition assignment := string -> option value.
Definition set1 (f : assignment) (p : string) (v : option value) : assignment := fun q => if String.eqb q p then v else f q.
Definition name_of (a : arg) : string := match a with ByName s => s | BySetting s => s_param s end.
(** What each change is meant to do.  Adding a setting object means to use its own value. *)
Definition effect (f : assignment) (o : change) : assignment :=
  match o with
  | Add (ByName s) v => set1 f s (Some v)
  | Add (BySetting s) _ => set1 f (s_param s) (Some (s_value s))
  | AddAll kwargs => fold_left (fun f x => set1 f (fst x) (Some (snd x))) kwargs f
  | Remove a => set1 f (name_of a) None
  | Update a v => set1 f (name_of a) (Some v)
  | SetItem k (ESetting s) => set1 f k (Some (s_value s))
  | SetItem k (ERaw v) => set1 f k (Some v)
  end.
(** Changes that give the parameter by name, or that remove something. *)
Definition by_name (o : change) : Prop :=
  match o with Add (BySetting _) _ | Update (BySetting _) _ | SetItem _ (ERaw _) => False | SetItem k (ESetting s) => s_param s = k | _ => True end.
(** A configuration has exactly the given values: one SET statement for each parameter, one per line. *)
Definition statement (x : string * value) : string := ("SET " ++ fst x ++ " = '" ++ text_of (snd x) ++ "';")%string.
Definition represents (c : config) (f : assignment) : Prop :=
  exists l : list (string * value), NoDup (map fst l) /\ (forall p v, In (p, v) l <-> f p = Some v) /\ c_data c = join_lines (map statement l) /\
  dkeys (c_settings c) = map fst l /\ forall p, dget (c_settings c) p = option_map (fun v => ESetting (mks p v)) (f p).
