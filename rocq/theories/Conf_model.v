(** Model of Postgres configurations, postbound/postgres.py 252-501.

    Values are booleans or other objects, the latter given by the text str() yields.  Indexing a configuration by position (it is
    a string) is not modelled. *)
From Coq Require Import List Bool Arith String.
From Verif Require Import PyBase Ident_model.
Import ListNotations.
Open Scope string_scope.

Inductive value := VBool (b : bool) | VObj (text : string).
Definition none : value := VObj "None".
Definition text_of (v : value) : string := match v with VBool true => "on" | VBool false => "off" | VObj s => s end.
(** PostgresSetting 252-314: a string with a parameter and a value *)
Record setting := mks { s_param : string; s_value : value }.
Definition setting_str (s : setting) : string := "SET " ++ s_param s ++ " = '" ++ text_of (s_value s) ++ "';".
(** Entries of the internal dictionary; item assignment stores arbitrary objects. *)
Inductive entry := ESetting (s : setting) | ERaw (v : value).
Definition py_str (v : value) : string := match v with VBool true => "True" | VBool false => "False" | VObj s => s end.
Definition entry_str (e : entry) : string := match e with ESetting s => setting_str s | ERaw v => py_str v end.
Record config := mkc { c_settings : dict string entry; c_data : string }.
(** _format 484-492 *)
Fixpoint join_lines (l : list string) : string :=
  match l with [] => "" | [s] => s | s :: l => s ++ String (Ascii.ascii_of_nat 10) (join_lines l) end.
Definition format (d : dict string entry) : string := join_lines (map entry_str (dvalues d)).
(** __init__ 360-362: every entry must have a parameter *)
Definition param_of (e : entry) : res string := match e with ESetting s => Ok (s_param s) | ERaw _ => Raise AttributeError end.
Definition new (es : list entry) : res config :=
  rmap (fun l => let d := dict_of l in mkc d (format d)) (rmapM (fun e => rmap (fun p => (p, e)) (param_of e)) es).
(** load 341-358 *)
Definition load (args : list setting) (kwargs : list (string * value)) : res config :=
  new (map ESetting (args ++ map (fun x => mks (fst x) (snd x)) kwargs)%list).

(** The argument of the methods: a name or a setting object, which is a string as well. *)
Inductive arg := ByName (s : string) | BySetting (s : setting).
Definition arg_str (a : arg) : string := match a with ByName s => s | BySetting s => setting_str s end.
(** add 385-422: the test for strings comes first and also holds for setting objects *)
Definition add (c : config) (a : option arg) (v : value) (kwargs : list (string * value)) : res config :=
  let target := match a with
    | Some a => let s := mks (arg_str a) v in dset (c_settings c) (s_param s) (ESetting s)
    | None => fold_left (fun d x => dset d (fst x) (ESetting (mks (fst x) (snd x)))) kwargs (c_settings c)
    end in
  new (dvalues target).
(** remove 424-442 *)
Definition remove (c : config) (a : arg) : res config :=
  new (dvalues (ddel (c_settings c) (match a with ByName s => s | BySetting s => s_param s end))).
(** update 444-472: the pattern for strings comes first *)
Definition update (c : config) (a : arg) (v : value) : res config :=
  let s := mks (arg_str a) v in new (dvalues (dset (c_settings c) (s_param s) (ESetting s))).
(** __setitem__ 499-501 *)
Definition setitem (c : config) (k : string) (v : entry) : res config :=
  let d := dset (c_settings c) k v in Ok (mkc d (format d)).

Inductive change := Add (a : arg) (v : value) | AddAll (kwargs : list (string * value)) | Remove (a : arg) | Update (a : arg) (v : value) | SetItem (k : string) (e : entry).
Definition apply (c : config) (o : change) : res config :=
  match o with
  | Add a v => add c (Some a) v []
  | AddAll kwargs => add c None none kwargs
  | Remove a => remove c a
  | Update a v => update c a v
  | SetItem k e => setitem c k e
  end.
Fixpoint apply_all (c : config) (l : list change) : res config := match l with [] => Ok c | o :: l => rbind (apply c o) (fun c => apply_all c l) end.
