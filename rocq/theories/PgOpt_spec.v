(** What plans of Postgres, operator settings and hinting backends are. *)
From Coq Require Import List Bool ZArith Ascii String.
From Verif Require Import PyBase Ident_model PgOpt_model.
Import ListNotations.

(** A server that answers each EXPLAIN with one row of one column: a list of one document, which depends on its settings. *)
Definition explains (answer : settings -> option explain -> nat -> nat -> res (list (list py)))
  (plan : settings -> explain -> nat -> nat -> doc) : Prop :=
  forall s x b q, answer s (Some x) b q = Ok [[VList [VDoc (Some (plan s x b q))]]].
(** The same, but executing a query for ANALYZE may fail or time out. *)
Definition analyzes (answer : settings -> option explain -> nat -> nat -> res (list (list py)))
  (plan : settings -> nat -> nat -> res doc) : Prop :=
  forall s b q, answer s (Some XAnalyze) b q = match plan s b q with Ok d => Ok [[VList [VDoc (Some d)]]] | Raise e => Raise e end.
(** The settings after a sequence of SET commands: the last one for a name counts. *)
Inductive after : settings -> list (string * string) -> settings -> Prop :=
| af_nil s : after s [] s
| af_set s n v l s' : after (dset s n v) l s' -> after s ((n, v) :: l) s'.

(** A file is the library [lib] if this is the last part of its path. *)
Definition is_library (lib f : string) : Prop := exists dir, f = (dir ++ "/" ++ lib)%string.
(** Libraries are files with another extension on macOS. *)
Definition extension (v : env) : string := if v_darwin v then "dylib"%string else "so"%string.
(** The backend can be used: it is switched on, or loaded in a version without the switch. *)
Definition usable (v : env) (b : backend) : Prop :=
  match b with
  | PgHintPlan => v_hint v = Some "on"%string \/ (v_hint v = None /\ exists f, In f (v_files v) /\ is_library ("pg_hint_plan." ++ extension v) f)
  | PgLab => v_lab v = Some "on"%string \/ (v_lab v = None /\ exists f, In f (v_files v) /\ is_library ("pg_lab." ++ extension v) f)
  | NoBackend => False
  end.
(** The files of the server can be seen: it is a Postgres process of this machine. *)
Definition observable (v : env) : Prop :=
  v_posix v = true /\ In (v_host v) ["localhost"; "127.0.0.1"; "::1"]%string /\
  exists c rest, In c (v_commands v) /\ slower c = ("postgres" ++ rest)%string.
(** No switch is off. *)
Definition not_off (o : option string) : Prop := o = None \/ o = Some "on"%string.
(** Files that look like the library are the library. *)
Definition proper_names (v : env) (lib : string) : Prop := forall f a, In f (v_files v) -> f = (a ++ lib)%string -> is_library lib f.
