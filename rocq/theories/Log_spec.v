(** What progress should be shown, and where messages should go. *)
From Coq Require Import List Bool Arith Ascii String.
From Verif Require Import PyBase Ident_model Log_model.
Import ListNotations.

(** All bars are complete: [n] repetitions of a workload with [q] queries, each executed [r] times. *)
Definition complete (n q r : nat) (b : bars) : Prop := b_workload b = n /\ b_query b = q /\ b_rep b = r.
(** The messages of repetition number [i] and the ones after it: one per query. *)
Inductive messages : nat -> list (list (string * bool)) -> list (string * nat) -> Prop :=
| ms_nil i : messages i [] []
| ms_run i qs runs m m' : Forall2 (fun q x => x = (fst q, i)) qs m -> messages (S i) runs m' -> messages i (qs :: runs) (m ++ m').
(** The words of the prefix. *)
Inductive prefix_words : prefix -> list string -> Prop :=
| pw_none : prefix_words (PText "") []
| pw_text s : s <> ""%string -> prefix_words (PText s) [s]
| pw_call s : prefix_words (PCall s) [s].
(** The files that receive what is printed. *)
Inductive receives : stdout -> nat -> Prop :=
| rc_here f b : receives (Tee f b) f
| rc_below f g b : receives b f -> receives (Tee g b) f.
(** No file is used twice. *)
Inductive distinct : stdout -> Prop :=
| ds_original : distinct Original
| ds_tee f b : ~ receives b f -> distinct b -> distinct (Tee f b).
