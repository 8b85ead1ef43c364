(** Specification vocabulary for C273 to C275: files of lines, accesses to predefined workloads. *)
From Coq Require Import String List Bool Arith Ascii.
From Verif Require Import PyBase Work_model WLoad_model.
Import ListNotations.
Local Open Scope list_scope.

(** A text file with the given lines; the last one may lack its line break. *)
Definition file_of (lines : list text) (last : text) : text := concat (map (fun l => l ++ [nl]) lines) ++ last.
Definition one_line (l : text) : Prop := ~ In nl l.
(** The lines of a file, as texts for the parser. *)
Definition lines_of (lines : list text) (last : text) : list text := map (fun l => l ++ [nl]) lines ++ match last with [] => [] | _ => [last] end.

(** Some accesses, each with the state of the network at its time. *)
Fixpoint accesses {Q} {EQ : EqD Q} (nsort : list string -> list string) (d : disk Q) (l : list ((wname -> download Q) * wname)) : disk Q :=
  match l with [] => d | (net, n) :: r => accesses nsort (fst (load nsort net d n)) r end.
(** The files that make up a workload: at least one, each with a name of its own and a query. *)
Definition proper {Q} (f : files Q) : Prop := f <> [] /\ NoDup (map fst f) /\ forall s, ~ In (s, None) f.
