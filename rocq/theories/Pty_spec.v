(** Specifications for C368-C371, independent of the parser: the characters of operators, and the values of CASE expressions in SQL. *)
From Coq Require Import List Bool String Ascii.
Import ListNotations.

(** The characters that names of operators consist of in Postgres. *)
Definition opchar (c : ascii) : Prop := In c (list_ascii_of_string "+-*/<>=~!@#%^&|`?").
Definition opname (s : string) : Prop := Forall opchar (list_ascii_of_string s).

(** The value of CASE: the result of the first case that applies, otherwise the value of ELSE, otherwise NULL.  [holds] is the truth of a value,
    [same] the comparison of two values by "=". *)
Section Value.
  Context {X V : Type} (value : X -> V) (holds : V -> Prop) (same : V -> V -> Prop) (null : V).
  Definition applies (arg : option X) (w : X) : Prop :=
    match arg with None => holds (value w) | Some a => same (value a) (value w) end.
  Definition case_value (whens : list (X * X)) (arg els : option X) (v : V) : Prop :=
    (exists before w r after, whens = before ++ (w, r) :: after /\ Forall (fun p => ~ applies arg (fst p)) before /\ applies arg w /\ v = value r) \/
    (Forall (fun p => ~ applies arg (fst p)) whens /\ v = match els with Some e => value e | None => null end).
End Value.
