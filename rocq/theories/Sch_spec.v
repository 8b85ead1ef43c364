(** What the schema methods should answer, in terms of the declared constraints and indexes only. *)
From Coq Require Import List.
From Verif Require Import PyBase Graph Sch_model.
Import ListNotations.
Set Implicit Arguments.

Section Spec.
  Context {N : Type}.
  Implicit Types (cat : catalog N) (t c : N).

  (** Column [c] of [t] belongs to a declared constraint of this kind (named [n]). *)
  Definition declared cat (kd : kkind) t c n : Prop :=
    exists k, In k (constrs cat) /\ k_kind k = kd /\ k_tab k = t /\ In c (k_cols k) /\ k_name k = n.
  Definition in_primary cat t c : Prop := exists n, declared cat KPrimary t c n.
  Definition in_unique cat t c : Prop := exists n, declared cat KUnique t c n.
  Definition in_foreign cat t c : Prop := exists n, declared cat KForeign t c n.

  (** A foreign key makes column [c] of [t] refer to column [snd d] of [fst d]: the columns correspond by position. *)
  Definition refers cat t c (d : N * N) : Prop :=
    exists k i, In k (constrs cat) /\ k_kind k = KForeign /\ k_tab k = t /\ nth_error (k_cols k) i = Some c /\
                k_ref k = fst d /\ nth_error (k_rcols k) i = Some (snd d).

  (** Names of constraints are unique within the schema. *)
  Definition unique_names cat : Prop := NoDup (map k_name (constrs cat)).
  (** Each table has at most one primary key, whose columns are different. *)
  Definition primary_wf cat : Prop :=
    (forall k k', In k (constrs cat) -> In k' (constrs cat) -> k_kind k = KPrimary -> k_kind k' = KPrimary -> k_tab k = k_tab k' -> k = k') /\
    (forall k, In k (constrs cat) -> NoDup (k_cols k)).
  (** A foreign key refers to as many columns as it restricts. *)
  Definition foreign_wf cat : Prop := forall k, In k (constrs cat) -> k_kind k = KForeign -> length (k_cols k) = length (k_rcols k).
  (** No foreign key has more than one column. *)
  Definition single_foreign cat : Prop := forall k, In k (constrs cat) -> k_kind k = KForeign -> length (k_cols k) = 1 /\ length (k_rcols k) = 1.

  (** Indexes. *)
  Definition indexed cat t c n (p : bool) : Prop :=
    exists i, In i (indexes cat) /\ i_tab i = t /\ In c (i_cols i) /\ i_name i = n /\ i_prim i = p.

  (** Two columns are connected by foreign keys (in any direction, over any number of steps). *)
  Inductive linked {A} (es : list (A * A)) : A -> A -> Prop :=
  | linked_refl x : linked es x x
  | linked_fwd x y z : linked es x y -> In (y, z) es -> linked es x z
  | linked_bwd x y z : linked es x y -> In (z, y) es -> linked es x z.

  (** The first element with a property. *)
  Inductive first_such {A} (P : A -> Prop) : list A -> option A -> Prop :=
  | fs_nil : first_such P [] None
  | fs_here x l : P x -> first_such P (x :: l) (Some x)
  | fs_next x l r : ~ P x -> first_such P l r -> first_such P (x :: l) r.
End Spec.

(** A foreign key reference of the schema: from a column of a table that is no view. *)
Definition schema_ref {N : Type} (tables : list N) (is_view : N -> bool) (colnames : N -> list N) (fks : N * N -> list (N * N)) (r : (N * N) * (N * N)) : Prop :=
  In (fst (fst r)) tables /\ is_view (fst (fst r)) = false /\ In (snd (fst r)) (colnames (fst (fst r))) /\ In (snd r) (fks (fst r)).
