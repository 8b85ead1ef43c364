(** What workloads and reading workloads should do. *)
From Coq Require Import List Bool Arith ZArith String Permutation.
From Verif Require Import PyBase Ident_model Work_model.
Import ListNotations.

(** The label is bound to the query (item access). *)
Definition binds {L Q} {EL : EqD L} (w : workload L Q) (l : L) (q : Q) : Prop := item (w_data w) l = Ok q.
(** entries() lists each label once, together with the query that item access yields. *)
Definition agrees {L Q} {EL : EqD L} (w : workload L Q) : Prop :=
  NoDup (map fst (entries w)) /\ forall l q, In (l, q) (entries w) <-> binds w l q.
(** label_of() finds a label for exactly the queries of the workload, and it is one of their labels. *)
Definition finds {L Q} {EL : EqD L} {EQ : EqD Q} (w : workload L Q) : Prop :=
  (forall q l, label_of w q = Ok l -> binds w l q) /\ (forall q l, binds w l q -> exists l', label_of w q = Ok l').
Definition sorts {L} (nsort : list L -> list L) : Prop := forall l, Permutation (nsort l) l.

(** All files below a directory, with the names of the subdirectories as prefixes of the labels. *)
Open Scope string_scope.
Fixpoint labelled {Q} (prefix : string) (d : dir Q) : list (string * option Q) :=
  match d with
  | Dir _ files subdirs => map (fun f => (prefix ++ fst f, snd f)) files ++ flat_map (fun s => match s with Dir stem _ _ => labelled (sub_prefix prefix stem) s end) subdirs
  end.
(** ... and without any prefixes. *)
Fixpoint unlabelled {Q} (d : dir Q) : list (string * option Q) :=
  match d with Dir _ files subdirs => files ++ flat_map unlabelled subdirs end.
Close Scope string_scope.

(** Workloads obtained from the constructor by any sequence of operations (other than item assignment and deletion), with all
    random choices. *)
Section Made.
  Context {L Q : Type} {EL : EqD L} {EQ : EqD Q} (nsort : list L -> list L).
  Inductive made : workload L Q -> Prop :=
  | m_new ds w : new nsort ds = Ok w -> made w
  | m_first w n w' : made w -> first nsort w n = Ok w' -> made w'
  | m_last w n w' : made w -> last nsort w n = Ok w' -> made w'
  | m_pick w choice n w' : made w -> sorts choice -> pick_random nsort choice w n = Ok w' -> made w'
  | m_filter w p w' : made w -> filter_by nsort w p = Ok w' -> made w'
  | m_with w ls w' : made w -> with_labels nsort w ls = Ok w' -> made w'
  | m_shuffle w choice w' : made w -> sorts choice -> shuffle nsort choice w = Ok w' -> made w'
  | m_ordered w w' : made w -> ordered nsort w = Ok w' -> made w'
  | m_add w v w' : made w -> made v -> add nsort w v = Ok w' -> made w'
  | m_sub w v w' : made w -> made v -> sub nsort w v = Ok w' -> made w'
  | m_and w v w' : made w -> made v -> and_ nsort w v = Ok w' -> made w'
  | m_sub_labels w ls w' : made w -> sub_labels nsort w ls = Ok w' -> made w'
  | m_and_labels w ls w' : made w -> and_labels nsort w ls = Ok w' -> made w'.
End Made.
