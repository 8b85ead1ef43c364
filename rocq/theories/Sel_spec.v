(** What the selection of operators should do. *)
From Coq Require Import List Bool Arith.
From Verif Require Import PyBase FSet Hint_model JT_model JT_spec.
Import ListNotations.

(** The operators that an assignment has for a table and for a join. *)
Definition scan_op (a : poa) (t : nat) : option nat := option_map sa_op (dget (scans a) t).
Definition join_op (a : poa) (l : list nat) : option nat := option_map ja_op (dget (joins a) (mkfs l)).
(** [a] assigns [f] to the tables of [tabs] and [g] to the joins of [sets], and nothing else. *)
Definition assigns (a : poa) (tabs : list nat) (sets : list (list nat)) (f : nat -> nat) (g : list nat -> nat) : Prop :=
  glob a = [] /\ inters a = [] /\
  (forall t, scan_op a t = if mem t tabs then Some (f t) else None) /\
  (forall l, join_op a l = if existsb (fun s => seteqb s l) sets then Some (g (mkfs l)) else None) /\
  (forall t x, dget (scans a) t = Some x -> sa_tab x = t /\ sa_par x = None) /\
  (forall s x, dget (joins a) s = Some x -> ja_join x = s /\ ja_dir x = None /\ ja_par x = None).
(** The operators are allowed. *)
Definition from_ops (tabs : list nat) (sets : list (list nat)) (scan_ops join_ops : list nat) (f : nat -> nat) (g : list nat -> nat) : Prop :=
  (forall t, In t tabs -> In (f t) scan_ops) /\ (forall s, In s sets -> In (g (mkfs s)) join_ops).
(** Join trees over different tables. *)
Definition over_tables {A} (t : jt nat A) : Prop := proper t /\ NoDup (jt_itertables t).
(** The joins of a tree: the tables of each of them. *)
Definition join_of {A} (t : jt nat A) (l : list nat) : Prop := exists lg o i a, subtree (JJoin lg o i a) t /\ seteq l (jt_itertables o ++ jt_itertables i).
