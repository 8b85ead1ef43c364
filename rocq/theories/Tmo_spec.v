(** What running a query with a timeout should lead to, in terms of what happens to the worker. *)
From Coq Require Import List Bool Arith.
From Verif Require Import PyBase Tmo_model.
Import ListNotations.

Section Spec.
  Context {err res_ : Type}.
  Definition done {A} (s : step err A) : Prop := exists d x, s = Done d x.
  (** The execution of the query itself ends, successfully or not, within the given time. *)
  Definition ends_within (v : env err res_) (t : nat) : Prop := exists d, d <= t /\ (e_execute v = Done d tt \/ exists e, e_execute v = Fails d e true).
  (** The backend that the worker talks to, if any. *)
  Definition backend (v : env err res_) : list nat := match e_connect v with Done _ pid => [pid] | _ => [] end.
  (** The first step that raises an exception. *)
  Definition raises {A} (s : step err A) (e : err) : Prop := exists d, s = Fails d e true.
  Inductive first_error (v : env err res_) (e : err) : Prop :=
  | in_connect : raises (e_connect v) e -> first_error v e
  | in_prepare : done (e_connect v) -> raises (e_prepare v) e -> first_error v e
  | in_execute : done (e_connect v) -> done (e_prepare v) -> raises (e_execute v) e -> first_error v e
  | in_fetch : done (e_connect v) -> done (e_prepare v) -> done (e_execute v) -> raises (e_fetch v) e -> first_error v e.
  (** Processes that do not die and do not get stuck, except for the query itself; exceptions can be sent. *)
  Definition ends {A} (s : step err A) : Prop := match s with Done _ _ => True | Fails _ _ b => b = true | _ => False end.
  Definition robust (v : env err res_) : Prop := ends (e_connect v) /\ ends (e_prepare v) /\ ends (e_fetch v) /\ e_close v <> Never /\ (forall d e b, e_execute v = Fails d e b -> b = true).
End Spec.
