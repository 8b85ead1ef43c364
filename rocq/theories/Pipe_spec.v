(** When may a pipeline run? *)
From Coq Require Import List Bool.
From Verif Require Import PyBase Check_model Pipe_model.
Import ListNotations.

(** The component has been found to support the database system, or the query. *)
Definition supports_db {Q D} (d : D) (c : comp Q D) : Prop := passed (check_db (cp_check c) d) = true.
Definition supports_query {Q D} (q : Q) (c : comp Q D) : Prop := passed (check_query (cp_check c) q) = true.
(** A call sequence in which every new algorithm is built at once. *)
Inductive careful {Q D} : list (iop Q D) -> Prop :=
| cf_nil : careful []
| cf_use c ops : careful ops -> careful (IUse c :: IBuild :: ops)
| cf_db d ops : careful ops -> careful (ISetDb d :: ops)
| cf_build ops : careful ops -> careful (IBuild :: ops)
| cf_run q ops : careful ops -> careful (IRun q :: ops).
(** No call failed. *)
Definition no_failure {Q D} (os : list (outcome Q D)) : Prop := forall e, ~ In (Failed e) os.
