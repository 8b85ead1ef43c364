(** Specification for C99-C102. *)
From Coq Require Import List Bool Arith ZArith QArith.
From Verif Require Import PyBase FSet Pred_model QPred_spec Card_model CEst_model.
Import ListNotations.

(** The intermediates of a query: all sets of tables, or the ones that hang together. *)
Definition intermediate {E} (ecols : E -> list col) (tabs : list nat) (js : list (pred E)) (cross : bool) (s : fs) : Prop :=
  exists j, j <> [] /\ incl j tabs /\ NoDup j /\ s = mkfs j /\ (cross = true \/ tables_connected ecols js j).

(** What an estimator without cache answers. *)
Section Current.
  Context {Q D : Type} (count : D -> Q -> res card).
  Fixpoint current (d : D) (l : list (@command Q D)) : list (res card) :=
    match l with [] => [] | Change d' :: r => current d' r | ResetCache :: r => current d r | Estimate q :: r => count d q :: current d r end.
End Current.
(** After a change, the cache is reset before the next estimate. *)
Fixpoint reset_after_change {Q D} (stale : bool) (l : list (@command Q D)) : Prop :=
  match l with
  | [] => True
  | Change _ :: r => reset_after_change true r
  | ResetCache :: r => reset_after_change false r
  | Estimate _ :: r => stale = false /\ reset_after_change stale r
  end.

(** A table of pre-computed cardinalities: at most one entry for each query and each set of tables. *)
Definition table := list (nat * fs * card).
Definition as_file (t : table) : list sample := map (fun '(l, s, c) => Sample l (CJson s) c) t.
Definition lookup (t : table) (label : nat) (s : fs) : option card :=
  match find (fun '(l, s', _) => (l =? label) && (if eqd s' s then true else false)) t with Some (_, _, c) => Some c | None => None end.
Definition one_each (t : table) : Prop := NoDup (map fst t).

(** A finite float as a fraction. *)
Definition fin (f : fval) (q : Q) : Prop := exists m e, f = FFin m e /\ (q == inject_Z (fnum m e) / inject_Z (fden e))%Q.
