(** Model of the exploration of operator costs of TONIC, postbound/opt/tonic.py 1165-1267 (_generate_all_cost_estimates, _sample_cost_estimates)
    and 1391-1457 (TonicOperatorSelection.explore_costs), with JoinTree.tables and iterjoins, postbound/_hints.py 1446-1455, 1585-1589, and
    JoinOperatorAssignment.__init__, _hints.py 1007-1021.

    Simplifications: tables and operators are numbers, joins are lists of tables; the plans that are asked from the database are represented by
    the operator assignment they are hinted with; sets of operators are enumerated in some order; random.choice is an arbitrary function of the
    number of the attempt, the join and the operators. *)
From Coq Require Import List Bool Arith ZArith.
From Verif Require Import PyBase.
Import ListNotations.
Local Open Scope nat_scope.

Notation join := (list nat).
Notation assignment := (dict join nat).
(** itertools.product *)
Fixpoint product {A} (l : list (list A)) : list (list A) :=
  match l with [] => [[]] | x :: r => flat_map (fun a => map (cons a) (product r)) x end.
(** PhysicalOperatorAssignment.set_join_operator(JoinOperatorAssignment(operator, join)) for all pairs *)
Fixpoint set_operators (a : assignment) (l : list (join * nat)) : res assignment :=
  match l with
  | [] => Ok a
  | (j, o) :: r => if List.length j <? 2 then Raise ValueError else set_operators (dset a j o) r
  end.
(** _generate_all_cost_estimates 1165-1207 *)
Definition generate_all (available : dict join (list nat)) : res (list assignment) :=
  rmapM (fun sel => set_operators [] (combine (dkeys available) sel)) (product (dvalues available)).
(** _sample_cost_estimates 1210-1267: [choice] is random.choice, which fails for an empty sequence *)
Section Sample.
  Context (choice : nat -> join -> list nat -> nat) (hash : assignment -> nat).
  Definition choose (i : nat) (j : join) (ops : list nat) : res nat := match ops with [] => Raise IndexError | _ => Ok (choice i j ops) end.
  Definition draw (i : nat) (available : dict join (list nat)) : res assignment :=
    rbind (rmapM (fun e => rmap (pair (fst e)) (choose i (fst e) (snd e))) available) (set_operators []).
  Fixpoint sample_loop (tries : nat) (i : nat) (n : nat) (available : dict join (list nat)) (seen : list nat) (plans : list assignment) : res (list assignment) :=
    match tries with
    | O => Ok plans
    | S tries =>
        if List.length plans <? n then
          rbind (draw i available) (fun a =>
            if mem (hash a) seen then sample_loop tries (S i) n available seen plans
            else sample_loop tries (S i) n available (hash a :: seen) (plans ++ [a]))
        else Ok plans
    end.
  Definition sample (n : nat) (available : dict join (list nat)) : res (list assignment) := sample_loop (3 * n) 0 n available [] [].

  (** explore_costs 1423-1455 *)
  Inductive jtree := Empty | Scan (t : nat) | Join (a b : jtree).
  Fixpoint tables (t : jtree) : list nat := match t with Empty => [] | Scan x => [x] | Join a b => dedup (tables a ++ tables b) end.
  Fixpoint iterjoins (t : jtree) : list jtree := match t with Join a b => iterjoins a ++ iterjoins b ++ [t] | _ => [] end.
  (** 1439-1442: tables() is a set and cannot be a key *)
  Definition unknown_costs (t : jtree) (ops : list nat) : res (dict join (list nat)) :=
    match iterjoins t with [] => Ok [] | _ => Raise TypeError end.
  Definition operators (all : list nat) (allowed : option (list nat)) (supported : nat -> bool) : list nat :=
    filter supported (match allowed with None | Some [] => all | Some l => dedup l end).
  (** 1443-1455: an int cannot be compared with None *)
  Definition explore (available : dict join (list nat)) (max_combinations : option Z) : res (list assignment) :=
    match max_combinations with
    | None => Raise TypeError
    | Some m => if (m <? Z.of_nat (fold_right Nat.mul 1%nat (map (@List.length nat) (dvalues available))))%Z then sample (Z.to_nat m) available else generate_all available
    end.
  Definition explore_costs (all : list nat) (t : jtree) (allowed : option (list nat)) (supported : nat -> bool) (max_combinations : option Z) : res (list assignment) :=
    rbind (unknown_costs t (operators all allowed supported)) (fun available => explore available max_combinations).
End Sample.
