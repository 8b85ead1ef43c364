(** Model of util/num.py [BoundedInt] and util/misc.py [Version], [DependencyGraph]. *)
From Coq Require Import List Bool Arith ZArith Lia.
From Verif Require Import PyBase.
Import ListNotations.
Local Open Scope Z_scope.

(** ** BoundedInt, util/num.py 234-438 *)
Record bint := BI { b_value : Z; b_min : option Z; b_max : option Z }.

(** util/num.py 268-272 [_snap_to_min_max]: first the minimum, then the maximum *)
Definition snap (v : Z) (mn mx : option Z) : Z :=
  let v1 := match mn with Some m => if v <? m then m else v | None => v end in
  match mx with Some m => if v1 >? m then m else v1 | None => v1 end.

(** util/num.py 245-266 [__init__] (the value is an int; other types raise TypeError) *)
Definition bi_init (v : Z) (mn mx : option Z) : res bint :=
  match mn, mx with
  | Some a, Some b => if a >? b then Raise ValueError else Ok (BI (snap v mn mx) mn mx)
  | _, _ => Ok (BI (snap v mn mx) mn mx)
  end.
(** util/num.py 241-243 *)
Definition bi_non_neg (v : Z) (mx : option Z) : res bint := bi_init v (Some 0) mx.
(** util/num.py 280-284 [_set_value] *)
Definition bi_set (b : bint) (v : Z) : bint := BI (snap v (b_min b) (b_max b)) (b_min b) (b_max b).
(** util/num.py 291-297 [__add__]; the argument is the unwrapped integer (274-275) *)
Definition bi_add (b : bint) (o : Z) : res bint := bi_init (b_value b + o) (b_min b) (b_max b).
(** util/num.py 339-345 [__mul__] *)
Definition bi_mul (b : bint) (o : Z) : res bint := bi_init (b_value b * o) (b_min b) (b_max b).
(** util/num.py 347-350 [__neg__] *)
Definition bi_neg (b : bint) : res bint := bi_init (- b_value b) (b_min b) (b_max b).
(** util/num.py 359-367 [__pow__] for a non-negative integer exponent (negative exponents give floats and raise) *)
Definition bi_pow (b : bint) (e : nat) : res bint := bi_init (b_value b ^ Z.of_nat e) (b_min b) (b_max b).

(** ** Version, util/misc.py 34-153. A version is its non-empty list of integer components. *)
Definition version := list Z.

(** 96-106 [__eq__]: lengths, then component-wise *)
Fixpoint all_eqb (a b : list Z) : bool :=
  match a, b with
  | x :: r, y :: s => if x =? y then all_eqb r s else false
  | _, _ => true
  end.
Definition ver_eq (a b : version) : bool :=
  if negb (length a =? length b)%nat then false else all_eqb a b.
(** 120-131 [__le__]: loop over the zipped components, then the lengths *)
Fixpoint ver_le_loop (a b : list Z) (dflt : bool) : bool :=
  match a, b with
  | x :: r, y :: s => if x <? y then true else if y <? x then false else ver_le_loop r s dflt
  | _, _ => dflt
  end.
Definition ver_le (a b : version) : bool := ver_le_loop a b (length a <=? length b)%nat.
(** 133-144 [__lt__] *)
Definition ver_lt (a b : version) : bool := ver_le_loop a b (length a <? length b)%nat.
(** 108-112, 114-118 *)
Definition ver_ge (a b : version) : bool := negb (ver_lt a b).
Definition ver_gt (a b : version) : bool := negb (ver_le a b).

(** ** DependencyGraph, util/misc.py 156-217. Tasks are identified with their hash (node id); [self._nodes] maps ids to
    tasks and is represented by the id itself. *)
Local Open Scope nat_scope.
Record depgraph := DG { dg_sources : list nat; dg_deps : dict nat (list nat); dg_nodes : list nat }.
Definition dg_empty : depgraph := DG [] [] [].
Definition deps_of (g : depgraph) (n : nat) : list nat := match dget (dg_deps g) n with Some l => l | None => [] end.
Definition set_add (n : nat) (l : list nat) : list nat := if mem n l then l else l ++ [n].
Definition set_remove (n : nat) (l : list nat) : list nat := filter (fun x => negb (deqb n x)) l.
(** 185-191: one iteration of the dependency loop *)
Definition dg_add_dep (node : nat) (g : depgraph) (dep : nat) : depgraph :=
  let deps := dset (dg_deps g) dep (deps_of g dep ++ [node]) in
  if mem dep (dg_nodes g) then DG (dg_sources g) deps (dg_nodes g)
  else DG (set_add dep (dg_sources g)) deps (dg_nodes g ++ [dep]).
(** 164-191 [add_task] *)
Definition dg_add_task (g : depgraph) (node : nat) (depends_on : list nat) : depgraph :=
  let g1 := DG (dg_sources g) (dg_deps g) (set_add node (dg_nodes g)) in
  match depends_on with
  | [] => DG (set_add node (dg_sources g1)) (dg_deps g1) (dg_nodes g1)
  | _ =>
    let g2 := DG (set_remove node (dg_sources g1)) (dg_deps g1) (dg_nodes g1) in
    fold_left (dg_add_dep node) depends_on g2
  end.
(** 201-209: the while loop; the stack is popped at its end. *)
Fixpoint dg_loop (fuel : nat) (g : depgraph) (stack : list nat) (provided : list nat) (out : list nat)
  : res (list nat * list nat) :=
  match fuel with
  | O => Raise OutOfFuel
  | S f =>
    match rev stack with
    | [] => Ok (provided, out)
    | d :: rest =>
      let stack' := rev rest in
      if mem d provided then dg_loop f g stack' provided out
      else dg_loop f g (stack' ++ deps_of g d) (d :: provided) (out ++ [d])
    end
  end.
(** 193-210 [__iter__]: the list of yielded tasks, for a given iteration order of the set of source nodes *)
Definition dg_iter_from (fuel : nat) (g : depgraph) (sources : list nat) : res (list nat) :=
  rmap snd (fold_left (fun acc n =>
    rbind acc (fun '(provided, out) => dg_loop fuel g (deps_of g n) (n :: provided) (out ++ [n])))
    sources (Ok ([], []))).
Definition dg_iter (fuel : nat) (g : depgraph) : res (list nat) := dg_iter_from fuel g (dg_sources g).
