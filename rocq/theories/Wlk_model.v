(** Model of GraphWalk, postbound/util/nx.py 190-295; of _generate_expression_mapping_dict, postbound/relalg.py 2754-2810; and of
    _CardinalityEstimatorWrapper, postbound/opt/ues.py 550-589.

    Simplifications: edge data is opaque, with values for dictionaries that cannot be hashed; expressions are opaque, with their children; the
    cardinality estimator is given by the query it is initialized for, and a function for its estimates. *)
From Coq Require Import List Bool Arith ZArith.
From Verif Require Import PyBase.
Import ListNotations.

(** ** GraphWalk *)
Section Walk.
  Context {N D : Type} {EN : EqD N} {ED : EqD D}.
  Record walk := { w_start : N; w_path : list (N * option D) }.       (* [None]: the node was jumped to *)
  Definition nodes (w : walk) : list N := w_start w :: map fst (w_path w).
  Definition final_node (w : walk) : N := match rev (w_path w) with [] => w_start w | x :: _ => fst x end.
  Definition expand (w : walk) (n : N) (d : option D) : walk := {| w_start := w_start w; w_path := w_path w ++ [(n, d)] |}.
  Definition walk_len (w : walk) : nat := 1 + List.length (w_path w).
  Definition walk_eqb (w v : walk) : bool := deqb (w_start w) (w_start v) && deqb (w_path w) (w_path v).
  (** __hash__ 281-282: dictionaries cannot be hashed. *)
  Definition walk_hash (h : N * list N -> Z) (w : walk) : res Z :=
    if existsb (fun x => match snd x with Some _ => true | None => false end) (w_path w) then Raise TypeError else Ok (h (w_start w, map fst (w_path w))).
  Definition nodes_hash (h : list N -> Z) (w : walk) : Z := h (nodes w).
End Walk.
Arguments walk : clear implicits.

(** ** Mappings of expressions; frozensets are functions to the order in which [norm] lists their elements. *)
Section Mapping.
  Context {E : Type} {EE : EqD E} (children : E -> list E) (needs_mapping : E -> bool) (norm : list E -> list E).
  Definition arguments (e : E) : list E := norm (filter needs_mapping (children e)).
  Definition mapping (es : list E) : dict (list E) (list E) :=
    fold_left (fun m e => let k := arguments e in let old := match dget m k with Some l => l | None => [] end in dset m k (if mem e old then old else old ++ [e])) es [].
End Mapping.

(** ** _CardinalityEstimatorWrapper: the calls of the estimator are recorded. *)
Section Wrapper.
  Context {Q T R : Type} (star : T -> Q) (estimate : option Q -> option Q -> T -> R).     (* query of the initialization, query, table *)
  Inductive call := Initialize (q : option Q) | Cleanup.
  Record wrapper := { w_query : option Q; w_init : option Q; w_calls : list call }.
  Definition initialize (q : option Q) (w : wrapper) : wrapper := {| w_query := w_query w; w_init := q; w_calls := w_calls w ++ [Initialize q] |}.
  Definition cleanup (w : wrapper) : wrapper := {| w_query := w_query w; w_init := None; w_calls := w_calls w ++ [Cleanup] |}.
  Definition new_wrapper : wrapper := {| w_query := None; w_init := None; w_calls := [] |}.
  (** setup_for_query 560-562 *)
  Definition setup_for_query (q : Q) (w : wrapper) : wrapper := initialize (Some q) {| w_query := Some q; w_init := w_init w; w_calls := w_calls w |}.
  (** estimate_for 564-565 *)
  Definition estimate_for (t : T) (w : wrapper) : R := estimate (w_init w) (w_query w) t.
  (** estimate_total_rows 567-586 *)
  Definition estimate_total_rows (t : T) (w : wrapper) : wrapper * R :=
    let w := initialize (Some (star t)) (cleanup w) in
    let r := estimate (w_init w) (Some (star t)) t in
    let w := cleanup w in
    (initialize (w_query w) w, r).
  (** Uses of the wrapper, and the estimates that they give *)
  Inductive use := Setup (q : Q) | Filtered (t : T) | Total (t : T).
  Definition step (s : wrapper * list R) (u : use) : wrapper * list R :=
    match u with
    | Setup q => (setup_for_query q (fst s), snd s)
    | Filtered t => (fst s, snd s ++ [estimate_for t (fst s)])
    | Total t => let (w, r) := estimate_total_rows t (fst s) in (w, snd s ++ [r])
    end.
End Wrapper.
Arguments call : clear implicits.
Arguments wrapper : clear implicits.
Arguments use : clear implicits.
