(** Model of the exhaustive and the random selection of operators and plans, postbound/opt/enumeration.py 209-433 and opt/randomized.py
    323-651, of the native cost model, opt/native.py 57-405, and of the parameters of native plans, opt/native.py 491-518.
    Operators are numbers of their kind.  The operator assignments of Hint_model are used; all objects have the identity 0. *)
From Coq Require Import List Bool Arith ZArith.
From Verif Require Import PyBase FSet Enum_model Hint_model Card_model JT_model QPlan_model.
Import ListNotations.
Open Scope list_scope.
Open Scope nat_scope.

(** itertools.product *)
Fixpoint product {A} (ls : list (list A)) : list (list A) :=
  match ls with [] => [[]] | l :: r => flat_map (fun x => map (cons x) (product r)) l end.
(** The allowed operators, enumeration.py 262-273 and randomized.py 381-392, in the order [iter] of the frozenset. *)
Definition allowed_ops (all : list nat) (supports : nat -> bool) (iter : list nat -> list nat) (given : option (list nat)) : list nat :=
  iter (dedup (filter supports (match given with Some (o :: r) => o :: r | _ => all end))).
(** One scan operator for each table, one join operator for each join: enumeration.py 307-312 and 315-320. *)
Definition set_scans (p : poa) (l : list (nat * nat)) : poa := fold_left (fun p e => poa_set_scan p (mksa 0 (snd e) (fst e) None)) l p.
Fixpoint set_joins (p : poa) (l : list (list nat * nat)) : res poa :=
  match l with [] => Ok p | e :: r => rbind (mk_join 0 (snd e) (fst e) None) (fun a => set_joins (poa_set_join p a) r) end.

Section Exhaustive.
  Context {A : Type} (scan_ops join_ops : list nat) (qtabs : list nat).
  Notation tree := (jt nat A).
  Definition join_sets (t : tree) : list (list nat) := map (fun j => jt_tables j) (jt_iterjoins t).
  (** ExhaustiveOperatorEnumerator.all_operator_assignments_for 275-322: the assignments that are yielded.  The method is a generator, so
      [return ...] in 296-299 ends it without yielding anything, after evaluating the call; _all_scan_assignments_for lacks an
      argument there. *)
  Definition all_assignments (scans joins : bool) (t : tree) : res (list poa) :=
    if negb scans then Ok []
    else if negb joins then Raise TypeError
    else
      rmap (@concat poa)
        (rmapM (fun sel =>
           let p := set_scans poa_empty (combine qtabs sel) in
           rmapM (fun jsel => set_joins (poa_clone p) (combine (join_sets t) jsel)) (product (map (fun _ => join_ops) (join_sets t))))
         (product (map (fun _ => scan_ops) qtabs))).
  (** The constructor 253-254. *)
  Definition op_enumerator (scans joins : bool) (t : tree) : res (list poa) :=
    if negb joins && negb scans then Raise ValueError else all_assignments scans joins t.
  (** ExhaustivePlanEnumerator.all_plans_for 411-433: to_query_plan takes keyword arguments only besides the join tree. *)
  Fixpoint all_plans (scans joins : bool) (orders : list tree) : res (list plan) :=
    match orders with
    | [] => Ok []
    | t :: r => rbind (op_enumerator scans joins t) (fun l => match l with [] => all_plans scans joins r | _ :: _ => Raise TypeError end)
    end.
End Exhaustive.

Section Random.
  Context {A : Type} (scan_ops join_ops : list nat) (iter : list nat -> list nat).
  Notation tree := (jt nat A).
  (** RandomOperatorGenerator: one drawn assignment, 419-434; [cs] are the random numbers, [iter] the order of the tables. *)
  Fixpoint draw_joins (cs : nat -> nat) (p : poa) (l : list (list nat)) : res poa :=
    match l with
    | [] => Ok p
    | s :: r => rbind (choose (cs 0) join_ops) (fun o => rbind (mk_join 0 o s None) (fun a => draw_joins (fun n => cs (S n)) (poa_set_join p a) r))
    end.
  Fixpoint draw_scans (cs : nat -> nat) (p : poa) (l : list nat) : res poa :=
    match l with
    | [] => Ok p
    | t :: r => rbind (choose (cs 0) scan_ops) (fun o => draw_scans (fun n => cs (S n)) (poa_set_scan p (mksa 0 o t None)) r)
    end.
  Definition draw (scans joins : bool) (cs cs' : nat -> nat) (t : tree) : res poa :=
    rbind (if joins then draw_joins cs poa_empty (join_sets t) else Ok poa_empty) (fun p =>
    if scans then draw_scans cs' p (iter (jt_tables t)) else Ok p).
  (** 436-443: the next assignment whose hash is new, if there is one among the next [fuel] draws. *)
  Fixpoint next_assignment (hash : poa -> Z) (seen : list Z) (draws : nat -> poa) (k fuel : nat) : option poa :=
    match fuel with 0 => None | S fuel => if mem (hash (draws k)) seen then next_assignment hash seen draws (S k) fuel else Some (draws k) end.
  (** RandomOperatorOptimizer.select_physical_operators 477-480. *)
  Definition select_random (scans joins : bool) (cs cs' : nat -> nat) (t : option tree) : res poa :=
    match t with Some t => draw scans joins cs cs' t | None => if joins || scans then Raise AttributeError else Ok poa_empty end.
  (** RandomPlanGenerator.random_plans_for 560-571 and RandomPlanOptimizer.optimize_query 625-626. *)
  Definition random_plan (scans joins : bool) (cs cs' : nat -> nat) (order : res tree) : res plan :=
    rbind order (fun t => rbind (draw scans joins cs cs' t) (fun _ => Raise TypeError)).
End Random.

(** ** NativeCostModel *)
Inductive cost := KVal (c : Z) | KInf | KNan.
(** Answers of the database: a result, or a DatabaseServerError or DatabaseUserError. *)
Inductive answer (R : Type) := Answer (r : R) | DbError.
Arguments Answer {R}. Arguments DbError {R}.
Section Native.
  (** [qtabs]: the tables of a query; [fragment], [star], [count_star]: transform.extract_query_fragment, as_star_query and
      as_count_star_query; [ordered]: the query with an ORDER BY for the sort keys of a plan (384-403), if they have columns of its
      tables (StopIteration is [OtherError]); [hinted]: generate_hints; [ask_cost] and [ask_plan]: the optimizer; [actual]:
      with_actual_card; [pcost]: estimated_cost of a plan node; [partner]: some table that joins with these tables and is free
      (212-224, or 316-330 with the lookup key), if there is one. *)
  Context {Q : Type} (qtabs : Q -> list nat) (fragment : Q -> list nat -> Q) (star count_star : Q -> Q) (ordered : Q -> plan -> res Q)
          (hinted : Q -> plan -> Q) (ask_cost : Q -> answer cost) (ask_plan : Q -> answer plan) (actual : plan -> plan) (pcost : plan -> cost)
          (partner : Q -> plan -> option nat) (topped : nat -> plan -> plan) (key_ok : plan -> option bool) (postgres raise_on_error : bool).
  (** outermost_scan of QueryPlan (_qep.py 1382-1390). *)
  Context (outermost_scan : plan -> option plan).
  (** Each plan of the answer is searched for a node with [node.node_type == IntermediateOperator.Materialize and node.tables ==
      plan.tables()], 250-253 and 356-359: node_type is a text and [node.tables] a method, neither is ever equal. *)
  Definition find_intermediate (k : nat) (p answer : plan) : option plan := find (fun n => false) (iternodes answer).
  (** _cost_index_op 126-169. *)
  Definition cost_index (q : Q) (p : plan) : res cost :=
    match ask_cost (hinted q (actual p)) with
    | Answer c => Ok c
    | DbError =>
        match ask_plan (hinted (count_star q) (actual p)) with
        | DbError => if raise_on_error then Raise OtherError else Ok KInf
        | Answer cp =>
            match outermost_scan cp with
            | Some n => if deqb (oper (data n)) (oper (data p)) then Ok (pcost n) else if raise_on_error then Raise OtherError else Ok KInf
            | None => if raise_on_error then Raise OtherError else Ok KInf
            end
        end
    end.
  (** _cost_materialize_op 171-260 ([k] = 2) and _cost_memoize_op 262-366 ([k] = 1), which also needs a lookup key ([key_ok]: [None] no key,
      [Some false] not a column). *)
  Definition cost_between (k : nat) (q : Q) (p : plan) : res cost :=
    if negb postgres then Ok KInf
    else if (k =? 1) && match key_ok p with None => true | _ => false end then Raise ValueError
    else if (k =? 1) && match key_ok p with Some false => true | _ => false end then Ok KInf
    else match partner q p with
         | None => Ok KInf
         | Some t =>
             match ask_plan (hinted (star (fragment q (tables p ++ [t]))) (topped t p)) with
             | DbError => Ok KInf
             | Answer a => match find_intermediate k p a with Some n => Ok (pcost n) | None => Ok KInf end
             end
         end.
  (** estimate_cost 77-113 and _cost_sort_op 368-405.  input_node of a plan with another number of children is [None], which has no
      tables. *)
  Fixpoint estimate (q : Q) (p : plan) {struct p} : res cost :=
    let matching := seteqb (qtabs q) (tables p) in
    let inter := match oper (data p) with Some (PInter 1) | Some (PInter 2) => true | _ => false end in
    if inter && matching then Raise ValueError
    else
      let q' := if negb inter && negb matching then fragment q (tables p) else q in
      match oper (data p) with
      | Some (PScan 1) | Some (PScan 2) => cost_index q' p
      | Some (PInter 2) => cost_between 2 q' p
      | Some (PInter 1) => cost_between 1 q' p
      | Some (PInter 0) =>
          rbind (ordered (star (fragment q' (tables p))) p) (fun oq =>
          match p with Node _ [c] _ => estimate oq c | _ => Raise AttributeError end)
      | _ =>
          match ask_cost (hinted q' (actual p)) with
          | Answer c => Ok c
          | DbError => if raise_on_error then Raise OtherError else Ok KInf
          end
      end.
End Native.
(** NativePlanParameterization.generate_plan_parameters 507-518: the parameters are computed, but not returned. *)
Definition native_parameters {P} (params : res P) : res (option P) := rmap (fun _ => None) params.
