(** Model of the optimization pre-checks, postbound/validation.py 53-734.

    Queries and database systems are type parameters.  A check that is neither the empty check nor a compound check is
    given by its class, its name, the settings its [__eq__] looks at (EquiJoinPreCheck), and its two check functions.  Sets of
    checks are lists without duplicates with respect to [__eq__]; their iteration order is the insertion order, the
    theorems do not depend on it.  Checks that raise are not covered here, except for InnerJoinPreCheck. *)
From Coq Require Import List Bool Arith.
From Verif Require Import PyBase Pred_model.
Import ListNotations.

(** PreCheckResult, validation.py 53-175: the reasons are a single string or a list of strings. *)
Inductive reason := RStr (s : nat) | RList (l : list nat).
(** The empty string is number 0. *)
Definition no_reason : nat := 0.
Record result := mkres { passed : bool; reasons : reason }.
Definition all_passed : result := mkres true (RStr no_reason).
(** util.enlist on a reason. *)
Definition enlist (r : reason) : list nat := match r with RStr s => [s] | RList l => l end.
(** PreCheckResult.merge 84-110 *)
Definition merge_results (rs : list result) : result :=
  let failures := flat_map (fun r => if passed r then [] else enlist (reasons r)) rs in
  match failures with [] => all_passed | _ :: _ => mkres false (RList failures) end.

Section Checks.
  Context {Q D : Type}.

  (** OptimizationPreCheck and its atomic subclasses. *)
  Record atom := mkatom { a_class : nat; a_name : nat; a_settings : nat; a_query : Q -> result; a_db : D -> result }.
  (** [__eq__]: the class and the name 293-294; EquiJoinPreCheck 558-563 compares its settings instead of the name (which is the
      same for all its objects).  Other classes have no settings. *)
  Definition atom_eqb (a b : atom) : bool := (a_class a =? a_class b) && (a_name a =? a_name b) && (a_settings a =? a_settings b).

  (** EmptyPreCheck 303-313, CompoundCheck 316-366.  The constructor of CompoundCheck splices the parts of other compound
      checks, so a compound check contains atomic checks only. *)
  Inductive check := CEmpty | CAtom (a : atom) | CCompound (cs : list atom).
  (** CompoundCheck.__init__ 327-338 *)
  Definition compound (cs : list check) : check :=
    CCompound (flat_map (fun c => match c with CEmpty => [] | CAtom a => [a] | CCompound cs => cs end) cs).

  (** check_supported_query 236-251, 309-310, 340-348.  util.flatten keeps strings and splices lists. *)
  Definition check_query (c : check) (q : Q) : result :=
    match c with
    | CEmpty => all_passed
    | CAtom a => a_query a q
    | CCompound cs =>
        let rs := map (fun a => a_query a q) cs in
        if forallb passed rs then mkres true (RList []) else mkres false (RList (flat_map (fun r => enlist (reasons r)) rs))
    end.
  (** check_supported_database_system 253-270: CompoundCheck inherits the default, which accepts everything. *)
  Definition check_db (c : check) (d : D) : result :=
    match c with CEmpty => all_passed | CAtom a => a_db a d | CCompound _ => all_passed end.

  (** Adding to a set: an element that is equal to a present one is not added. *)
  Definition set_add {A} (eqb : A -> A -> bool) (s : list A) (x : A) : list A := if existsb (eqb x) s then s else s ++ [x].
  Definition to_set {A} (eqb : A -> A -> bool) (l : list A) : list A := fold_left (set_add eqb) l [].
  Fixpoint list_eqb (l m : list atom) : bool :=
    match l, m with [], [] => true | x :: l, y :: m => atom_eqb x y && list_eqb l m | _, _ => false end.
  Definition check_eqb (c d : check) : bool :=
    match c, d with CEmpty, CEmpty => true | CAtom a, CAtom b => atom_eqb a b | CCompound l, CCompound m => list_eqb l m | _, _ => false end.

  (** merge_checks 369-416 for an iterable of checks and further checks. *)
  Definition merge_checks (cs : list check) : check :=
    match cs with
    | [] => CEmpty
    | _ =>
        let all := to_set check_eqb cs in
        let atomic := flat_map (fun c => match c with CAtom a => [a] | _ => [] end) all in
        let children := flat_map (fun c => match c with CCompound l => l | _ => [] end) all in
        match to_set atom_eqb (atomic ++ children) with
        | [] => CEmpty
        | [a] => CAtom a
        | merged => CCompound merged
        end
    end.

  (** SupportedHintCheck 661-690: the name is always the same; [features] are all features, [supports] the hinting
      service of the database.  A passed check has the empty list of reasons. *)
  Definition hint_check (cls name : nat) (supports : D -> nat -> bool) (features : list nat) : atom :=
    mkatom cls name 0 (fun _ => all_passed)
      (fun d => let failures := filter (fun f => negb (supports d f)) features in
        mkres (match failures with [] => true | _ => false end) (RList failures)).
End Checks.
Arguments atom : clear implicits.
Arguments check : clear implicits.

(** ** EquiJoinPreCheck *)
Section Equi.
  Context {E : Type} (ecols : E -> list col) (is_column : E -> bool) (conj nesting : bool).
  (** _perform_predicate_check 492-556 *)
  Fixpoint equi_pred (p : pred E) : bool :=
    match p with
    | PBin op a b => (length (dedup (ecols a ++ ecols b)) =? 2) && deqb op OpEq && (nesting || (is_column a && is_column b))
    | PAnd ps => conj && forallb equi_pred ps
    | _ => false
    end.
  (** check_supported_query 477-483 over QueryPredicates.joins() *)
  Definition equi_check (joins : list (pred E)) : bool := forallb equi_pred joins.
End Equi.

(** ** InnerJoinPreCheck *)
(** Table sources and FROM clauses: qal/_qal.py 6120-7110.  The join type of a JoinTableSource is a member of the enumeration
    JoinType (6672-6688), which no string is equal to. *)
Inductive join_type := InnerJoin | OuterJoin | LeftJoin | RightJoin | CrossJoin | NaturalInner | NaturalOuter | NaturalLeft | NaturalRight.
Inductive source :=
| SDirect | SValues | SFunction
| SSubquery (q : from_clause)
| SJoin (l r : source) (t : join_type)
with from_clause := FNone | FImplicit | FExplicit (s : source) | FFrom (ss : list source).
(** [join_type != "INNER"], 603 *)
Definition differs_from_INNER (t : join_type) : bool := true.
(** The failure reason NON_INNER_JOIN. *)
Definition inner_failure : nat := 1.
(** _check_table_source 593-611 and check_supported_query 575-588 *)
Fixpoint inner_source (s : source) : res result :=
  match s with
  | SDirect | SValues => Ok all_passed
  | SFunction => Raise ValueError
  | SSubquery q => inner_query q
  | SJoin l r t =>
      rbind (inner_source l) (fun a => rbind (inner_source r) (fun b =>
        Ok (merge_results ((if differs_from_INNER t then [mkres false (RStr inner_failure)] else []) ++ [a; b]))))
  end
with inner_query (f : from_clause) : res result :=
  match f with
  | FNone | FImplicit => Ok all_passed
  | FExplicit s => inner_source s
  | FFrom ss => rmap merge_results ((fix go l := match l with [] => Ok [] | s :: l => rbind (inner_source s) (fun x => rmap (cons x) (go l)) end) ss)
  end.
