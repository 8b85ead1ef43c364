(* The PostgreSQL-style path pruning of the dynamic programming enumerator and
   the sort keys it compares.

   postbound/_qep.py 27-182            SortKey
   postbound/opt/dynprog.py 725-789    standard_add_path
   postbound/opt/dynprog.py 1206-1221  _set_cheapest
   postbound/opt/dynprog.py 1754-1819  _is_sorted_by, _sorting_subsumes,
                                       _same_sorting

   Simplifications: a path is its identity, its estimated cost (an exact
   rational instead of a double) and its sort keys.  A column (or an
   expression that is not a column) is represented by its equality class. *)
From Coq Require Import List QArith Bool Arith.
From Verif Require Import PyBase.
Import ListNotations.

(* The Python objects that can be found in (or looked up in) the member set of
   a sort key: a ColumnReference (_core.py 1021-1158), a ColumnExpression that
   wraps one (_qal.py 707-770) and any other SqlExpression.  Both __eq__
   methods check the type of the other object first (_core.py 1137-1142,
   _qal.py 763-764), hence objects of different classes are never equal. *)
Inductive member := MRef (c : nat) | MCol (c : nat) | MExpr (n : nat).

#[global] Instance EqD_member : EqD member.
Proof. intros a b. unfold EqD in *. repeat decide equality. Defined.

(* SortKey: _members (a frozenset) and _ascending, _qep.py 104-110. *)
Record skey := mkKey { k_members : list member; k_asc : bool }.

(* SortKey.__init__, _qep.py 104-110 *)
Definition sk_init (cols : list member) (asc : bool) : res skey :=
  let ms := dedup cols in
  match ms with
  | [] => Raise ValueError
  | _ => Ok (mkKey ms asc)
  end.

(* the wrapping of column references, _qep.py 71-72 and 98-101 *)
Definition wrap (m : member) : member :=
  match m with MRef c => MCol c | _ => m end.

(* SortKey.of, _qep.py 52-73 *)
Definition sk_of (m : member) (asc : bool) : res skey := sk_init [wrap m] asc.

(* SortKey.for_equivalence_class, _qep.py 75-102 *)
Definition sk_for_class (ms : list member) (asc : bool) : res skey :=
  sk_init (map wrap ms) asc.

(* SortKey.column, _qep.py 114-119 *)
Definition sk_column (k : skey) : res member :=
  match k_members k with
  | [m] => Ok m
  | _ => Raise StateError
  end.

(* SortKey.is_compatible_with(ColumnReference), _qep.py 136-137:
   `other in self._members` *)
Definition compatible_col (k : skey) (c : nat) : bool := mem (MRef c) (k_members k).

(* SortKey.is_compatible_with(SortKey), _qep.py 139-141 *)
Definition compatible (k o : skey) : bool :=
  if negb (Bool.eqb (k_asc k) (k_asc o)) then false
  else match filter (fun m => mem m (k_members o)) (k_members k) with
       | [] => false
       | _ => true
       end.

(* SortKey.merge_with, _qep.py 143-147 *)
Definition sk_merge (k o : skey) : res skey :=
  if negb (Bool.eqb (k_asc k) (k_asc o)) then Raise ValueError
  else sk_init (k_members k ++ k_members o) (k_asc k).

(* SortKey.__contains__, _qep.py 155-160; the argument is either a sort key,
   or another object *)
Definition sk_contains (k : skey) (item : skey + member) : bool :=
  match item with
  | inl o => compatible k o
  | inr (MRef c) => compatible_col k c
  | inr _ => false
  end.

(* SortKey.__eq__, _qep.py 162-167 *)
Definition sk_eq (k o : skey) : bool :=
  seteqb (k_members k) (k_members o) && Bool.eqb (k_asc k) (k_asc o).

(* A path. QueryPlan.estimated_cost, QueryPlan.sort_keys *)
Record path := mkPath { p_id : nat; p_cost : Q; p_sort : list skey }.

(* the loop of _sorting_subsumes, dynprog.py 1793-1803 *)
Fixpoint subsumes_loop (sorting other : list skey) : bool :=
  match sorting, other with
  | [], _ => true
  | _ :: _, [] => true
  | k :: ks, o :: os => if negb (compatible k o) then false else subsumes_loop ks os
  end.

(* PostgresDynProg._sorting_subsumes, dynprog.py 1766-1803 *)
Definition sorting_subsumes (sorting other : list skey) : bool :=
  match sorting, other with
  | _ :: _, [] => true
  | [], _ :: _ => false
  | _, _ =>
      if List.length sorting <? List.length other then false
      else subsumes_loop sorting other
  end.

(* the loop of _same_sorting, dynprog.py 1815-1819 *)
Fixpoint same_loop (sorting other : list skey) : bool :=
  match sorting, other with
  | k :: ks, o :: os => if negb (compatible k o) then false else same_loop ks os
  | _, _ => true
  end.

(* PostgresDynProg._same_sorting, dynprog.py 1805-1819.  Paths always have a
   (possibly empty) sequence of sort keys, hence the None cases do not arise. *)
Definition same_sorting (sorting other : list skey) : bool :=
  if negb (List.length sorting =? List.length other) then false
  else same_loop sorting other.

(* the comparison `new_dominates`, dynprog.py 762-767 *)
Definition new_dominates (new old : path) : bool :=
  if same_sorting (p_sort new) (p_sort old)
  then negb (Qle_bool (p_cost old) (p_cost new))
  else Qle_bool (p_cost new) ((101 # 100) * p_cost old).

(* the loop of standard_add_path, dynprog.py 752-780: the paths put into
   result_paths and the final value of keep_new *)
Fixpoint add_loop (new : path) (current : list path) : list path * bool :=
  match current with
  | [] => ([], true)
  | (old :: rest) as cur =>
      if negb (sorting_subsumes (p_sort new) (p_sort old)) then
        let '(r, k) := add_loop new rest in (old :: r, k)
      else if new_dominates new old then add_loop new rest
      else (cur, false)
  end.

(* standard_add_path on one of the two path lists, dynprog.py 744-783 *)
Definition add_list (current : list path) (new : path) : list path :=
  match current with
  | [] => [new]
  | _ => let '(r, keep) := add_loop new current in
         if keep then r ++ [new] else r
  end.

(* RelOptInfo, dynprog.py 441-500: the parts that the pruning works on *)
Record rel := mkRel {
  r_paths : list path;
  r_partial : list path;
  r_cheapest : option path;
  r_cheapest_partial : option path
}.

Definition empty_rel : rel := mkRel [] [] None None.

(* standard_add_path, dynprog.py 725-788 *)
Definition add_path (r : rel) (p : path) (is_partial : bool) : rel :=
  if is_partial
  then mkRel (r_paths r) (add_list (r_partial r) p) (r_cheapest r) (r_cheapest_partial r)
  else mkRel (add_list (r_paths r) p) (r_partial r) (r_cheapest r) (r_cheapest_partial r).

(* list.sort(key=...) is a stable sort *)
Fixpoint insert_cost (p : path) (l : list path) : list path :=
  match l with
  | [] => [p]
  | q :: rest => if Qle_bool (p_cost p) (p_cost q) then p :: q :: rest
                 else q :: insert_cost p rest
  end.

Fixpoint sort_cost (l : list path) : list path :=
  match l with
  | [] => []
  | p :: rest => insert_cost p (sort_cost rest)
  end.

(* _set_cheapest, dynprog.py 1206-1221 (LogicError is a RuntimeError,
   util/_errors.py 6) *)
Definition set_cheapest (r : rel) : res rel :=
  match sort_cost (r_paths r) with
  | [] => Raise RuntimeError
  | ((p :: _) as ps) =>
      match sort_cost (r_partial r) with
      | [] => Ok (mkRel ps (r_partial r) (Some p) (r_cheapest_partial r))
      | ((q :: _) as qs) => Ok (mkRel ps qs (Some p) (Some q))
      end
  end.

(* The life of one RelOptInfo: paths are offered and the cheapest paths are
   determined, in any order. *)
Inductive event := EAdd (p : path) (is_partial : bool) | ECheapest.

Definition step (r : rel) (e : event) : res rel :=
  match e with
  | EAdd p b => Ok (add_path r p b)
  | ECheapest => set_cheapest r
  end.

Fixpoint run (r : rel) (es : list event) : res rel :=
  match es with
  | [] => Ok r
  | e :: rest => rbind (step r e) (fun r' => run r' rest)
  end.

(* PostgresDynProg._is_sorted_by, dynprog.py 1754-1764 *)
Definition is_sorted_by (p : path) (c : nat) : bool :=
  match p_sort p with
  | [] => false
  | k :: _ => compatible_col k c
  end.
