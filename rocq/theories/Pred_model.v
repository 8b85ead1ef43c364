(** Model of PostBOUND's predicate hierarchy ([postbound/qal/_qal.py]) and of [QueryPredicates].

    Tables and column names are numbers (only their equality and order matter here).  The scalar expressions inside
    base predicates are a type parameter [E] together with the function [ecols] that returns the columns referenced by
    an expression; this stands for [_collect_column_expression_columns], _qal.py 2002-2024.  Subqueries inside
    predicates are not covered: [e.tables()] is taken to be the tables of [ecols e].

    Python sets are lists here; where the code iterates over a set the theorems quantify over the iteration order. *)
From Coq Require Import List Bool Arith Lia.
From Verif Require Import PyBase.
Import ListNotations.

(** TableReference, reduced to its identity (_core.py 624-920). *)
Definition tbl := nat.

(** ColumnReference: an optional table and a name (_core.py 923-1160). *)
Record col := mkcol { c_tab : option tbl; c_name : nat }.

#[global] Instance EqD_col : EqD col.
Proof. intros [t n] [u m]. destruct (eqd t u), (eqd n m); [left|right|right|right]; congruence. Defined.

(** The binary members of LogicalOperator, _qal.py 34-58. *)
Inductive binop :=
| OpEq | OpNe | OpLt | OpLe | OpGt | OpGe | OpLike | OpNotLike | OpILike | OpNotILike | OpIs | OpIsNot
| OpDistinct | OpNotDistinct | OpContains | OpContainedBy | OpOverlaps.
(** UnarySqlOperators, _qal.py 61-63, and the bare expression ([operation=None] in UnaryPredicate). *)
Inductive unop := UExists | UIs | UIsNot | UBare.

#[global] Instance EqD_binop : EqD binop.
Proof. intros a b. unfold EqD in *. decide equality. Defined.
#[global] Instance EqD_unop : EqD unop.
Proof. intros a b. unfold EqD in *. decide equality. Defined.

(** AbstractPredicate and its subclasses: BinaryPredicate (_qal.py 2506-2629), BetweenPredicate (2632-2792), InPredicate
    (2795-2968), UnaryPredicate (2971-3095), CompoundPredicate with NOT, AND, OR (3098-3380). *)
Inductive pred (E : Type) : Type :=
| PBin (op : binop) (a b : E)
| PBetween (a lo hi : E)
| PIn (a : E) (vs : list E)
| PUn (op : unop) (a : E)
| PNot (p : pred E)
| PAnd (ps : list (pred E))
| POr (ps : list (pred E)).
Arguments PBin {E}. Arguments PBetween {E}. Arguments PIn {E}. Arguments PUn {E}.
Arguments PNot {E}. Arguments PAnd {E}. Arguments POr {E}.

(** Induction principle that reaches through the child lists. *)
Lemma pred_ind' {E} (P : pred E -> Prop)
  (Hbin : forall op a b, P (PBin op a b)) (Hbt : forall a lo hi, P (PBetween a lo hi))
  (Hin : forall a vs, P (PIn a vs)) (Hun : forall op a, P (PUn op a))
  (Hnot : forall p, P p -> P (PNot p))
  (Hand : forall ps, Forall P ps -> P (PAnd ps)) (Hor : forall ps, Forall P ps -> P (POr ps)) :
  forall p, P p.
Proof.
  fix IH 1. intros [op a b|a lo hi|a vs|op a|p|ps|ps].
  - apply Hbin. - apply Hbt. - apply Hin. - apply Hun. - apply Hnot, IH.
  - apply Hand. induction ps; constructor; [apply IH|assumption].
  - apply Hor. induction ps; constructor; [apply IH|assumption].
Qed.

Section Preds.
  Context {E : Type} (ecols : E -> list col).
  Notation pred := (pred E).

  (** Is the predicate a BasePredicate (the type test of _qal.py 4212)? *)
  Definition is_base (p : pred) : bool :=
    match p with PBin _ _ _ | PBetween _ _ _ | PIn _ _ | PUn _ _ => true | _ => false end.

  (** Invariant established by the CompoundPredicate constructor, _qal.py 3246-3268: AND and OR have two or more
      children (NOT has exactly one by typing). *)
  Fixpoint wfp (p : pred) : bool :=
    match p with
    | PNot q => wfp q
    | PAnd ps | POr ps => (2 <=? length ps) && forallb wfp ps
    | _ => true
    end.

  (** Tables of a set of columns; unbound columns contribute nothing.
      _collect_column_expression_tables, _qal.py 2027-2047. *)
  Definition ctabs (cs : list col) : list tbl :=
    dedup (flat_map (fun c => match c_tab c with Some t => [t] | None => [] end) cs).

  Definition etabs (e : E) : list tbl := ctabs (ecols e).

  (** Columns of a predicate: BinaryPredicate.columns 2587, BetweenPredicate.columns 2743, InPredicate.columns 2912,
      UnaryPredicate.columns 3050, CompoundPredicate.columns 3304. *)
  Fixpoint pcols (p : pred) : list col :=
    match p with
    | PBin _ a b => ecols a ++ ecols b
    | PBetween a lo hi => ecols a ++ ecols lo ++ ecols hi
    | PIn a vs => ecols a ++ flat_map ecols vs
    | PUn _ a => ecols a
    | PNot q => pcols q
    | PAnd ps | POr ps => flat_map pcols ps
    end.

  (** AbstractPredicate.tables, _qal.py 2182-2196 (no subqueries). *)
  Definition ptabs (p : pred) : list tbl := ctabs (pcols p).

  (** [len(s) > 1] for a set given by a duplicate-free list. *)
  Definition many (s : list tbl) : bool := 1 <? length s.
  Definition nonempty (s : list tbl) : bool := match s with [] => false | _ => true end.

  (** is_join: BinaryPredicate 2572-2585, BetweenPredicate 2733-2741, InPredicate 2902-2910, UnaryPredicate 3047-3048,
      CompoundPredicate 3301-3302.  [len(first ^ second) > 0] is "the two sets differ". *)
  Fixpoint is_join (p : pred) : bool :=
    match p with
    | PBin _ a b =>
        if many (etabs a) then true
        else if many (etabs b) then true
        else nonempty (etabs a) && nonempty (etabs b) && negb (seteqb (etabs a) (etabs b))
    | PBetween a lo hi =>
        many (etabs a) || many (dedup (etabs a ++ etabs lo)) || many (dedup (etabs a ++ etabs hi))
    | PIn a vs => many (etabs a) || existsb (fun v => many (dedup (etabs a ++ etabs v))) vs
    | PUn _ a => many (etabs a)
    | PNot q => is_join q
    | PAnd ps | POr ps => existsb is_join ps
    end.

  (** AbstractPredicate.is_filter, _qal.py 2170-2180. *)
  Definition is_filter (p : pred) : bool := negb (is_join p).

  (** Column order of ColumnReference.__lt__ (_core.py 1123-1135), lexicographic on table and name. *)
  Definition col_key (c : col) : nat * nat := (match c_tab c with Some t => S t | None => 0 end, c_name c).
  Definition col_ltb (c d : col) : bool :=
    let '(t, n) := col_key c in let '(u, m) := col_key d in (t <? u) || ((t =? u) && (n <? m)).

  (** _normalize_join_pair, _qal.py 1899-1918. *)
  Definition norm_pair (x : col * col) : col * col := if col_ltb (snd x) (fst x) then (snd x, fst x) else x.

  (** _generate_join_pairs, _qal.py 2050-2075. *)
  Definition join_pairs (xs ys : list col) : list (col * col) :=
    flat_map (fun x => flat_map (fun y => if deqb (c_tab x) (c_tab y) then [] else [norm_pair (x, y)]) ys) xs.

  (** join_partners: BinaryPredicate 2598-2616, BetweenPredicate 2760-2779, InPredicate 2926-2945 (these three assert
      that the predicate is a join), UnaryPredicate 3059-3065 (no such assertion), CompoundPredicate 3326-3333. *)
  Fixpoint join_partners (p : pred) : res (list (col * col)) :=
    match p with
    | PBin _ a b =>
        if is_join p
        then Ok (join_pairs (ecols a) (ecols a) ++ join_pairs (ecols b) (ecols b) ++ join_pairs (ecols a) (ecols b))
        else Raise NoJoinPredicateError
    | PBetween a lo hi =>
        if is_join p
        then Ok (join_pairs (ecols a) (ecols a) ++ join_pairs (ecols a) (ecols lo) ++ join_pairs (ecols a) (ecols hi))
        else Raise NoJoinPredicateError
    | PIn a vs =>
        if is_join p
        then Ok (join_pairs (ecols a) (ecols a) ++ flat_map (fun v => join_pairs (ecols a) (ecols v)) vs)
        else Raise NoJoinPredicateError
    | PUn _ a => Ok (join_pairs (ecols a) (ecols a))
    | PNot q => join_partners q
    | PAnd ps | POr ps =>
        (fix go l := match l with
                     | [] => Ok []
                     | q :: r => rbind (join_partners q) (fun x => rbind (go r) (fun y => Ok (x ++ y)))
                     end) ps
    end.

  (** ColumnReference.belongs_to, _core.py 1063-1079. *)
  Definition belongs_to (c : col) (t : tbl) : bool := deqb (c_tab c) (Some t).

  (** AbstractPredicate.join_partners_of, _qal.py 2306-2329. *)
  Definition partners_of (pairs : list (col * col)) (t : tbl) : list col :=
    flat_map (fun '(x, y) => if belongs_to x t then [y] else if belongs_to y t then [x] else []) pairs.
  Definition join_partners_of (p : pred) (t : tbl) : res (list col) :=
    rmap (fun pairs => partners_of pairs t) (join_partners p).

  (** AbstractPredicate.contains_table, _qal.py 2236-2249. *)
  Definition contains_table (p : pred) (t : tbl) : bool := mem t (ptabs p).

  (** CompoundPredicate.create_and, _qal.py 3170-3206. *)
  Definition create_and (ps : list pred) : res pred :=
    match ps with [] => Raise ValueError | [p] => Ok p | _ => Ok (PAnd ps) end.

  (** _collect_filter_predicates, _qal.py 4178-4239. *)
  Fixpoint collect_filters (p : pred) : list pred :=
    match p with
    | POr ps =>
        match filter is_filter ps with
        | [] => []
        | [q] => [q]
        | qs => [POr qs]
        end
    | PNot q => if is_filter q then [p] else []
    | PAnd ps => flat_map collect_filters ps
    | _ => if is_filter p then [p] else []
    end.

  (** _collect_join_predicates, _qal.py 4242-4301. *)
  Fixpoint collect_joins (p : pred) : list pred :=
    match p with
    | POr ps =>
        match filter is_join ps with
        | [] => []
        | [q] => [q]
        | qs => [POr qs]
        end
    | PNot q => if is_join q then [p] else []
    | PAnd ps => flat_map collect_joins ps
    | _ => if is_join p then [p] else []
    end.

  (** A frozenset of (optional) tables used as a dictionary key: canonical, i.e. duplicate-free and sorted. *)
  Fixpoint sins (x : nat) (l : list nat) : list nat :=
    match l with
    | [] => [x]
    | y :: r => if x <? y then x :: l else if x =? y then l else y :: sins x r
    end.
  Definition fset (l : list nat) : list nat := fold_right sins [] l.
  Definition okey (t : option tbl) : nat := match t with None => 0 | Some t => S t end.

  (** QueryPredicates.joins_for, _qal.py 4516-4554; [js] enumerates [self.joins()].  The dictionary groups the applicable
      joins by the set of partner tables. *)
  Fixpoint group_joins (t : tbl) (js : list pred) (acc : dict (list nat) (list pred)) : res (dict (list nat) (list pred)) :=
    match js with
    | [] => Ok acc
    | j :: r =>
        if contains_table j t
        then rbind (join_partners_of j t) (fun cs =>
               let key := fset (map (fun c => okey (c_tab c)) cs) in
               let old := match dget acc key with Some l => l | None => [] end in
               group_joins t r (dset acc key (old ++ [j])))
        else group_joins t r acc
    end.
  Definition joins_for (js : list pred) (t : tbl) : res (list pred) :=
    rbind (group_joins t js []) (fun groups => rmapM create_and (dvalues groups)).

  (** QueryPredicates._init_join_predicate_map, _qal.py 4778-4805; [ts] enumerates [root.tables()]. *)
  Fixpoint map_add (t : tbl) (jps : list pred) (m : dict (list nat) pred) : res (dict (list nat) pred) :=
    match jps with
    | [] => Ok m
    | j :: r =>
        rbind (join_partners_of j t) (fun cs =>
          let key := fset (okey (Some t) :: map (fun c => okey (c_tab c)) cs) in
          map_add t r (if dmem m key then m else dset m key j))
    end.
  Fixpoint init_map (js : list pred) (ts : list tbl) (m : dict (list nat) pred) : res (dict (list nat) pred) :=
    match ts with
    | [] => Ok m
    | t :: r => rbind (joins_for js t) (fun jps => rbind (map_add t jps m) (fun m' => init_map js r m'))
    end.

  (** QueryPredicates(root): the constructor succeeds iff the map can be built, _qal.py 4329-4332. *)
  Definition query_predicates (js : list pred) (ts : list tbl) : res (dict (list nat) pred) := init_map js ts [].

  (** QueryPredicates._map_based_joins_between, _qal.py 4902-4937 (the default of joins_between 4556-4619); the result
      set is returned as a list, [None] if empty, otherwise [create_and] of it is what the caller receives. *)
  Definition map_joins_between (m : dict (list nat) pred) (xs ys : list tbl) : list pred :=
    flat_map (fun x => flat_map (fun y =>
      match dget m (fset [okey (Some x); okey (Some y)]) with Some j => [j] | None => [] end) ys) xs.

  (** QueryPredicates.filters_for, _qal.py 4484-4513, as the list given to [create_and]. *)
  Definition filters_for (fs : list pred) (t : tbl) : list pred := filter (fun f => contains_table f t) fs.

  (** Edges of QueryPredicates.join_graph, _qal.py 4447-4451. *)
  Fixpoint jg_edges (js : list pred) : res (list (option tbl * option tbl)) :=
    match js with
    | [] => Ok []
    | j :: r => rbind (join_partners j) (fun ps => rbind (jg_edges r) (fun es =>
                  Ok (map (fun '(x, y) => (c_tab x, c_tab y)) ps ++ es)))
    end.
End Preds.

(** Predicate equality is structural when expression equality is (BinaryPredicate.__eq__ 2620, BetweenPredicate.__eq__
    2783, UnaryPredicate.__eq__ 3075, CompoundPredicate.__eq__ 3358); the IN exception is treated in PredEq_model. *)
Section EqPred.
  Context {E : Type} {EE : EqD E}.
  #[global] Instance EqD_pred : EqD (pred E).
  Proof.
    unfold EqD. fix IH 1.
    intros p q. destruct p as [o a b|a l h|a vs|o a|p|ps|ps]; destruct q as [o' a' b'|a' l' h'|a' vs'|o' a'|p'|ps'|ps'];
      try (right; discriminate).
    - destruct (eqd o o'), (eqd a a'), (eqd b b'); [left; congruence|right; congruence..].
    - destruct (eqd a a'), (eqd l l'), (eqd h h'); [left; congruence|right; congruence..].
    - destruct (eqd a a'), (eqd vs vs'); [left; congruence|right; congruence..].
    - destruct (eqd o o'), (eqd a a'); [left; congruence|right; congruence..].
    - destruct (IH p p'); [left; congruence|right; congruence].
    - assert ({ps = ps'} + {ps <> ps'}) as [->|]; [|left; reflexivity|right; congruence].
      revert ps'. induction ps as [|x r IHr]; intros [|y s]; [left; reflexivity|right; discriminate..|].
      destruct (IH x y); [|right; congruence]. destruct (IHr s); [left; congruence|right; congruence].
    - assert ({ps = ps'} + {ps <> ps'}) as [->|]; [|left; reflexivity|right; congruence].
      revert ps'. induction ps as [|x r IHr]; intros [|y s]; [left; reflexivity|right; discriminate..|].
      destruct (IH x y); [|right; congruence]. destruct (IHr s); [left; congruence|right; congruence].
  Defined.
End EqPred.
