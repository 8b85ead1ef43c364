(** Model of postbound/opt/_analysis.py and postbound/util/stats.py 13-20.

    Scores are exact rational numbers (floats in the code); cardinalities and float division in [catalan_number] are those of Card_model. *)
From Coq Require Import List Bool Arith ZArith QArith.
From Verif Require Import PyBase FSet Hint_model Card_model QPlan_model JT_model.
Import ListNotations.
Local Open Scope nat_scope.

(** ** compare_query_plans, 461-673 *)
Inductive change :=
| DStructure (l r : fs) | DDirection (l r : plan) | DOperator (l r : nat) (ctx : fs)
| DEstimate (l r : card) (ctx : fs) | DActual (l r : card) (ctx : fs) | DCost (l r : option nat) (ctx : fs).
Definition has_aux (p : plan) : res bool := rmap (fun o => match o with Some _ => true | None => false end) (find_first is_aux true p).
Definition isnan (c : card) : bool := match c with CNan => true | _ => false end.
(** [l != r and not (isnan l and isnan r)]: != negates the result of __eq__. *)
Definition card_differs (l r : card) : res bool := rmap (fun b => negb b && negb (isnan l && isnan r)) (ceq l (OCard r)).
(** 627-629: NaN differs from everything; the second test asks for the left cost again. *)
Definition cost_differs (l r : option nat) : bool :=
  negb (match l, r with Some a, Some b => a =? b | _, _ => false end) && negb (match l with None => true | Some _ => false end && match l with None => true | Some _ => false end).
Definition when {A} (b : bool) (x : A) : list A := if b then [x] else [].
(** 594-648 *)
Definition compare_nodes (l r : plan) : res (list change) :=
  let c := mkfs (tables l) in let a := data l in let b := data r in
  rbind (card_differs (est a) (est b)) (fun b1 => rbind (card_differs (m_card (meas a)) (m_card (meas b))) (fun b2 =>
    Ok (when b1 (DEstimate (est a) (est b) c) ++ when b2 (DActual (m_card (meas a)) (m_card (meas b)) c)
        ++ when (cost_differs (ecost a) (ecost b)) (DCost (ecost a) (ecost b) c)
        ++ when (negb (ntype a =? ntype b)) (DOperator (ntype a) (ntype b) c)))).
Fixpoint compare_plans (l r : plan) : res (list change) :=
  rbind (has_aux l) (fun a => rbind (if a then Ok true else has_aux r) (fun b =>
  if b then Raise ValueError
  else if negb (seteqb (tables l) (tables r)) then Ok [DStructure (mkfs (tables l)) (mkfs (tables r))]
  else rbind (compare_nodes l r) (fun cs =>
    if negb (is_join l) then Ok cs
    else match l with
         | Node _ [lo; li] _ =>
             match kids r with
             | [ro; ri] =>
                 if seteqb (tables li) (tables ro) then
                   rbind (compare_plans li ro) (fun x => rbind (compare_plans lo ri) (fun y => Ok (cs ++ DDirection l r :: x ++ y)))
                 else
                   rbind (compare_plans li ri) (fun x => rbind (compare_plans lo ri) (fun y => Ok (cs ++ x ++ y)))
             | _ => Raise AttributeError
             end
         | _ => Raise AttributeError
         end))).

(** ** join_depth, 372-458.  State: current level, depths. *)
Section Depth.
  Context {A : Type}.
  Definition depth_state : Type := nat * dict nat nat.
  Definition base_of (t : jt nat A) : res nat := match t with JScan _ x _ => Ok x | _ => Raise StateError end.
  Fixpoint traverse_depth (t : jt nat A) (st : depth_state) : res depth_state :=
    if jt_is_scan t then rbind (base_of t) (fun x => Ok (1, dset (snd st) x 1))
    else if jt_is_join t then Raise TypeError
    else match t with
         | JJoin _ o i _ =>
             rbind (jt_is_base_join t) (fun b =>
             if b then rbind (base_of i) (fun x => rbind (base_of o) (fun y => Ok (1, dset (dset (snd st) x 1) y 1)))
             else if jt_is_scan i then
               rbind (traverse_depth o st) (fun s => rbind (base_of i) (fun x => Ok (S (fst s), dset (snd s) x (S (fst s)))))
             else if jt_is_scan o then rbind (traverse_depth i st) (fun s => Raise AttributeError) (* outer_child.table *)
             else rbind (traverse_depth i st) (fun s1 => rbind (traverse_depth o st) (fun s2 =>
                    Ok (S (Nat.max (fst s1) (fst s2)), dmerge (snd s1) (snd s2)))))
         | _ => Raise StateError
         end.
  Definition join_depth (t : jt nat A) : res (dict nat nat) :=
    if jt_empty t then Ok [] else rmap snd (traverse_depth t (0, [])).
End Depth.

(** ** Similarity of join trees *)
(** jaccard, stats.py 18-20, of two sets given as lists. *)
Definition jaccard {T} {ET : EqD T} (a b : list T) : res Q :=
  match length (dedup (a ++ b)) with
  | O => Raise ZeroDivisionError
  | S n => Ok (inject_Z (Z.of_nat (length (filter (fun x => mem x b) (dedup a)))) / inject_Z (Z.of_nat (S n)))%Q
  end.
Definition qmax (a b : Q) : Q := if Qle_bool b a then a else b.
Section Similarity.
  Context {A : Type} (symmetric : bool) (gamma : Q).
  Definition inner_of (t : jt nat A) : res (jt nat A) := match t with JJoin _ _ i _ => Ok i | _ => Raise StateError end.
  Definition outer_of (t : jt nat A) : res (jt nat A) := match t with JJoin _ o _ _ => Ok o | _ => Raise StateError end.
  Definition jac (a b : jt nat A) : res Q := jaccard (jt_tables a) (jt_tables b).
  Definition leaf_score (norm : Q) (leaf t : jt nat A) : res Q :=
    rbind (inner_of t) (fun i => rbind (jac leaf i) (fun x => rbind (outer_of t) (fun o => rbind (jac leaf o) (fun y => Ok (norm * qmax x y)%Q)))).
  (** jointree_similarity_topdown, 241-318; scans are only reached through the tests for single tables. *)
  Fixpoint topdown (a b : jt nat A) : res Q :=
    match length (dedup (jt_tables a ++ jt_tables b)) with
    | O => Raise ZeroDivisionError
    | S n =>
        let norm := (1 / inject_Z (Z.of_nat (S n)))%Q in
        let la := length (jt_tables a) =? 1 in let lb := length (jt_tables b) =? 1 in
        if la && lb then Ok (if seteqb (jt_tables a) (jt_tables b) then 1 else 0)%Q
        else if la then leaf_score norm a b
        else if lb then leaf_score norm b a
        else match a with
             | JJoin _ ao ai _ =>
                 match b with
                 | JJoin _ bo bi _ =>
                     rbind (jac ai bi) (fun s1 => rbind (jac ao bo) (fun s2 =>
                     rbind (if symmetric then rbind (jac ai bo) (fun c1 => rmap (fun c2 => (c1 + c2)%Q) (jac ao bi)) else Ok 0%Q) (fun cross =>
                     let sym := (s1 + s2)%Q in
                     rbind (if symmetric && negb (Qle_bool cross sym)
                            then rbind (topdown ai bo) (fun x => rmap (fun y => (x + y)%Q) (topdown ao bi))
                            else rbind (topdown ai bi) (fun x => rmap (fun y => (x + y)%Q) (topdown ao bo))) (fun child =>
                     Ok (norm * qmax sym cross + gamma * child)%Q))))
                 | _ => Raise StateError
                 end
             | _ => Raise StateError
             end
    end.
  (** jointree_similarity_bottomup, 321-342. *)
  Definition bottomup (a b : jt nat A) : res Q :=
    jaccard (map (fun j => mkfs (jt_tables j)) (jt_iterjoins a)) (map (fun j => mkfs (jt_tables j)) (jt_iterjoins b)).
End Similarity.

(** ** Numbers of plans *)
(** math.comb *)
Fixpoint comb (n : Z) (k : nat) : Z := match k with O => 1 | S j => (comb n j * (n - Z.of_nat j)) / Z.of_nat (S j) end%Z.
(** catalan_number, stats.py 13-15: int / int is a float, OverflowError beyond the range. *)
Definition catalan_number (n : nat) : res Z :=
  match fl (comb (2 * Z.of_nat n) n) (Z.of_nat n + 1) with FFin m e => Ok (rhe (fnum m e) (fden e)) | _ => Raise OtherError end.
(** possible_plans_bound, 30-67, for the numbers of tables and operators. *)
Definition possible_plans_bound (n joins scans : nat) : res Z :=
  rmap (fun c => (c * ((Z.of_nat n - 1) * Z.of_nat joins) * (Z.of_nat n * Z.of_nat scans))%Z) (catalan_number n).

(** ** star_query_cardinality, 130-238
    [facts] are the rows of the fact table that pass its filters; a dimension is the list of its rows that pass its filters, with the join
    predicate. *)
Section Star.
  Context {F D : Type} (pk : F -> nat).
  Record dimension := Dim { d_rows : list D; d_on : F -> D -> bool }.
  (** COUNT of the join of the fact table with one dimension table for one key, 229-232. *)
  Definition dimension_card (facts : list F) (id : nat) (d : dimension) : nat :=
    length (filter (fun fd => (pk (fst fd) =? id) && d_on d (fst fd) (snd fd)) (list_prod facts (d_rows d))).
  (** 220-234 *)
  Fixpoint star_id (facts : list F) (id cur : nat) (dims : list dimension) : nat :=
    match dims with [] => cur | d :: r => if cur =? 0 then cur else star_id facts id (cur * dimension_card facts id d) r end.
  (** The rows of SELECT pk, COUNT ( * ) ... GROUP BY pk, 188-195, in any order [order]. *)
  Definition id_vals (order : list nat -> list nat) (facts : list F) : list (nat * nat) :=
    map (fun k => (k, length (filter (fun f => pk f =? k) facts))) (order (dedup (map pk facts))).
  (** A single row is unwrapped by execute_query, and its components cannot be unpacked. *)
  Definition star_cardinality (order : list nat -> list nat) (facts : list F) (dims : list dimension) : res nat :=
    match id_vals order facts with
    | [_] => Raise TypeError
    | l => Ok (list_sum (map (fun '(id, c) => star_id facts id c dims) l))
    end.
End Star.
Arguments Dim {F D}.
