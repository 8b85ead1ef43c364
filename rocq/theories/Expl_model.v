(** Model of PostgresExplainNode and its translation to a QueryPlan, postbound/postgres.py 3881-4406.
    Names, conditions and node types are numbers.  Row counts are exact integers (Python multiplies floats), times and costs opaque. *)
From Coq Require Import List Bool Arith ZArith.
From Verif Require Import PyBase Hint_model Card_model QPlan_model.
Import ListNotations.

(** The "Parent Relationship" of a node; [ROther] is anything else, also a missing entry. *)
Inductive prel := RInner | ROuter | RSubPlan | RInitPlan | RSubquery | RMember | ROther (n : option nat).
#[global] Instance EqD_prel : EqD prel.
Proof. intros a b. unfold EqD. repeat decide equality. Defined.

(** Attributes of PostgresExplainNode.__init__ 4053-4108; a missing row count is NaN.  [x_conds] are filter, index condition, join filter,
    hash condition and recheck condition. *)
Record xdata := mkx { x_type : nat; x_cost : option nat; x_rows : option Z; x_time : option nat; x_true : option Z; x_loops : Z;
                      x_rel : option nat; x_alias : option nat; x_index : option nat; x_subname : option nat; x_cte : option nat;
                      x_conds : list (option nat); x_role : prel; x_launched : nat; x_planned : nat;
                      x_hits : option nat; x_misses : option nat }.
Inductive xnode := XN (d : xdata) (ch : list xnode).
Definition xd (x : xnode) : xdata := let 'XN d _ := x in d.
Definition xch (x : xnode) : list xnode := let 'XN _ c := x in c.

(** Node types 3881-3905: 0-3 are Seq, Index, Index Only and Bitmap Heap Scan, 4-6 Nested Loop, Hash and Merge Join, 7-9 Materialize,
    Memoize and Sort; 10 and 11 BitmapAnd and BitmapOr (all others have no operator).  The operators are numbered as in PGHint_model. *)
Definition t_bitand : nat := 10.
Definition t_bitor : nat := 11.
Definition scan_nodes (t : nat) : option nat := if t <? 4 then Some t else None.
Definition join_nodes (t : nat) : option nat := if (4 <=? t) && (t <? 7) then Some (t - 4) else None.
Definition inter_nodes (t : nat) : option nat := if (7 <=? t) && (t <? 10) then Some (9 - t) else None.

(** is_scan 4123-4134, is_join 4136-4144. *)
Definition x_is_scan (d : xdata) : bool := match scan_nodes (x_type d) with Some _ => true | None => false end.
Definition x_is_join (d : xdata) : bool := match join_nodes (x_type d) with Some _ => true | None => false end.
(** true_cardinality 4110-4121. *)
Definition true_card (d : xdata) : option Z := if (x_type d =? t_bitand) || (x_type d =? t_bitor) then None else x_true d.

(** inner_outer_children 4180-4200 uses __eq__ 4374-4381, which compares type, relation, alias and children. *)
Fixpoint xeq (a b : xnode) : bool :=
  match a, b with
  | XN d ca, XN e cb =>
      (x_type d =? x_type e) && deqb (x_rel d) (x_rel e) && deqb (x_alias d) (x_alias e)
      && (fix go (l m : list xnode) : bool :=
            match l, m with [], [] => true | x :: r, y :: s => xeq x y && go r s | _, _ => false end) ca cb
  end.
(** __hash__ 4090-4108, 4371: the tuple that is hashed. *)
Inductive hkey := HK (own : nat * list (option nat) * prel * nat) (ch : list hkey).
Fixpoint xhash (a : xnode) : hkey :=
  match a with
  | XN d ca => HK (x_type d, [x_rel d; x_alias d; x_index d; x_subname d; x_cte d] ++ x_conds d, x_role d, x_launched d) (map xhash ca)
  end.
Definition inner_outer (a : xnode) : res (list xnode) :=
  match xch a with
  | [] => Ok []
  | [c] => Ok [c]
  | [first; second] =>
      let inner := if deqb (x_role (xd first)) RInner then first else second in
      let outer := if xeq second inner then first else second in
      Ok [inner; outer]
  | _ => Raise AssertionError
  end.

Section Gen.
  (** TableReference(name, alias); an alias equal to the name counts as no alias. *)
  Context (tref : nat -> option nat -> nat).
  (** parse_table 4202-4218. *)
  Definition parse_table (d : xdata) : option nat :=
    match x_rel d with
    | None => None
    | Some r => Some (tref r (match x_alias d with Some a => if a =? r then None else Some a | None => None end))
    end.
  (** Cardinality(number): NaN becomes the unknown cardinality. *)
  Definition to_card (o : option Z) : card := match o with Some z => CVal z | None => CNan end.
  Definition times (o : option Z) (k : Z) : option Z := option_map (fun z => (z * k)%Z) o.
  (** Operator 4290-4295. *)
  Definition x_oper (d : xdata) : option physop :=
    if x_is_scan d then option_map PScan (scan_nodes (x_type d))
    else if x_is_join d then option_map PJoin (join_nodes (x_type d))
    else option_map PInter (inter_nodes (x_type d)).
  (** Workers 4308-4313. *)
  Definition x_workers (d : xdata) : nat := if 0 <? x_launched d then x_launched d else if 0 <? x_planned d then x_planned d else 0.

  (** The roles collected by the loop 4253-4269: inner, outer, subplan, members. *)
  Record roles := mkroles { r_inner : option plan; r_outer : option plan; r_sub : option plan; r_members : list plan }.
  (** The error message formats the child 4267-4269, which asserts that scans have a table 4393-4396. *)
  Definition unknown_role (d : xdata) : exn := if x_is_scan d && match x_rel d with None => true | Some _ => false end then AssertionError else ValueError.
  Definition add_role (d : xdata) (q : plan) (r : roles) : res roles :=
    match x_role d with
    | RInner => Ok (mkroles (Some q) (r_outer r) (r_sub r) (r_members r))
    | ROuter => Ok (mkroles (r_inner r) (Some q) (r_sub r) (r_members r))
    | RSubPlan | RInitPlan | RSubquery => Ok (mkroles (r_inner r) (r_outer r) (Some q) (r_members r))
    | RMember => Ok (mkroles (r_inner r) (r_outer r) (r_sub r) (r_members r ++ [q]))
    | ROther _ => Raise (unknown_role d)
    end.
  (** Child nodes 4271-4276: plans are truthy. *)
  Definition child_plans (r : roles) : list plan :=
    match r_inner r, r_outer r with
    | Some i, Some o => [o; i] ++ r_members r
    | None, Some o => o :: r_members r
    | Some i, None => i :: r_members r
    | None, None => r_members r
    end.
  (** Data of the new node 4278-4328.  [subplan_name] is not a parameter of QueryPlan and goes to the free-form parameters, so that the
      target of the subplan remains empty. *)
  Definition plan_data (adj : Z) (d : xdata) : pdata :=
    mkpd (x_type d) (x_oper d) (parse_table d) [] [] (x_workers d) (to_card (times (x_rows d) adj)) (x_cost d) []
         (mkmeas (to_card (times (true_card d) (x_loops d))) (x_time d) (x_hits d) (x_misses d) []).
  (** _generate_qep 4242-4328. *)
  Definition child_adj (adj : Z) (d : xdata) : Z := if (1 <? adj)%Z then adj else (Z.of_nat (x_planned d) + 1)%Z.
  Section Loop.
    Context (g : xnode -> res plan).
    Fixpoint role_loop (l : list xnode) (r : roles) : res roles :=
      match l with [] => Ok r | c :: l' => rbind (g c) (fun q => rbind (add_role (xd c) q r) (fun r' => role_loop l' r')) end.
  End Loop.
  Fixpoint generate_qep (adj : Z) (x : xnode) : res plan :=
    match x with
    | XN d ch =>
        rbind (role_loop (generate_qep (child_adj adj d)) ch (mkroles None None None [])) (fun r =>
        Ok (Node (plan_data adj d) (child_plans r) (option_map (fun q => (q, None)) (r_sub r))))
    end.
  (** as_qep 4220-4240. *)
  Definition as_qep (x : xnode) : res plan := generate_qep 1 x.
End Gen.
