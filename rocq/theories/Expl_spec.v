(** Independent description of what a plan of PostgreSQL says. *)
From Coq Require Import List Bool Arith ZArith.
From Verif Require Import PyBase Hint_model Card_model QPlan_model Expl_model.
Import ListNotations.

(** ** Nodes and where they are: [up] are the ancestors, nearest first *)
Inductive place : xnode -> list xnode -> xnode -> Prop :=
| place_root x : place x [] x
| place_child x up p c : place x up p -> In c (xch p) -> place x (p :: up) c.
Definition below (x c : xnode) : Prop := exists up, place x up c.

(** Children by role. *)
Definition role_of (c : xnode) : prel := x_role (xd c).
Definition having (f : prel -> bool) (l : list xnode) : list xnode := filter (fun c => f (role_of c)) l.
Definition is_outer r := match r with ROuter => true | _ => false end.
Definition is_inner r := match r with RInner => true | _ => false end.
Definition is_member r := match r with RMember => true | _ => false end.
Definition is_sub r := match r with RSubPlan | RInitPlan | RSubquery => true | _ => false end.
Definition is_init r := match r with RInitPlan => true | _ => false end.
Definition is_known r := match r with ROther _ => false | _ => true end.
Definition inputs (x : xnode) : list xnode := having is_outer (xch x) ++ having is_inner (xch x) ++ having is_member (xch x).
Definition subs (x : xnode) : list xnode := having is_sub (xch x).

(** At most one outer and one inner input, as PostgreSQL produces. *)
Definition binary (x : xnode) : Prop := forall c, below x c -> length (having is_outer (xch c)) <= 1 /\ length (having is_inner (xch c)) <= 1.
(** No node has two subplans. *)
Definition one_sub (x : xnode) : Prop := forall c, below x c -> length (subs c) <= 1.
Definition known_roles (x : xnode) : Prop := forall p c, below x p -> In c (xch p) -> is_known (role_of c) = true.

(** ** Parallel processing: an initial plan is executed once, by the leader.  Everything else is executed by all processes of the outermost
    node that starts workers (including the leader). *)
Fixpoint region (c : xnode) (up : list xnode) : list xnode :=
  if is_init (role_of c) then [] else match up with [] => [] | p :: r => region p r ++ [p] end.
Definition processes (up : list xnode) (c : xnode) : Z :=
  match find (fun a => 0 <? x_planned (xd a)) (region c up) with Some a => Z.of_nat (x_planned (xd a)) + 1 | None => 1 end.
(** Initial plans are not below nodes that start workers. *)
Definition init_outside (x : xnode) : Prop := forall up c, place x up c -> is_init (role_of c) = true -> forall a, In a up -> x_planned (xd a) = 0.

(** ** Facts of a node *)
Definition scaled (o : option Z) (k : Z) : card := match o with Some z => CVal (k * z) | None => CNan end.
Definition table_of (tref : nat -> option nat -> nat) (d : xdata) (t : nat) : Prop :=
  exists r, x_rel d = Some r /\ (t = tref r None /\ (x_alias d = None \/ x_alias d = Some r) \/ exists a, x_alias d = Some a /\ a <> r /\ t = tref r (Some a)).
Definition operator_of (t : nat) (o : option physop) : Prop :=
  match t with
  | 0 | 1 | 2 | 3 => o = Some (PScan t)
  | 4 => o = Some (PJoin 0) | 5 => o = Some (PJoin 1) | 6 => o = Some (PJoin 2)
  | 7 => o = Some (PInter 2) | 8 => o = Some (PInter 1) | 9 => o = Some (PInter 0)
  | _ => o = None
  end.
(** Everything about the node itself except for the estimated rows. *)
Definition states (tref : nat -> option nat -> nat) (d : xdata) (p : pdata) : Prop :=
  ntype p = x_type d /\ operator_of (x_type d) (oper p) /\ (forall t, base p = Some t <-> table_of tref d t)
  /\ ftabs p = [] /\ ktabs p = [] /\ ecost p = x_cost d
  /\ (x_type d <> 10 -> x_type d <> 11 -> m_card (meas p) = scaled (x_true d) (x_loops d))
  /\ (x_type d = 10 \/ x_type d = 11 -> m_card (meas p) = CNan)
  /\ m_time (meas p) = x_time d /\ m_hits (meas p) = x_hits d /\ m_misses (meas p) = x_misses d
  /\ (0 < x_launched d -> pworkers p = x_launched d) /\ (x_launched d = 0 -> pworkers p = x_planned d).

(** ** A plan mirrors the explain output: [own up x d] relates a node to its place, inputs come as outer, inner, members *)
Inductive mirrors (own : list xnode -> xnode -> pdata -> Prop) : list xnode -> xnode -> plan -> Prop :=
| mir up x d ks s :
    own up x d -> Forall2 (mirrors own (x :: up)) (inputs x) ks ->
    Forall2 (mirrors own (x :: up)) (subs x) (match s with Some (q, _) => [q] | None => [] end) ->
    mirrors own up x (Node d ks s).

(** The tables of a plan: those of its nodes. *)
Definition reads (tref : nat -> option nat -> nat) (x : xnode) (t : nat) : Prop := exists c, below x c /\ table_of tref (xd c) t.

(** ** Equality of explain nodes as the class defines it: everything is compared *)
Definition full_key (d : xdata) : nat * list (option nat) * prel * nat :=
  (x_type d, [x_rel d; x_alias d; x_index d; x_subname d; x_cte d] ++ x_conds d, x_role d, x_launched d).
