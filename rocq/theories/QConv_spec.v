(** Independent description of what the conversions of query plans should give. *)
From Coq Require Import List Bool Arith ZArith.
From Verif Require Import PyBase FSet Hint_model Card_model JT_model QPlan_model PGHint_spec QPlan_spec QConv_model.
Import ListNotations.

(** The join tree of a plan, annotated with a cardinality of each scan and join. *)
Inductive tree_of (f : pdata -> card) : plan -> jt nat card -> Prop :=
| to_scan p t : is_scan p = true -> base (data p) = Some t -> tree_of f p (JScan false t (f (data p)))
| to_join p a b x y : is_join p = true -> kids p = [a; b] -> tree_of f a x -> tree_of f b y -> tree_of f p (JJoin false x y (f (data p)))
| to_aux p c x : is_scan p = false -> is_join p = false -> kids p = [c] -> tree_of f c x -> tree_of f p x.
(** Trees without empty parts. *)
Fixpoint complete (t : jt nat card) : Prop := match t with JEmpty _ => False | JScan _ _ _ => True | JJoin _ o i _ => complete o /\ complete i end.

(** The nodes from the root downwards, and what each of them says about operators, cardinalities and workers. *)
Fixpoint preorder (p : plan) : list plan := match p with Node _ ks _ => p :: flat_map preorder ks end.
Definition scan_says (n : plan) : list (option nat * nat) := match oper (data n) with Some (PScan o) => [(base (data n), o)] | _ => [] end.
Definition join_says (n : plan) : list (fs * nat) := match oper (data n) with Some (PJoin o) => [(mkfs (tables n), o)] | _ => [] end.
Definition inter_says (n : plan) : list (fs * nat) := match oper (data n) with Some (PInter o) => [(mkfs (tables n), o)] | _ => [] end.
Definition card_says (f : pdata -> card) (n : plan) : list (fs * card) := match f (data n) with CNan => [] | c => [(mkfs (tables n), c)] end.
Definition workers_say (n : plan) : list (fs * nat) := if pworkers (data n) =? 0 then [] else [(mkfs (tables n), pworkers (data n))].
Definition all_say {X} (says : plan -> list X) (p : plan) : list X := flat_map says (preorder p).
(** No two nodes say something about the same thing. *)
Definition unambiguous {K V} (says : plan -> list (K * V)) (p : plan) : Prop := NoDup (map fst (all_say says p)).

(** A plan has the shape of a join tree, with the given operators and the annotated cardinalities. *)
Inductive shaped (s j : nat) : jt nat card -> plan -> Prop :=
| sh_scan (lg : bool) t c p : oper (data p) = Some (PScan s) -> kids p = [] -> est (data p) = (if lg then c else CNan) -> shaped s j (JScan lg t c) p
| sh_join (lg : bool) o i c p a b : oper (data p) = Some (PJoin j) -> kids p = [a; b] -> est (data p) = (if lg then c else CNan) -> shaped s j o a -> shaped s j i b -> shaped s j (JJoin lg o i c) p.

(** The nodes of a plan with all parameters, and the ones that are written and read faithfully. *)
Inductive xnode : xplan -> xplan -> Prop :=
| xn_self p : xnode p p
| xn_kid d ks s c n : In c ks -> xnode c n -> xnode (XNode d ks s) n
| xn_sub d ks q t n : xnode q n -> xnode (XNode d ks (Some (q, t))) n.
Definition exact_card (c : card) : Prop := match c with CVal z => (Z.abs z < 2 ^ 53)%Z | _ => True end.
Definition known_op (o : option physop) : Prop := match o with Some (PScan n) | Some (PJoin n) => n < 4 | Some (PInter n) => n < 3 | None => True end.
Definition writable (n : xplan) : Prop :=
  let 'XNode d _ s := n in x_sort d = [] /\ x_lookup d = LNone /\ s = None /\ known_op (x_oper d) /\ exact_card (x_card d) /\ exact_card (x_acard d).
