(** The plans that the PostgreSQL-style enumerator should choose from, and when one is at most [k] times as expensive as another one. *)
From Coq Require Import List Bool Arith QArith.
From Verif Require Import PyBase FSet DP_model Path_model PgDP_model DP_spec.
Import ListNotations.
Local Open Scope nat_scope.

(** [x] costs at most [k] times as much as [y]. *)
Definition within (k : Q) (x y : ecost) : Prop :=
  match y with Inf => True | Fin b => exists a, x = Fin a /\ (a <= k * b)%Q | NoCost => False end.

Section Spec.
  Context {N P I : Type}.
  Notation pp := (pp N P I).
  Context (card : list nat -> N) (cost : pp -> option Q).
  Context (filters_for : nat -> option P) (columns_of : nat -> list nat) (indexes_on : nat -> list I).
  Context (joins_between : list nat -> list nat -> option P) (partners : P -> list (nat * nat)) (ktab : nat -> nat).
  Context (scan_ops : list dscan) (join_ops : list djoin) (enable_memo enable_mat : bool).
  (** The number of workers for reading a table or an index. *)
  Context (workers : nat + I -> nat -> Prop).

  (** The node has been given its cost. *)
  Definition priced (p : pp) : pp := with_cost p (match cost p with Some q => Fin q | None => Inf end).
  Definition finite (p : pp) : Prop := exists q, i_cost (dat p) = Fin q.

  Definition inputs_finite (p : pp) : Prop := match p with PScan _ _ _ _ _ _ => True | PJoin _ _ o i _ => finite o /\ finite i | PAux _ c _ => finite c end.

  (** The ways to read table [t] with [w] workers. *)
  Inductive scan_way (t w : nat) : pp -> Prop :=
  | sw_seq : In SeqScan scan_ops -> workers (inl t) w ->
      scan_way t w (priced (PScan SeqScan t None [] (filters_for t) (mkinfo (Some (card (mkfs [t]))) NoCost [] (Some w) 0)))
  | sw_idx c ix : In IdxScan scan_ops -> In c (columns_of t) -> In ix (indexes_on c) -> workers (inr ix) w ->
      scan_way t w (priced (PScan IdxScan t (Some (c, ix)) [] (filters_for t) (mkinfo None NoCost [mkKey [MCol c] true] (Some w) 0)))
  | sw_only c ix : In IdxOnlyScan scan_ops -> columns_of t = [c] -> In ix (indexes_on c) -> workers (inr ix) w ->
      scan_way t w (priced (PScan IdxOnlyScan t (Some (c, ix)) [] (filters_for t) (mkinfo None NoCost [mkKey [MCol c] true] (Some w) 0)))
  | sw_bmp : In BmpScan scan_ops -> columns_of t <> [] -> workers (inl t) w ->
      scan_way t w (priced (PScan BmpScan t None (columns_of t) (filters_for t) (mkinfo None NoCost [] (Some w) 0))).

  (** What the inner side of a nested-loop join may look like. *)
  Inductive inner_way (op : djoin) (mat : bool) (outer : list nat) (i : pp) : pp -> Prop :=
  | iw_plain : inner_way op mat outer i i
  | iw_memo cond c1 c2 k : op = NLJ -> enable_memo = true -> joins_between outer (tabs_of i) = Some cond -> In (c1, c2) (partners cond) ->
      k = (if mem (ktab c1) (tabs_of i) then c1 else c2) ->
      inner_way op mat outer i (priced (PAux (AMemo k) i (mkinfo (i_card (dat i)) NoCost [] (i_ew (dat i)) 0)))
  | iw_mat : op = NLJ -> mat = true -> enable_mat = true ->
      inner_way op mat outer i (priced (PAux AMat i (mkinfo (i_card (dat i)) NoCost [] (i_ew (dat i)) 0))).

  Definition joined (op : djoin) (o i : pp) : pp :=
    priced (PJoin op (joins_between (tabs_of o) (tabs_of i)) o i (mkinfo (Some (card (mkfs (tabs_of o ++ tabs_of i)))) NoCost [] (i_ew (dat o)) 0)).
  Definition gathered (p : pp) (w : nat) : pp := priced (parallelize p w).
  Definition apart (o i : pp) : Prop := forall x, In x (leaves o) -> ~ In x (leaves i).
  Definition linked (R : nat -> nat -> Prop) (o i : pp) : Prop := exists a b, In a (leaves o) /\ In b (leaves i) /\ R a b.

  (** Complete plans, and plans of which every worker executes a part.  Without cross products, nested-loop and hash joins only. *)
  Inductive full (R : nat -> nat -> Prop) : pp -> Prop :=
  | f_scan t w p : scan_way t w p -> finite p -> full R p
  | f_gather p w : part R p -> i_ew (dat p) = Some w -> finite (gathered p w) -> full R (gathered p w)
  | f_join op o i i' : full R o -> full R i -> inner_way op true (tabs_of o) i i' -> In op join_ops -> op = NLJ \/ op = HashJ -> apart o i -> linked R o i ->
      finite (joined op o i') -> full R (joined op o i')
  with part (R : nat -> nat -> Prop) : pp -> Prop :=
  | p_scan t w p : scan_way t w p -> w <> 0 -> finite p -> part R p
  | p_join op o i i' : part R o -> full R i -> inner_way op false (tabs_of o) i i' -> In op join_ops -> op = NLJ \/ op = HashJ -> apart o i -> linked R o i ->
      finite (joined op o i') -> part R (joined op o i').

  (** Cheaper inputs over the same tables do not make an operator more than [k] times as expensive. *)
  Definition cheaper (k : Q) (p q : pp) : Prop := tabs_of p = tabs_of q /\ within k (i_cost (dat p)) (i_cost (dat q)).
  Definition monotone_at (k : Q) : Prop :=
    (forall op o i o' i', cheaper k o o' -> cheaper k i i' -> cheaper k (joined op o i) (joined op o' i'))
    /\ (forall a i i' c c' e e', cheaper k i i' -> cheaper k (priced (PAux a i (mkinfo c NoCost [] e 0))) (priced (PAux a i' (mkinfo c' NoCost [] e' 0))))
    /\ (forall p w p' w', w <> 0 -> w' <> 0 -> i_pw (dat p) = 0 -> i_pw (dat p') = 0 -> cheaper k (priced p) (priced p') -> cheaper k (gathered (priced p) w) (gathered (priced p') w')).
End Spec.
Scheme full_mut := Minimality for full Sort Prop with part_mut := Minimality for part Sort Prop.
Combined Scheme full_part_ind from full_mut, part_mut.

Section Shape.
  Context {N P I : Type}.
  (** The operators that a plan uses. *)
  Fixpoint scans_in (p : pp N P I) : list dscan := match p with PScan op _ _ _ _ _ => [op] | PJoin _ _ o i _ => scans_in o ++ scans_in i | PAux _ c _ => scans_in c end.
  Fixpoint joins_in (p : pp N P I) : list djoin := match p with PScan _ _ _ _ _ _ => [] | PJoin op _ o i _ => op :: joins_in o ++ joins_in i | PAux _ c _ => joins_in c end.
  Fixpoint auxs_in (p : pp N P I) : list aux := match p with PScan _ _ _ _ _ _ => [] | PJoin _ _ o i _ => auxs_in o ++ auxs_in i | PAux a c _ => a :: auxs_in c end.
  (** Nodes that are executed by several workers. *)
  Fixpoint parallel_in (p : pp N P I) : nat :=
    (if i_pw (dat p) =? 0 then 0 else 1) + match p with PScan _ _ _ _ _ _ => 0 | PJoin _ _ o i _ => parallel_in o + parallel_in i | PAux _ c _ => parallel_in c end.
  Definition below (p : pp N P I) : nat := match p with PScan _ _ _ _ _ _ => 0 | PJoin _ _ o i _ => parallel_in o + parallel_in i | PAux _ c _ => parallel_in c end.
End Shape.
