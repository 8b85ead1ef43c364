(** What a randomly generated query is supposed to look like. *)
From Coq Require Import String List Bool Arith Lia Permutation.
From Verif Require Import PyBase QPred_spec DP_spec QGen_model.
Import ListNotations.

(** A graph of a schema: tables and edges are unique, columns belong to their table, keys to the tables of their edge. *)
Definition good_graph (g : sgraph) : Prop :=
  NoDup (map fst (s_nodes g)) /\ NoDup (map fst (s_edges g)) /\
  (forall t cs, In (t, cs) (s_nodes g) -> NoDup cs /\ forall c, In c cs -> fst c = t) /\
  (forall a b ks, In ((a, b), ks) (s_edges g) -> In a (map fst (s_nodes g)) /\ In b (map fst (s_nodes g)) /\ ks <> [] /\ forall f r, In (f, r) ks -> fst f = a /\ fst r = b).
(** There is a foreign key between two tables. *)
Definition fk (g : sgraph) (f r : col) : Prop := exists a b ks, In ((a, b), ks) (s_edges g) /\ In (f, r) ks.
Definition linked (g : sgraph) (a b : nat) : Prop := exists ks, In ((a, b), ks) (s_edges g) \/ In ((b, a), ks) (s_edges g).
Definition column_of (g : sgraph) (c : col) : Prop := exists cs, In (fst c, cs) (s_nodes g) /\ In c cs.

Section Spec.
  Context {V : Type}.
  Notation gpred := (@gpred V).
  (** The tables that can be used *)
  Definition usable (db : @gdb V) (a : gargs) (g : sgraph) (t : nat) : Prop :=
    In t (map fst (s_nodes g)) /\ ~ In t (a_ignore a) /\ (d_postgres db = true -> d_internal db t = false).
  (** The basic predicates of a conjunction *)
  Inductive conjunct : gpred -> gpred -> Prop :=
  | cj_join a b : conjunct (GJoin a b) (GJoin a b)
  | cj_filter c o v : conjunct (GFilter c o v) (GFilter c o v)
  | cj_and p l q : In p l -> conjunct p q -> conjunct (GAnd l) q.
  Definition states (q : @gquery V) (p : gpred) : Prop := exists w, g_where q = Some w /\ conjunct w p.
  (** Two tables are joined by a predicate of the query. *)
  Definition joined_by (q : @gquery V) (a b : nat) : Prop := exists c d, states q (GJoin c d) /\ ((fst c = a /\ fst d = b) \/ (fst c = b /\ fst d = a)).
  (** The filters of a query, in order *)
  Fixpoint filters_in (p : gpred) : list (col * gop * V) :=
    match p with GJoin _ _ => [] | GFilter c o v => [(c, o, v)] | GAnd l => (fix go l := match l with [] => [] | p :: r => filters_in p ++ go r end) l end.
  Definition filters_of (q : @gquery V) : list (col * gop * V) := match g_where q with Some w => filters_in w | None => [] end.
  (** random.sample gives that many different elements. *)
  Definition samples (d : draw) : Prop := forall n l, n <= length l -> length (r_sample d n l) = n /\ exists rest, Permutation (r_sample d n l ++ rest) l.
  (** Columns that may be filtered *)
  Definition may_filter (db : @gdb V) (a : gargs) (c : col) : Prop :=
    (a_keys a = false -> d_primary db c = false /\ d_foreign db c = false) /\
    (a_numeric a = true -> In (d_type db c) ["integer"; "smallint"; "bigint"; "date"; "double precision"; "real"; "numeric"; "decimal"]%string \/ exists r, d_type db c = append "time" r).
End Spec.
