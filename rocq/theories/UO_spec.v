(** What a join order of a query is. *)
From Coq Require Import List Bool Arith.
From Verif Require Import PyBase Graph Card_model JG_model JT_model.
Import ListNotations.

Section Spec.
  Context {T C : Type} {ET : EqD T} (tab : C -> T).
  Notation edges := (list (T * T * list (C * C))).
  (** The tables of a join tree, from left to right. *)
  Fixpoint leaves {A} (t : jt T A) : list T := match t with JEmpty _ => [] | JScan _ x _ => [x] | JJoin _ o i _ => leaves o ++ leaves i end.
  (** Two tables are joined by the query. *)
  Definition linked (es : edges) (a b : T) : Prop := exists p, In (a, b, p) es \/ In (b, a, p) es.
  (** Each join of the tree evaluates a join predicate between its two inputs. *)
  Inductive no_cross {A} (es : edges) : jt T A -> Prop :=
  | nc_scan lg x a : no_cross es (JScan lg x a)
  | nc_join lg o i c a b : no_cross es o -> no_cross es i -> In a (leaves o) -> In b (leaves i) -> linked es a b -> no_cross es (JJoin lg o i c).
  (** The joins of a query: at most one (conjunctive) edge for two different tables of the query, each with at least one pair of
      columns of these tables. *)
  Definition wf_joins (tables : list T) (es : edges) : Prop :=
    (forall a b p, In (a, b, p) es -> In a tables /\ In b tables /\ a <> b /\ p <> [] /\ forall c, In c p -> (tab (fst c) = a /\ tab (snd c) = b) \/ (tab (fst c) = b /\ tab (snd c) = a)) /\
    NoDup (map fst es) /\ (forall a b, In (a, b) (map fst es) -> ~ In (b, a) (map fst es)).
  (** A pair of columns of a foreign key (any index) on [a] and a primary key on [b]. *)
  Definition refers (kind : C -> ikind) (a b : T) (c : C * C) : Prop :=
    exists x y, (c = (x, y) \/ c = (y, x)) /\ tab x = a /\ tab y = b /\ kind x <> NoIndex /\ kind y = Primary.
  Definition references (kind : C -> ikind) (es : edges) (a b : T) : Prop :=
    exists p c, (In (a, b, p) es \/ In (b, a, p) es) /\ In c p /\ refers kind a b c.
  (** n:m joins. *)
  Definition many_to_many (kind : C -> ikind) (es : edges) (a b : T) : Prop := linked es a b /\ ~ references kind es a b /\ ~ references kind es b a.
  (** Left-deep trees. *)
  Fixpoint left_deep {A} (t : jt T A) : Prop := match t with JEmpty _ => False | JScan _ _ _ => True | JJoin _ o i _ => left_deep o /\ match i with JScan _ _ _ => True | _ => False end end.
  (** joins_between: all predicates between a table and some other tables *)
  Definition finds_joins (es : edges) (between : T -> list T -> option (list (C * C))) : Prop := forall t l,
    match between t l with
    | Some e => e <> [] /\ forall c, In c e -> exists u p, In u l /\ (In (t, u, p) es \/ In (u, t, p) es) /\ In c p
    | None => forall u, In u l -> ~ linked es t u
    end.
  (** The joins of a left-deep tree are chosen greedily: the next join is one with the lowest price among all joins between the
      tables of the tree so far and other tables.  [prices ts f]: [f] gives the prices after the tables [ts] have been joined. *)
  Inductive greedy (es : edges) (base : T -> res card) (prices : list T -> (list (C * C) -> res card) -> Prop) : jt T card -> Prop :=
  | greedy_first y x e f b cy cx : In (y, x, e) es -> prices [] f -> f e = Ok b -> (forall u v p, In (u, v, p) es -> exists d, f p = Ok d /\ clt d (OCard b) = false) ->
      base y = Ok cy -> base x = Ok cx -> greedy es base prices (JJoin false (JScan true y cy) (JScan false x cx) b)
  | greedy_next t y x e f b cx : greedy es base prices t -> In y (leaves t) -> ~ In x (leaves t) -> In (y, x, e) es \/ In (x, y, e) es -> prices (leaves t) f -> f e = Ok b ->
      (forall u v p, In u (leaves t) -> ~ In v (leaves t) -> In (u, v, p) es \/ In (v, u, p) es -> exists d, f p = Ok d /\ clt d (OCard b) = false) ->
      base x = Ok cx -> greedy es base prices (JJoin false t (JScan false x cx) b).
  (** No table is referenced by two tables. *)
  Definition once_referenced (kind : C -> ikind) (es : edges) : Prop := forall x y z, references kind es y x -> references kind es z x -> y = z.
  (** Each edge is an n:m join or only compares foreign keys with primary keys; the tables of n:m joins are not referenced. *)
  Definition keyed (kind : C -> ikind) (es : edges) : Prop := forall a b p, In (a, b, p) es -> many_to_many kind es a b \/ forall c, In c p -> refers kind a b c \/ refers kind b a c.
  Definition unreferenced (kind : C -> ikind) (es : edges) : Prop := forall a b z, many_to_many kind es a b -> ~ references kind es z a.
  (** The bound of a table: the lowest of its base estimate and the estimates [f] of the joins with the tables it references. *)
  Definition table_bound (kind : C -> ikind) (es : edges) (base : T -> res card) (f : list (C * C) -> res card) (x : T) (c : card) : Prop :=
    let pk e := exists y, (In (x, y, e) es \/ In (y, x, e) es) /\ references kind es x y in
    exists b, base x = Ok b /\ (c = b \/ exists e, pk e /\ f e = Ok c) /\ clt b (OCard c) = false /\ forall e, pk e -> exists d, f e = Ok d /\ clt d (OCard c) = false.
  (** The leftmost table of a tree, with its annotation. *)
  Fixpoint leftmost {A} (t : jt T A) : option (T * A) := match t with JEmpty _ => None | JScan _ x a => Some (x, a) | JJoin _ o _ _ => leftmost o end.
  (** Further joins with single tables. *)
  Inductive grows {A} (t : jt T A) : jt T A -> Prop :=
  | grows_refl : grows t t
  | grows_join lg lg' u x c a : grows t u -> grows t (JJoin lg u (JScan lg' x c) a).
  (** A tree that joins some trees without join predicates, each with the product of the annotations. *)
  Definition note (t : jt T card) : card := match t with JEmpty _ => CNan | JScan _ _ a => a | JJoin _ _ _ a => a end.
  Inductive product : jt T card -> list (jt T card) -> jt T card -> Prop :=
  | product_one t : product t [] t
  | product_more t u us a v : cop Mul (note t) (OCard (note u)) = Ok a -> product (JJoin false t u a) us v -> product t (u :: us) v.
End Spec.
