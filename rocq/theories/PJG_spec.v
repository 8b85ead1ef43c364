(** Which arrows drawings of joins should have, and how HTML texts are decoded. *)
From Coq Require Import List Bool Arith Ascii String.
From Verif Require Import PyBase Ident_model JG_model PJG_model.
Import ListNotations.

Section Graph.
  Context {T C : Type} {ET : EqD T} {EC : EqD C} (tab : C -> T).
  (** There is one edge per pair of tables, which are different, and the predicates of an edge join these tables. *)
  Definition simple (g : @jg T C) : Prop :=
    (forall s t p, In (s, t, p) (g_edges g) -> s <> t /\ forall a b, In (a, b) p -> (tab a = s /\ tab b = t) \/ (tab a = t /\ tab b = s)) /\
    (forall s t p t' s' p', In (s, t, p) (g_edges g) -> In (s', t', p') (g_edges g) -> (s = s' /\ t = t') \/ (s = t' /\ t = s') -> p = p').
  (** The index of a column can be used. *)
  Definition valid_index (h : heap) (g : @jg T C) (c : C) (k : ikind) : Prop :=
    exists a, dget (g_index g) c = Some a /\ ix_kind (nth a (h_index h) (mkix NoIndex false)) = k /\ ix_invalid (nth a (h_index h) (mkix NoIndex false)) = false.
  (** A column of [fk] with an index refers to the primary key of [pk]. *)
  Definition refers (h : heap) (g : @jg T C) (p : list (C * C)) (fk pk : T) : Prop :=
    exists a b, (In (a, b) p \/ In (b, a) p) /\ tab a = fk /\ tab b = pk /\ (valid_index h g a Primary \/ valid_index h g a Secondary) /\ valid_index h g b Primary.
  (** The documented arrow of a join *)
  Inductive arrow (str : T -> string) (h : heap) (g : @jg T C) : T * T * list (C * C) -> string * string * bool -> Prop :=
  | ar_forward s t p : refers h g p s t -> arrow str h g (s, t, p) (str s, str t, true)
  | ar_backward s t p : refers h g p t s -> arrow str h g (s, t, p) (str t, str s, true)
  | ar_none s t p : ~ refers h g p s t -> ~ refers h g p t s -> arrow str h g (s, t, p) (str s, str t, false).
End Graph.

(** Lines that are separated by line breaks *)
Inductive lines : list string -> string -> Prop :=
| li_one x : lines [x] x
| li_more x r s : lines r s -> lines (x :: r) (x ++ nl ++ s)%string.

(** How HTML is read: entities for the two brackets. *)
Inductive decodes : list ascii -> list ascii -> Prop :=
| de_nil : decodes [] []
| de_lt s t : decodes s t -> decodes ("&" :: "l" :: "t" :: ";" :: s)%char ("<"%char :: t)
| de_gt s t : decodes s t -> decodes ("&" :: "g" :: "t" :: ";" :: s)%char (">"%char :: t)
| de_char c s t : c <> "&"%char -> c <> "<"%char -> c <> ">"%char -> decodes s t -> decodes (c :: s) (c :: t).
