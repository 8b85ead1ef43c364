(** What a database system sees of a text: its tokens.  Blanks and newlines only separate words. *)
From Coq Require Import String List Bool.
From Verif Require Import PyBase QFmt_model.
Import ListNotations.
Open Scope list_scope.

Inductive token := TW (s : string) | TP (s : string) | TL (l : list (option nat)).
Definition flush (cur : string) : list token := match cur with EmptyString => [] | _ => [TW cur] end.
Fixpoint tk (cur : string) (t : text) : list token :=
  match t with
  | [] => flush cur
  | Sp :: r | Nl :: r => flush cur ++ tk EmptyString r
  | P s :: r => flush cur ++ TP s :: tk EmptyString r
  | L l :: r => flush cur ++ TL l :: tk EmptyString r
  | W s :: r => tk (cur ++ s) r
  end.
Definition tokens (t : text) : list token := tk EmptyString t.

(** Queries that are formatted faithfully: *)
(** no literal has a newline *)
Definition no_nl (l : list (option nat)) : bool := forallb (fun x => match x with None => false | Some _ => true end) l.
Definition no_nl_text (t : text) : bool := forallb (fun c => match c with L l => no_nl l | _ => true end) t.
Definition plain_result (e : expr) : bool := match e with ECase _ _ _ _ | EMath _ _ _ | ENeg _ _ => false | _ => true end.
Definition oall {A} (f : A -> bool) (o : option A) : bool := match o with Some x => f x | None => true end.
Definition nonnil {A} (l : list A) : bool := match l with [] => false | _ => true end.
(** not both of LIMIT and OFFSET, and neither is 0 *)
Definition ok_limit (l : option nat * option nat) : bool :=
  match l with (Some (S _), None) | (None, Some (S _)) => true | _ => false end.

(** casts are not to arrays, no result of CASE is arithmetic or CASE, ... *)
Fixpoint ok_e (e : expr) : bool :=
  match e with
  | ELit l => no_nl l
  | ECol _ => true
  | EFun _ args _ f => forallb ok_e args && oall ok_e f
  | ESub a q => match a with None => ok_q q | _ => false end
  | ECase a cases simple els =>
      match a with None => true | _ => false end && forallb (fun c => match c with (x, y) => ok_e x && ok_e y && plain_result y end) cases
      && oall ok_e simple && oall (fun e => ok_e e && plain_result e) els && nonnil cases
  | ECast e _ arr => ok_e e && negb arr
  | EMath _ a b | EBin _ a b => ok_e a && ok_e b
  | ENeg _ a | EPred a | EExists a => ok_e a
  | EBetween a lo hi => ok_e a && ok_e lo && ok_e hi
  | EIn a vs => ok_e a && forallb ok_e vs
  | ENot q => ok_e q
  | EAnd ps | EOr ps => nonnil ps && forallb ok_e ps
  end
with ok_s (s : source) : bool :=
  match s with SDirect _ => true | SFun f _ => ok_e f | SSub q _ _ => ok_q q end
(** [single]: the only CTE of a WITH clause without RECURSIVE; VALUES only there and not [NOT] MATERIALIZED *)
with ok_w (single : bool) (c : cte) {struct c} : bool :=
  match c with
  | CQuery q _ _ => ok_q q
  | CValues rows _ _ mat => single && match mat with None => true | _ => false end && forallb (forallb ok_e) rows
  end
with ok_q (q : query) : bool :=
  match q with
  | Query hint explain ctes d ts from wh gr hav ord lim =>
      oall no_nl_text hint && oall no_nl_text explain
      && match ctes with None => true | Some ([], _) => false | Some ([c], r) => ok_w (negb r) c | Some (l, _) => forallb (ok_w false) l end
      && oall (forallb ok_e) d && forallb (fun t => match t with (e, _) => ok_e e end) ts
      && match from with None => true | Some (inl l) => nonnil l | Some (inr l) => forallb ok_s l end
      && oall ok_e wh && match gr with Some (es, _) => forallb ok_e es | None => true end && oall ok_e hav
      && match ord with Some l => forallb (fun t => match t with (e, n) => ok_e e && no_nl_text n end) l | None => true end
      && oall ok_limit lim
  end.
