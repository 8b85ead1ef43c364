(** Model of the text of predicates: [__str__] of the predicate classes, postbound/qal/_qal.py.
    A text is a list of tokens.  The text of a base predicate (comparison, BETWEEN, IN, ...) is one atom: it is assumed to
    be self-contained, i.e. the arguments of base predicates are not themselves predicates. *)
From Coq Require Import List Bool Arith.
From Verif Require Import PyBase Pred_model Prec.
Import ListNotations.

Inductive psym := SAnd | SOr | SNot.
(** An atom [(neg, b)] is the text of the base predicate [b], or its negated form [x NOT IN (...)]. *)
Definition patom (E : Type) : Type := bool * pred E.
Definition ptok (E : Type) : Type := tok (patom E) psym.

(** [sep.join(texts)] *)
Fixpoint sep_join {A S} (s : S) (l : list (list (tok A S))) : list (tok A S) :=
  match l with [] => [] | [x] => x | x :: r => x ++ TSym s :: sep_join s r end.

Definition bracketed {A S} (ts : list (tok A S)) : list (tok A S) := TL :: ts ++ [TR].

(** str(predicate): CompoundPredicate.__str__, _qal.py 3368-3380 and _stringify_not 3351-3354; base predicates 2628, 2790,
    2966, 3082. *)
Fixpoint pprint {E} (p : pred E) : list (ptok E) :=
  match p with
  | PNot (PIn a vs) => [TAtom (true, PIn a vs)]
  | PNot q => TSym SNot :: pprint q
  | POr ps => bracketed (sep_join SOr (map (fun c => if is_base c then pprint c else bracketed (pprint c)) ps))
  | PAnd ps => sep_join SAnd (map pprint ps)
  | b => [TAtom (false, b)]
  end.

(** _quick_format_predicate, qal/_formatter.py 484-511: the lines of a WHERE condition, joined. *)
Definition quick_format_pred {E} (p : pred E) : list (ptok E) :=
  match p with
  | PAnd (c :: r) => pprint c ++ flat_map (fun d => TSym SAnd :: pprint d) r
  | _ => pprint p
  end.
