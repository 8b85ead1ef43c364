(* A query seen as a table of slots: which clause is present for which purpose.
   This is the vocabulary for "changes that clause only". *)
From Coq Require Import List Bool.
From Verif Require Import PyBase Clause_model.
Import ListNotations.

Inductive slot := SHint | SExplain | SCte | SSelect | SFrom | SWhere | SGroup | SHaving | SOrder | SLimit | SSetop.
#[global] Instance EqD_slot : EqD slot.
Proof. intros a b. unfold EqD in *. decide equality. Defined.

Definition slot_of (c : clause) : slot :=
  match c with
  | CHint _ => SHint | CExplain _ => SExplain | CCte _ => SCte | CSelect _ => SSelect | CFrom _ => SFrom
  | CWhere _ => SWhere | CGroup _ => SGroup | CHaving _ => SHaving | COrder _ => SOrder | CLimit _ => SLimit
  | CUnion _ _ _ | CExcept _ _ | CIntersect _ _ => SSetop
  end.

(* the clause of a query in a slot, read off the query's attributes *)
Definition clause_at (q : query) (s : slot) : option clause :=
  match q, s with
  | QSql _ hi _ _ _ _ _ _ _ _ _, SHint => omap CHint hi
  | QSql _ _ ex _ _ _ _ _ _ _ _, SExplain => omap CExplain ex
  | QSql _ _ _ ct _ _ _ _ _ _ _, SCte => omap CCte ct
  | QSql _ _ _ _ se _ _ _ _ _ _, SSelect => Some (CSelect se)
  | QSql _ _ _ _ _ fr _ _ _ _ _, SFrom => omap CFrom fr
  | QSql _ _ _ _ _ _ wh _ _ _ _, SWhere => omap CWhere wh
  | QSql _ _ _ _ _ _ _ gr _ _ _, SGroup => omap CGroup gr
  | QSql _ _ _ _ _ _ _ _ ha _ _, SHaving => omap CHaving ha
  | QSql _ _ _ _ _ _ _ _ _ od _, SOrder => omap COrder od
  | QSql _ _ _ _ _ _ _ _ _ _ li, SLimit => omap CLimit li
  | QSql _ _ _ _ _ _ _ _ _ _ _, SSetop => None
  | QSet _ _ _ hi _ _ _ _, SHint => omap CHint hi
  | QSet _ _ _ _ ex _ _ _, SExplain => omap CExplain ex
  | QSet _ _ _ _ _ ct _ _, SCte => omap CCte ct
  | QSet _ _ _ _ _ _ od _, SOrder => omap COrder od
  | QSet _ _ _ _ _ _ _ li, SLimit => omap CLimit li
  | QSet op l r _ _ _ _ _, SSetop => Some (set_clause op l r)
  | QSet _ _ _ _ _ _ _ _, _ => None
  end.

(* The class of a query fits its FROM clause, and set operations are over
   queries without EXPLAIN. *)
Definition fits (q : query) : Prop :=
  match q with
  | QSql cls _ _ _ _ fr _ _ _ _ _ =>
      cls = match fr with
            | None | Some (mkFrom FImplicit _) => QImplicit
            | Some (mkFrom FExplicit _) => QExplicit
            | Some (mkFrom FPlain _) => QMixed
            end
  | QSet _ l r _ _ _ _ _ => clause_at l SExplain = None /\ clause_at r SExplain = None
  end.

(* slots that only one of the two kinds of queries has *)
Definition select_only (s : slot) : bool :=
  match s with SSelect | SFrom | SWhere | SGroup | SHaving => true | _ => false end.
Definition is_set (q : query) : bool := match q with QSet _ _ _ _ _ _ _ _ => true | _ => false end.

(* the last clause of a list in a slot *)
Fixpoint last_at (cs : list clause) (s : slot) : option clause :=
  match cs with
  | [] => None
  | c :: rest => match last_at rest s with
                 | Some x => Some x
                 | None => if deqb (slot_of c) s then Some c else None
                 end
  end.

