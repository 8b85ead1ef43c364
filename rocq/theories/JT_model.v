(** Model of join trees: JoinTree and LogicalJoinTree, postbound/_hints.py 1230-1760, and their JSON form
    (opt/_helpers.py 630-666).  The tables of the tree functions are any type with decidable equality (Python compares table
    references case-insensitively; here equal tables are identical). *)
From Coq Require Import List Bool Arith String.
From Verif Require Import PyBase Ident_model.
Import ListNotations.

(** A node: empty, a base table, or a join.  [lg] tells whether the object is a LogicalJoinTree.  Trees with only one child
    (possible through the constructor, not through the factory methods) are left out.  JoinTree.__init__ 1328-1340. *)
Inductive jt (T A : Type) : Type :=
| JEmpty (lg : bool)
| JScan (lg : bool) (t : T) (a : A)
| JJoin (lg : bool) (o i : jt T A) (a : A).
Arguments JEmpty {T A}. Arguments JScan {T A}. Arguments JJoin {T A}.

Section JT.
  Context {T A : Type} {ET : EqD T} (none : A).
  Notation jt := (jt T A).

  (** is_empty 1391, is_join 1395 (true for empty trees as well), is_scan 1399. *)
  Definition jt_empty (t : jt) : bool := match t with JEmpty _ => true | _ => false end.
  Definition jt_is_join (t : jt) : bool := match t with JScan _ _ _ => false | _ => true end.
  Definition jt_is_scan (t : jt) : bool := match t with JScan _ _ _ => true | _ => false end.
  (** is_linear 1403-1428, is_bushy 1430-1440, is_base_join 1442-1444 ([None.is_scan()] for empty trees). *)
  Definition jt_is_linear (t : jt) : res bool :=
    match t with JEmpty _ => Raise StateError | JScan _ _ _ => Ok true | JJoin _ o i _ => Ok (jt_is_scan o || jt_is_scan i) end.
  Definition jt_is_bushy (t : jt) : res bool := rmap negb (jt_is_linear t).
  Definition jt_is_base_join (t : jt) : res bool :=
    match t with JEmpty _ => Raise AttributeError | JScan _ _ _ => Ok false | JJoin _ o i _ => Ok (jt_is_scan o && jt_is_scan i) end.
  (** tables 1446-1455, a set. *)
  Fixpoint jt_tables (t : jt) : list T :=
    match t with JEmpty _ => [] | JScan _ x _ => [x] | JJoin _ o i _ => dedup (jt_tables o ++ jt_tables i) end.
  (** plan_depth 1457-1467. *)
  Fixpoint jt_depth (t : jt) : nat :=
    match t with JEmpty _ => 0 | JScan _ _ _ => 1 | JJoin _ o i _ => 1 + Nat.max (jt_depth o) (jt_depth i) end.
  (** __len__ 1624. *)
  Definition jt_len (t : jt) : nat := List.length (jt_tables t).
  (** lookup 1469-1502: [self.children] is only read on nodes whose tables are not the needle but contain it. *)
  Fixpoint jt_lookup (t : jt) (needle : list T) : res (option jt) :=
    if seteqb needle (jt_tables t) then Ok (Some t)
    else if negb (subsetb needle (jt_tables t)) then Ok None
    else match t with
         | JEmpty _ => Raise StateError
         | JScan _ _ _ => Ok None
         | JJoin _ o i _ =>
             rbind (jt_lookup o needle) (fun r => match r with Some s => Ok (Some s) | None => jt_lookup i needle end)
         end.
  (** __contains__ 1621 as the [in] operator sees it: the truth value of the node, __bool__ 1618. *)
  Definition jt_contains (t : jt) (needle : list T) : res bool :=
    rmap (fun r => match r with Some s => negb (jt_empty s) | None => false end) (jt_lookup t needle).
  (** update_annotation 1504-1515: always a plain JoinTree. *)
  Definition jt_update (t : jt) (a : A) : res jt :=
    match t with JEmpty _ => Raise StateError | JScan _ x _ => Ok (JScan false x a) | JJoin _ o i _ => Ok (JJoin false o i a) end.
  (** join_with 1517-1563, _init_empty_join_tree 1591-1604.  [inl] is a join tree, [inr] a table; [None] for an annotation
      that is not given; [inner] is [partner_direction == "inner"]. *)
  Definition jt_join_with (self : jt) (partner : jt + T) (a : A) (pa : option A) (inner : bool) : res jt :=
    match partner with
    | inl (JEmpty _) => Ok self
    | _ =>
        if jt_empty self then
          match partner with
          | inr x => Ok (JScan false x (match pa with Some b => b | None => none end))
          | inl p => match pa with Some b => jt_update p b | None => Ok p end
          end
        else
          rbind (match partner, pa with
                 | inl p, Some b => jt_update p b
                 | inl p, None => Ok p
                 | inr x, _ => Ok (JScan false x (match pa with Some b => b | None => none end))
                 end) (fun p =>
          Ok (if inner then JJoin false self p a else JJoin false p self a))
    end.
  (** iternodes 1569-1575, itertables 1577-1583, iterjoins 1585-1589. *)
  Fixpoint jt_iternodes (t : jt) : list jt :=
    match t with JEmpty _ => [] | JScan _ _ _ => [t] | JJoin _ o i _ => [t] ++ jt_iternodes o ++ jt_iternodes i end.
  Fixpoint jt_itertables (t : jt) : list T :=
    match t with JEmpty _ => [] | JScan _ x _ => [x] | JJoin _ o i _ => jt_itertables o ++ jt_itertables i end.
  Fixpoint jt_iterjoins (t : jt) : list jt :=
    match t with JEmpty _ | JScan _ _ _ => [] | JJoin _ o i _ => jt_iterjoins o ++ jt_iterjoins i ++ [t] end.
  (** __eq__ 1630-1636.  A LogicalJoinTree and a JoinTree are never equal: the method of the subclass is asked first and its
      isinstance test fails. *)
  Section Eq.
    Context (teqb : T -> T -> bool).
    Fixpoint jt_eqb (t u : jt) : bool :=
      match t, u with
      | JEmpty l, JEmpty l' => Bool.eqb l l'
      | JScan l x _, JScan l' y _ => Bool.eqb l l' && teqb x y
      | JJoin l o i _, JJoin l' o' i' _ => Bool.eqb l l' && jt_eqb o o' && jt_eqb i i'
      | _, _ => false
      end.
  End Eq.
  (** The value given to [hash], 1340. *)
  Section Hash.
    Context (htab : T -> nat) (htup : list nat -> nat) (hnone : nat).
    Fixpoint jt_hash (t : jt) : nat :=
      match t with
      | JEmpty _ => htup [hnone; hnone; hnone]
      | JScan _ x _ => htup [htab x; hnone; hnone]
      | JJoin _ o i _ => htup [hnone; jt_hash o; jt_hash i]
      end.
  End Hash.

  (** jointree_from_sequence, opt/_helpers.py 630-639. *)
  Inductive tseq := TTab (x : T) | TPair (o i : tseq).
  Fixpoint jt_from_sequence (s : tseq) : jt :=
    match s with TTab x => JScan false x none | TPair o i => JJoin false (jt_from_sequence o) (jt_from_sequence i) none end.
End JT.
Arguments tseq : clear implicits.

(** ** JSON.  Annotations are JSON values themselves, [JNull] for None. *)
Local Open Scope string_scope.
Definition jtj := jt tref json.
Definition jt_type (lg : bool) : json := JStr (if lg then "join_tree_logical" else "join_tree_generic").
(** __json__ 1606-1618 and 1735-1748; the children of an empty tree are None. *)
Fixpoint jt_json (t : jtj) : json :=
  match t with
  | JEmpty lg => JObj [("type", jt_type lg); ("outer", JNull); ("inner", JNull); ("annotation", JNull)]
  | JScan lg x a => JObj [("type", jt_type lg); ("table", t_json x); ("annotation", a)]
  | JJoin lg o i a => JObj [("type", jt_type lg); ("outer", jt_json o); ("inner", jt_json i); ("annotation", a)]
  end.
(** [if table_json:] *)
Definition jtruthy (j : json) : bool :=
  match j with JNull => false | JBool b => b | JStr s => negb (deqb s "") | JObj l => match l with [] => false | _ => true end end.
Fixpoint jsize (j : json) : nat :=
  match j with JObj l => S (fold_right (fun p n => jsize (snd p) + n) 0 l)%nat | _ => 1%nat end.
(** read_jointree_json, opt/_helpers.py 642-666; [n] bounds the nesting. *)
Fixpoint read_jt (n : nat) (j : json) : res jtj :=
  match n with
  | O => Raise OutOfFuel
  | S n =>
    match j with
    | JObj d =>
        let a := match jget d "annotation" with Some a => a | None => JNull end in
        let tj := match jget d "table" with Some x => x | None => JNull end in
        if jtruthy tj then rbind (load_table_json tj) (fun ot => match ot with Some x => Ok (JScan false x a) | None => Ok (JEmpty false) end)
        else match jget d "outer" with
             | None => Raise KeyError
             | Some jo => rbind (read_jt n jo) (fun o =>
                 match jget d "inner" with
                 | None => Raise KeyError
                 | Some ji => rbind (read_jt n ji) (fun i => Ok (JJoin false o i a))
                 end)
             end
    | _ => Raise AttributeError
    end
  end.
Definition read_jointree_json (j : json) : res jtj := read_jt (jsize j) j.
