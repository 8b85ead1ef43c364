(** Specification vocabulary for C29, C30, C62, C63 and C64: what a history of assignments means for each table, join and
    intermediate, independent of the dictionaries. *)
From Coq Require Import List Bool Arith.
From Verif Require Import PyBase FSet Hint_model.
Import ListNotations.

(** One call on an assignment: [add] or [set_operator_enabled_globally]. *)
Inductive call := KAdd (o : operand) | KSet (o : physop) (enabled overwrite : bool).
Definition poa_call (p : poa) (c : call) : res poa := match c with KAdd o => poa_add p o | KSet o en ow => Ok (poa_set p o en ow) end.
Fixpoint poa_calls (p : poa) (cs : list call) : res poa := match cs with [] => Ok p | c :: r => rbind (poa_call p c) (fun q => poa_calls q r) end.

(** The operator a call assigns to the scan of [t], to the join of [l], to the intermediate [l]. *)
Definition scan_entry (t : tbl) (c : call) : option sassign :=
  match c with
  | KAdd (OScan id op t') => if t' =? t then Some (mksa id op t' None) else None
  | KAdd (OSA a) => if sa_tab a =? t then Some a else None
  | _ => None
  end.
Definition join_entry (l : list tbl) (c : call) : option jassign :=
  match c with
  | KAdd (OJoin id op tabs) => if seteqb tabs l then Some (mkja id op (mkfs tabs) None None) else None
  | KAdd (OJA a) => if seteqb (ja_join a) l then Some a else None
  | _ => None
  end.
Definition inter_entry (l : list tbl) (c : call) : option nat :=
  match c with KAdd (OInter op tabs) => if seteqb tabs l then Some op else None | _ => None end.
(** Disabling an operator with overwriting removes the entries that use it. *)
Definition removes (kind : nat -> physop) (op : nat) (c : call) : bool :=
  match c with KSet o false true => deqb o (kind op) | _ => false end.
(** What is assigned after the calls: the last assignment, unless it was removed later. *)
Fixpoint after {X} (entry : call -> option X) (gone : X -> call -> bool) (cur : option X) (cs : list call) : option X :=
  match cs with
  | [] => cur
  | c :: r => after entry gone (match entry c with Some x => Some x | None => match cur with Some x => if gone x c then None else Some x | None => None end end) r
  end.
Definition keeps {X} (x : X) (c : call) : bool := false.
(** The scans and joins of well-formed assignment objects. *)
Definition wf_join (a : jassign) : Prop :=
  ja_join a = mkfs (ja_join a) /\ ja_join a <> [] /\
  match ja_dir a with Some (i, o) => i <> [] /\ o <> [] /\ i = mkfs i /\ o = mkfs o /\ ja_join a = mkfs (i ++ o) /\ 2 <= List.length (ja_join a) | None => True end.
Definition wf_call (c : call) : Prop := match c with KAdd (OJA a) => wf_join a | _ => True end.
(** No call removes fine-grained entries. *)
Definition no_overwrite (c : call) : Prop := match c with KSet _ false true => False | _ => True end.

(** Well-formed assignments: dictionaries have unique keys, entries are stored under the table(s) they belong to. *)
Record poa_wf (p : poa) : Prop := mkwf {
  wf_glob : dwf (glob p); wf_joins : dwf (joins p); wf_inters : dwf (inters p); wf_scans : dwf (scans p);
  wf_jkeys : forall k a, In (k, a) (joins p) -> k = ja_join a /\ wf_join a;
  wf_skeys : forall k a, In (k, a) (scans p) -> k = sa_tab a
}.

(** Assignments in which every object has its own identity. *)
Definition coherent (p q : poa) : Prop :=
  (forall a b, In a (dvalues (scans p)) -> In b (dvalues (scans q)) -> sa_id a = sa_id b -> a = b) /\
  (forall a b, In a (dvalues (joins p)) -> In b (dvalues (joins q)) -> ja_id a = ja_id b -> a = b).
(** Everything that can be seen of an assignment object. *)
Definition sa_content (a : sassign) := (sa_op a, sa_tab a, sa_par a).
Definition ja_content (a : jassign) := (ja_op a, ja_join a, ja_dir a, ja_par a).
Definition f_content (f : found) := match f with inl a => inl (sa_content a) | inr a => inr (ja_content a) end.

(** ** Programs with several assignments: every variable denotes a value of its own *)
Definition s_step (e : nat -> poa) (c : cmd) : nat -> poa :=
  match c with
  | CNew v => upd e v poa_empty
  | CAdd v o => match poa_add (e v) o with Ok p => upd e v p | Raise _ => e end
  | CSet v o en ow => upd e v (poa_set (e v) o en ow)
  | CClone v w => upd e w (e v)
  | CMerge u v w => upd e w (poa_merge (e u) (e v))
  | CGlobal v w => upd e w (poa_global_only (e v))
  end.
Definition s_run (e : nat -> poa) (cs : list cmd) : nat -> poa := fold_left s_step cs e.
Definition cmd_vars (c : cmd) : list nat :=
  match c with CNew v | CAdd v _ | CSet v _ _ _ => [v] | CClone v w | CGlobal v w => [v; w] | CMerge u v w => [u; v; w] end.
