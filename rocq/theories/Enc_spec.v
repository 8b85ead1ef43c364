(** What JSON representations of objects are, and what hashable counterparts are. *)
From Coq Require Import List Bool Arith ZArith Ascii String.
From Verif Require Import PyBase Ident_model Enc_model.
Import ListNotations.

Section Spec.
  Context (show : Z -> string).
  (** The text of a key, if JSON supports it *)
  Inductive key_name : key -> string -> Prop :=
  | kn_str s : key_name (KStr s) s | kn_num z : key_name (KNum z) (show z)
  | kn_true : key_name (KBool true) "true" | kn_false : key_name (KBool false) "false" | kn_none : key_name KNone "null".
  (** The JSON value for an object: objects with __json__ are given by what it returns, also if they are dataclasses. *)
  Inductive represents : obj -> jv -> Prop :=
  | r_none : represents ONone VNull
  | r_bool b : represents (OBool b) (VBool b)
  | r_num z : represents (ONum z) (VNum z)
  | r_str s : represents (OStr s) (VStr s)
  | r_seq l js : Forall2 represents l js -> represents (OSeq l) (VArr js)
  | r_set l js : Forall2 represents l js -> represents (OSet l) (VArr js)
  | r_dict l js : Forall2 (fun e f => key_name (fst e) (fst f) /\ represents (snd e) (snd f)) l js -> represents (ODict l) (VObj js)
  | r_enum v j : represents v j -> represents (OEnum v) j
  | r_path s : represents (OPath s) (VStr s)
  | r_time s : represents (OTime s) (VStr s)
  | r_delta z : represents (ODelta z) (VNum z)
  | r_json v j : represents v j -> represents (OJson v) j
  | r_own v fs j : represents v j -> represents (OData (Some v) fs) j
  | r_data fs js : Forall2 (fun e f => fst e = fst f /\ represents (snd e) (snd f)) fs js -> represents (OData None fs) (VObj js).
End Spec.
(** No dataclass with its own __json__ occurs within another dataclass ([true]: we are within one), unless within a set or an object
    with __json__. *)
Inductive tidy : bool -> obj -> Prop :=
| td_none b : tidy b ONone | td_bool b x : tidy b (OBool x) | td_num b z : tidy b (ONum z) | td_str b s : tidy b (OStr s)
| td_seq b l : Forall (tidy b) l -> tidy b (OSeq l)
| td_set b l : Forall (tidy false) l -> tidy b (OSet l)
| td_dict b l : Forall (fun e => tidy b (snd e)) l -> tidy b (ODict l)
| td_enum b v : tidy false v -> tidy b (OEnum v)
| td_path b s : tidy b (OPath s) | td_time b s : tidy b (OTime s) | td_delta b z : tidy b (ODelta z)
| td_json b v : tidy false v -> tidy b (OJson v)
| td_own v fs : tidy false v -> tidy false (OData (Some v) fs)
| td_data b fs : Forall (fun e => tidy true (snd e)) fs -> tidy b (OData None fs)
| td_other b : tidy b OOther.

(** Tables that are given by name and alias alone *)
Inductive named_only : nested -> Prop :=
| no_table t : (t_full t <> "" \/ t_alias t <> "")%string -> t_virtual t = false -> t_schema t = ""%string -> named_only (NTable t)
| no_list l : Forall named_only l -> named_only (NList l).
(** The same tree with tables of the same name and alias *)
Inductive same_names : nested -> nested -> Prop :=
| sn_table t u : t_full t = t_full u -> t_alias t = t_alias u -> same_names (NTable t) (NTable u)
| sn_list l m : Forall2 same_names l m -> same_names (NList l) (NList m).
Inductive named : nested -> Prop :=
| nm_table t : (t_full t <> "" \/ t_alias t <> "")%string -> named (NTable t)
| nm_list l : Forall named l -> named (NList l).

(** The hashable counterpart of a container, as documented *)
Inductive counterpart : pv -> pv -> Prop :=
| cp_atom n : counterpart (PAtom n) (PAtom n)
| cp_bad n : counterpart (PBad n) (PBad n)
| cp_list l m : Forall2 counterpart l m -> counterpart (PList l) (PTuple m)
| cp_tuple l m : Forall2 counterpart l m -> counterpart (PTuple l) (PTuple m)
| cp_set l : counterpart (PSet l) (PFrozen l)
| cp_frozen l : counterpart (PFrozen l) (PFrozen l)
| cp_dict l m : Forall2 (fun e f => fst e = fst f /\ counterpart (snd e) (snd f)) l m -> counterpart (PDict l) (PHDict m)
| cp_hdict l : counterpart (PHDict l) (PHDict l).
(** Values that Python can hash: no lists, sets, dictionaries and other unhashable objects in tuples and frozensets *)
Inductive hashable : pv -> Prop :=
| ha_atom n : hashable (PAtom n)
| ha_tuple l : Forall hashable l -> hashable (PTuple l)
| ha_frozen l : Forall hashable l -> hashable (PFrozen l)
| ha_hdict l : Forall (fun e => hashable (snd e)) l -> hashable (PHDict l).
(** Values that Python cannot hash: mutable containers, and tuples and frozensets with such elements *)
Inductive unhashable : pv -> Prop :=
| uh_object n : unhashable (PBad n)
| uh_list l : unhashable (PList l)
| uh_set l : unhashable (PSet l)
| uh_dict l : unhashable (PDict l)
| uh_tuple l x : In x l -> unhashable x -> unhashable (PTuple l)
| uh_frozen l x : In x l -> unhashable x -> unhashable (PFrozen l).
(** Containers of hashable objects; the elements of sets are always hashable. *)
Inductive container : pv -> Prop :=
| ct_atom n : container (PAtom n)
| ct_list l : Forall container l -> container (PList l)
| ct_tuple l : Forall container l -> container (PTuple l)
| ct_set l : Forall hashable l -> container (PSet l)
| ct_frozen l : Forall hashable l -> container (PFrozen l)
| ct_dict l : Forall (fun e => container (snd e)) l -> container (PDict l)
| ct_hdict l : Forall (fun e => hashable (snd e)) l -> container (PHDict l).
