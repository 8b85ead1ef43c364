(** Model of the JSON encoder, postbound/util/jsonize.py 34-77 (with json.dumps and dataclasses.asdict of Python), of reading plan
    parameters and nested table sequences, postbound/opt/_helpers.py 144-167, 280-305 with PlanParameterization.__json__, _hints.py
    866-870, and of hashable containers, postbound/util/collections.py 322-354 with HashableDict, util/dicts.py 139-154, 232-241.

    Simplifications: JSON values instead of their texts; numbers are integers; dates and paths are given by their texts.  Named tuples,
    cyclic objects and subclasses of the standard containers are left out. *)
From Coq Require Import List Bool Arith ZArith Ascii String.
From Verif Require Import PyBase Ident_model.
Import ListNotations.

(** ** Encoding *)
Inductive jv := VNull | VBool (b : bool) | VNum (z : Z) | VStr (s : string) | VArr (l : list jv) | VObj (l : list (string * jv)).
(** Keys of dictionaries; all but the first four are not supported by json.dumps *)
Inductive key := KStr (s : string) | KNum (z : Z) | KBool (b : bool) | KNone | KOther (n : nat).
Inductive obj :=
| ONone | OBool (b : bool) | ONum (z : Z) | OStr (s : string)
| OSeq (l : list obj)                                   (* lists and tuples *)
| OSet (l : list obj)                                   (* sets and frozensets, in the order of their iteration *)
| ODict (l : list (key * obj))
| OEnum (v : obj) | OPath (s : string) | OTime (iso : string) | ODelta (seconds : Z)
| OJson (v : obj)                                       (* an object and what its __json__ returns *)
| OData (own : option obj) (fields : list (string * obj))       (* a dataclass, possibly with __json__ *)
| OOther.
Section Encode.
  Context (show : Z -> string).
  (** json.dumps: keys of dictionaries *)
  Definition key_text (k : key) : res string :=
    match k with
    | KStr s => Ok s
    | KNum z => Ok (show z)
    | KBool b => Ok (if b then "true" else "false")%string
    | KNone => Ok "null"%string
    | KOther _ => Raise TypeError
    end.
  (** json.dumps(..., cls=JsonizeEncoder), 41-56.  [inside] is true for what dataclasses.asdict has already converted: it descends
      into dataclasses, lists, tuples and dictionaries. *)
  Fixpoint enc (inside : bool) (o : obj) : res jv :=
    match o with
    | ONone => Ok VNull
    | OBool b => Ok (VBool b)
    | ONum z => Ok (VNum z)
    | OStr s => Ok (VStr s)
    | OSeq l => rmap VArr ((fix go l := match l with [] => Ok [] | x :: r => rbind (enc inside x) (fun j => rmap (cons j) (go r)) end) l)
    | OSet l => rmap VArr ((fix go l := match l with [] => Ok [] | x :: r => rbind (enc false x) (fun j => rmap (cons j) (go r)) end) l)
    | ODict l => rmap VObj ((fix go l := match l with [] => Ok [] | (k, x) :: r =>
                   rbind (key_text k) (fun t => rbind (enc inside x) (fun j => rmap (cons (t, j)) (go r))) end) l)
    | OEnum v => enc false v
    | OPath s => Ok (VStr s)
    | OTime s => Ok (VStr s)
    | ODelta z => Ok (VNum z)
    | OJson v => enc false v
    | OData own fields =>
        match (if inside then None else own) with
        | Some v => match own with Some v => enc false v | None => Raise TypeError end
        | None => rmap VObj ((fix go l := match l with [] => Ok [] | (k, x) :: r =>
                    rbind (enc true x) (fun j => rmap (cons (k, j)) (go r)) end) fields)
        end
    | OOther => Raise TypeError
    end.
  (** to_json 59-67: None stays None. *)
  Definition to_json (o : obj) : res (option jv) := match o with ONone => Ok None | _ => rmap Some (enc false o) end.

  (** ** Plan parameters, _hints.py 866-870: the keys are sets of tables. *)
  Definition tkey : Type := list tref.
  Record params := { pm_cards : list (tkey * Z); pm_workers : list (tkey * Z) }.
  Definition params_obj (p : params) : obj :=
    let d l := ODict (map (fun e : tkey * Z => (KOther (List.length (fst e)), ONum (snd e))) l) in
    OJson (ODict [(KStr "cardinality_hints"%string, d (pm_cards p)); (KStr "parallel_worker_hints"%string, d (pm_workers p))]).
  Definition params_json (p : params) : res (option jv) := to_json (params_obj p).
End Encode.
(** read_plan_params_json 144-167.  [parse] is load_table_json for a text: a table or None.  frozenset() of either is an error. *)
Definition frozenset_of (t : option tref) : res tkey := Raise TypeError.
Definition read_hints (parse : string -> res (option tref)) (o : option jv) : res (list (tkey * Z)) :=
  match o with
  | None => Ok []
  | Some (VObj l) => rmapM (fun e => rbind (parse (fst e)) (fun t => rbind (frozenset_of t) (fun k =>
                       match snd e with VNum z => Ok (k, z) | _ => Raise TypeError end))) l
  | Some _ => Raise AttributeError
  end.
Definition vget (l : list (string * jv)) (k : string) : option jv := dget l k.
Definition read_params (parse : string -> res (option tref)) (j : jv) : res params :=
  match j with
  | VObj l =>
      rbind (read_hints parse (vget l "cardinality_hints")) (fun c =>
      rbind (read_hints parse (vget l "parallel_worker_hints")) (fun w => Ok {| pm_cards := c; pm_workers := w |}))
  | _ => Raise AttributeError
  end.

(** ** Nested table sequences, 280-305 *)
Inductive nested := NTable (t : tref) | NList (l : list nested).
Fixpoint nested_obj (n : nested) : obj :=
  match n with
  | NTable t => OJson (ODict [(KStr "full_name", OStr (t_full t)); (KStr "alias", OStr (t_alias t)); (KStr "virtual", OBool (t_virtual t));
                              (KStr "schema", OStr (t_schema t))]%string)
  | NList l => OSeq (map nested_obj l)
  end.
Definition str_or_empty (o : option jv) : string := match o with Some (VStr s) => s | _ => "" end.
Fixpoint parse_nested (j : jv) : res nested :=
  match j with
  | VArr l => rmap NList ((fix go l := match l with [] => Ok [] | x :: r => rbind (parse_nested x) (fun n => rmap (cons n) (go r)) end) l)
  | VObj l =>
      match vget l "full_name" with
      | None => Raise KeyError
      | Some f => rmap NTable (mk_table (str_or_empty (Some f)) (str_or_empty (vget l "alias")) false "")
      end
  | _ => Raise TypeError
  end.

(** ** Hashable containers *)
Inductive pv :=
| PAtom (n : nat) | PBad (n : nat)                        (* other objects that can or cannot be hashed *)
| PList (l : list pv) | PTuple (l : list pv) | PSet (l : list pv) | PFrozen (l : list pv)
| PDict (l : list (nat * pv)) | PHDict (l : list (nat * pv)).       (* dict and HashableDict; keys are hashable objects *)
(** make_hashable 322-354 *)
Fixpoint make_hashable (v : pv) : pv :=
  match v with
  | PSet l => PFrozen l
  | PList l | PTuple l => PTuple (map make_hashable l)
  | PDict l => PHDict (map (fun e => match e with (k, x) => (k, make_hashable x) end) l)
  | _ => v
  end.
Section Hash.
  Context (ha : nat -> Z) (ht : list Z -> Z) (hf : list Z -> Z).
  (** hash() of Python; for HashableDict hash_dict, dicts.py 139-154: values that are not hashable are converted or skipped. *)
  Fixpoint hash (v : pv) : res Z :=
    match v with
    | PAtom n => Ok (ha n)
    | PTuple l => rmap ht ((fix go l := match l with [] => Ok [] | x :: r => rbind (hash x) (fun h => rmap (cons h) (go r)) end) l)
    | PFrozen l => rmap hf ((fix go l := match l with [] => Ok [] | x :: r => rbind (hash x) (fun h => rmap (cons h) (go r)) end) l)
    | PHDict l =>
        rbind ((fix go l := match l with [] => Ok [] | (_, x) :: r =>
                 let tup l := (fix go l := match l with [] => Ok [] | x :: r => rbind (hash x) (fun h => rmap (cons h) (go r)) end) l in
                 match x with
                 | PList l | PSet l => rbind (rmap ht (tup l)) (fun h => rmap (cons h) (go r))
                 | PDict l => rbind ((fix god l := match l with [] => Ok [] | (_, x) :: r => rbind (hash x) (fun h => rmap (cons h) (god r)) end) l)
                                (fun hs => rmap (cons (ht [ht (map (fun e => ha (fst e)) l); ht hs])) (go r))   (* simplified: nested values hashable *)
                 | PBad _ => go r
                 | _ => rbind (hash x) (fun h => rmap (cons h) (go r))
                 end end) l)
          (fun hs => Ok (ht [ht (map (fun e => ha (fst e)) l); ht hs]))
    | PBad _ | PList _ | PSet _ | PDict _ => Raise TypeError
    end.
End Hash.
