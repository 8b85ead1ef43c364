(** Model of the query cache, postbound/db/_db.py 257-319, 364-690 and postbound/postgres.py 694-773, 3733-3840.

    Query texts are strings.  The database is an unchanging function from texts to results.  Result sets live in a heap, because the
    cache hands out the very lists it stores.  Numbers stand for all numeric JSON values; dates, times and timestamps are given
    by their ISO texts, [iso] says which texts are valid; intervals are given in microseconds, their conversion to and from
    floating point seconds is taken to be exact. *)
From Coq Require Import List Bool Arith ZArith String.
From Verif Require Import PyBase Ident_model.
Import ListNotations.
Open Scope string_scope.

Inductive dkind := KDatetime | KDate | KTime.
Inductive val :=
| VNull | VBool (b : bool) | VNum (n : Z) | VStr (s : string)
| VTemporal (k : dkind) (iso : string) | VDelta (us : Z)
| VList (l : list val) | VDict (d : list (string * val))
| VOpaque (n : nat). (* Decimal, UUID, bytes, ...: not JSON serializable *)
Inductive json := JNull | JBool (b : bool) | JNum (n : Z) | JStr (s : string) | JList (l : list json) | JObj (d : list (string * json)).
(** Rows are tuples or, after reading them from JSON, lists. *)
Inductive rkind := Tuple | PyList.
Definition vrow : Type := rkind * list val.
Definition rset : Type := list vrow.

Section MapR.
  Context {A B : Type} (f : A -> res B).
  Fixpoint mapR (l : list A) : res (list B) := match l with [] => Ok [] | x :: l => rbind (f x) (fun y => rmap (cons y) (mapR l)) end.
  Fixpoint mapV (l : list (string * A)) : res (list (string * B)) := match l with [] => Ok [] | (k, x) :: l => rbind (f x) (fun y => rmap (cons (k, y)) (mapV l)) end.
End MapR.

(** _DBCacheJsonEncoder 289-299 *)
Definition tag (k : dkind) : string := match k with KDatetime => "$datetime" | KDate => "$date" | KTime => "$time" end.
Fixpoint encode (v : val) : res json :=
  match v with
  | VNull => Ok JNull
  | VBool b => Ok (JBool b)
  | VNum n => Ok (JNum n)
  | VStr s => Ok (JStr s)
  | VTemporal k s => Ok (JObj [(tag k, JStr s)])
  | VDelta us => Ok (JObj [("$timedelta", JNum us)])
  | VList l => rmap JList (mapR encode l)
  | VDict d => rmap JObj (mapV encode d)
  | VOpaque _ => Raise TypeError
  end.
Section Decode.
  Context (iso : dkind -> string -> bool).
  Definition from_iso (k : dkind) (v : val) : res val := match v with VStr s => if iso k s then Ok (VTemporal k s) else Raise ValueError | _ => Raise TypeError end.
  (** object_hook 307-319 *)
  Definition object_hook (d : list (string * val)) : res val :=
    match dget d "$datetime" with
    | Some v => from_iso KDatetime v
    | None => match dget d "$date" with
      | Some v => from_iso KDate v
      | None => match dget d "$time" with
        | Some v => from_iso KTime v
        | None => match dget d "$timedelta" with
          | Some (VNum us) => Ok (VDelta us)
          | Some _ => Raise TypeError
          | None => Ok (VDict d)
          end
        end
      end
    end.
  Fixpoint decode (j : json) : res val :=
    match j with
    | JNull => Ok VNull
    | JBool b => Ok (VBool b)
    | JNum n => Ok (VNum n)
    | JStr s => Ok (VStr s)
    | JList l => rmap VList (mapR decode l)
    | JObj d => rbind (mapV decode d) object_hook
    end.
End Decode.

(** What a caller sees: a result set, the values of its only column, its only row, its only value, or None. *)
Inductive view := WRows (r : rset) | WVals (l : list val) | WRow (r : vrow) | WVal (v : val) | WNone.
(** simplify_result_set 257-286 *)
Definition simplify (o : option rset) : res view :=
  match o with
  | None | Some [] => Ok (WRows [])
  | Some (((k, vs) :: rest) as rs) =>
      if (List.length vs =? 1)%nat
      then rmap (fun l => match l with [v] => WVal v | _ => WVals l end) (rmapM (fun r : vrow => match snd r with v :: _ => Ok v | [] => Raise IndexError end) rs)
      else Ok (match rest with [] => WRow (k, vs) | _ => WRows rs end)
  end.
Definition unsimplified (o : option rset) : view := match o with None => WNone | Some rs => WRows rs end.

(** The cache file: missing, unreadable, or a JSON object. *)
Inductive cfile := Missing | Corrupt | Stored (d : list (string * json)).
(** Results are references into the heap; statements without a result yield None. *)
Record dbstate := mkdb { h_heap : list rset; h_cache : dict string (option nat); h_enabled : bool; h_file : cfile }.

Section Cache.
  Context (iso : dkind -> string -> bool) (db : string -> res (option rset)).
  Definition deref (s : dbstate) (o : option nat) : option rset := match o with None => None | Some a => nth_error (h_heap s) a end.
  (** _inflate_query_cache 635-662: fills the heap and the cache from the file.  Rows are JSON arrays; anything else in the file
      is left out of the model. *)
  Definition decode_result (j : json) : res (option rset) :=
    match j with
    | JNull => Ok None
    | JList rows => rmap Some (mapR (fun r => match r with JList vs => rmap (fun vs => (PyList, vs)) (mapR (decode iso) vs) | _ => Raise OtherError end) rows)
    | _ => Raise OtherError
    end.
  Fixpoint load (d : list (string * json)) (heap : list rset) (cache : dict string (option nat)) : res (list rset * dict string (option nat)) :=
    match d with
    | [] => Ok (heap, cache)
    | (q, j) :: d => rbind (decode_result j) (fun o => match o with None => load d heap (dset cache q None) | Some rs => load d (heap ++ [rs])%list (dset cache q (Some (List.length heap))) end)
    end.
  Definition inflate (s : dbstate) : res dbstate :=
    match h_cache s with
    | [] => match h_file s with
      | Stored d => rmap (fun hc => mkdb (fst hc) (snd hc) (h_enabled s) (h_file s)) (load d (h_heap s) [])
      | _ => Ok s
      end
    | _ => Ok s
    end.
  (** _set_cache_enabled 615-627, reset_cache 575-577 *)
  Definition set_enabled (s : dbstate) (b : bool) : res dbstate :=
    rmap (fun s => mkdb (h_heap s) (h_cache s) b (h_file s)) (if b then inflate s else Ok s).
  Definition reset (s : dbstate) : dbstate := mkdb (h_heap s) [] (h_enabled s) (h_file s).
  (** execute_query 694-773 for query texts; [raw] without a timeout.  Failing queries are not cached. *)
  Definition see (raw : bool) (o : option rset) : res view := if raw then Ok (unsimplified o) else simplify o.
  Definition use_cache (s : dbstate) (flag : option bool) : bool := match flag with Some b => b | None => h_enabled s end.
  Definition exec (s : dbstate) (q : string) (flag : option bool) (raw : bool) : dbstate * res view :=
    let cached := use_cache s flag in
    match (if cached then dget (h_cache s) q else None) with
    | Some o => (s, see raw (deref s o))
    | None =>
        match db q with
        | Raise e => (s, Raise e)
        | Ok o =>
            let s := match o with None => s | Some rs => mkdb (h_heap s ++ [rs])%list (h_cache s) (h_enabled s) (h_file s) end in
            let r := match o with None => None | Some _ => Some (List.length (h_heap s) - 1) end in
            if cached
            then match inflate s with
                 | Raise e => (s, Raise e)
                 | Ok s => (mkdb (h_heap s) (dset (h_cache s) q r) (h_enabled s) (h_file s), see raw o)
                 end
            else (s, see raw o)
        end
    end.
  (** execute_query of the timeout executor, 3733-3840, for a query text that finishes in time: the global switch is ignored, and
      a cached result is returned as it is. *)
  Definition exec_timeout (s : dbstate) (q : string) (flag : option bool) (raw : bool) : dbstate * res view :=
    match (if match flag with Some b => b | None => false end then dget (h_cache s) q else None) with
    | Some o => (s, Ok (unsimplified (deref s o)))
    | None => match db q with
              | Raise e => (s, Raise e)
              | Ok None => (s, Raise OtherError) (* fetchall() without a result *)
              | Ok (Some rs) => (s, see raw (Some rs))
              end
    end.
  (** _store_query_cache 664-673, run at exit: an object that cannot be serialized leaves a truncated file behind. *)
  Definition encode_result (o : option rset) : res json :=
    match o with None => Ok JNull | Some rs => rmap JList (rmapM (fun r : vrow => rmap JList (mapR encode (snd r))) rs) end.
  Definition store (s : dbstate) : cfile :=
    match rmapM (fun e => rmap (fun j => (fst e, j)) (encode_result (deref s (snd e)))) (h_cache s) with Ok d => Stored d | Raise _ => Corrupt end.
  (** A new connection: __init__ 364-371 *)
  Definition connect (enabled : bool) (f : cfile) : res dbstate :=
    let s := mkdb [] [] enabled f in if enabled then inflate s else Ok s.

  Inductive cop := Exec (q : string) (flag : option bool) (raw : bool) | Enable (b : bool) | ResetCache | Mutate (a : nat) (rs : rset).
  Fixpoint update {A} (l : list A) (i : nat) (x : A) : list A := match l, i with [], _ => [] | _ :: l, 0 => x :: l | y :: l, S i => y :: update l i x end.
  Definition step (s : dbstate) (o : cop) : dbstate * option (res view) :=
    match o with
    | Exec q flag raw => let '(s, r) := exec s q flag raw in (s, Some r)
    | Enable b => match set_enabled s b with Ok s => (s, None) | Raise e => (s, Some (Raise e)) end
    | ResetCache => (reset s, None)
    | Mutate a rs => (mkdb (update (h_heap s) a rs) (h_cache s) (h_enabled s) (h_file s), None)
    end.
  Fixpoint run (s : dbstate) (ops : list cop) : dbstate * list (option (res view)) :=
    match ops with [] => (s, []) | o :: ops => let '(s, r) := step s o in let '(s, rs) := run s ops in (s, r :: rs) end.
End Cache.
