(** What a transparent query cache should answer. *)
From Coq Require Import List Bool Arith ZArith String.
From Verif Require Import PyBase Ident_model Cache_model.
Import ListNotations.
Open Scope string_scope.

(** The answer without any cache. *)
Definition direct (db : string -> res (option rset)) (q : string) (raw : bool) : res view :=
  match db q with Raise e => Raise e | Ok o => if raw then Ok (unsimplified o) else simplify o end.
Definition answer_of (db : string -> res (option rset)) (o : cop) : option (res view) :=
  match o with Exec q _ raw => Some (direct db q raw) | _ => None end.
(** The caller does not modify results. *)
Definition polite (o : cop) : Prop := match o with Mutate _ _ => False | _ => True end.

(** The same up to the difference between tuples and lists of a row. *)
Definition relist (r : rset) : rset := map (fun x => (PyList, snd x)) r.
Definition relist_view (v : view) : view := match v with WRows r => WRows (relist r) | WRow r => WRow (PyList, snd r) | _ => v end.

(** Values that come back from the file as they were: no dictionaries that look like encoded dates, valid dates only. *)
Section Clean.
  Context (iso : dkind -> string -> bool).
  Definition special : list string := ["$datetime"; "$date"; "$time"; "$timedelta"].
  Fixpoint clean (v : val) : Prop :=
    match v with
    | VTemporal k s => iso k s = true
    | VList l => (fix all l := match l with [] => True | x :: l => clean x /\ all l end) l
    | VDict d => (forall k, In k special -> ~ In k (map fst d)) /\ (fix all d := match d with [] => True | (_, x) :: d => clean x /\ all d end) d
    | _ => True
    end.
End Clean.

(** Several sessions in a row, each with its own connection; at the end of a session, the cache may be stored.  Answers of all
    sessions. *)
Section Sessions.
  Context (iso : dkind -> string -> bool) (db : string -> res (option rset)).
  Fixpoint sessions (f : cfile) (l : list (bool * list cop * bool)) : list (option (res view)) :=
    match l with
    | [] => []
    | (enabled, ops, stored) :: l =>
        match connect iso enabled f with
        | Raise e => [Some (Raise e)]
        | Ok s => let '(s, answers) := run iso db s ops in (answers ++ sessions (if stored then store s else h_file s) l)%list
        end
    end.
End Sessions.

(** What simplified results look like to Python code: arrays are lists. *)
Inductive py := PList (l : list py) | PTuple (l : list py) | PAtom (v : val).
Fixpoint py_val (v : val) : py := match v with VList l => PList (map py_val l) | v => PAtom v end.
Definition py_row (r : vrow) : py := match fst r with Tuple => PTuple (map py_val (snd r)) | PyList => PList (map py_val (snd r)) end.
Definition py_view (w : view) : py :=
  match w with WRows rs => PList (map py_row rs) | WVals l => PList (map py_val l) | WRow r => py_row r | WVal v => py_val v | WNone => PAtom VNull end.
(** Result sets from the database: tuples of equal length without arrays. *)
Definition flat (v : val) : Prop := match v with VList _ => False | _ => True end.
Definition plain (rs : rset) : Prop := exists cols, forall r, In r rs -> fst r = Tuple /\ List.length (snd r) = cols /\ Forall flat (snd r).
