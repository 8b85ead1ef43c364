(** Model of the conversion of dates and timestamps, postbound/postgres.py 525-627 (_PsycopgDateDumper, _PsycopgDateLoader, the dumpers and
    loaders for timestamps) and their registration 1207-1221 (_init_connection).

    Simplifications: dates are day numbers, timestamps are numbers of microseconds (aware ones in UTC), from [lo] to [hi] in Python; texts are identified
    with the values they denote.  From psycopg: a loader rejects values beyond the range of Python with the DataErrors "... too large" and "... too small";
    of several dumpers registered for one class the last one is used; DatetimeDumper.upgrade hands objects without a time zone to psycopg's own
    DatetimeNoTzDumper.  Objects with and without a time zone are never equal in Python. *)
From Coq Require Import ZArith Bool.
From Verif Require Import PyBase.
Local Open Scope Z_scope.

(** Values of the server: any finite value and two infinities. *)
Inductive server_value := PosInf | NegInf | Fin (z : Z).
Section DT.
  Context (lo hi : Z).
  (** psycopg: super().load and super().dump *)
  Inductive loaded := Got (z : Z) | TooLarge | TooSmall.
  Definition plain_load (z : Z) : loaded := if hi <? z then TooLarge else if z <? lo then TooSmall else Got z.
  (** _PsycopgDateLoader.load 546-560, _PsycopgTimestampLoader.load 574-588, _PsycopgTimestampTzLoader.load 602-616 *)
  Definition load (v : server_value) : res Z :=
    match v with
    | PosInf => Ok hi
    | NegInf => Ok lo
    | Fin z => match plain_load z with Got z => Ok z | TooLarge => Ok hi | TooSmall => Raise OtherError end
    end.
  (** _PsycopgDateDumper.dump 536-542 *)
  Definition dump_date (z : Z) : server_value := if z =? hi then PosInf else if z =? lo then NegInf else Fin z.
  (** Objects of datetime.datetime *)
  Record stamp := mkStamp { aware : bool; at_ : Z }.
  Definition stamp_eq (a b : stamp) : bool := eqb (aware a) (aware b) && (at_ a =? at_ b).
  Definition naive_max : stamp := mkStamp false hi.
  Definition naive_min : stamp := mkStamp false lo.
  (** the dump method of both timestamp dumpers 564-570, 592-598 *)
  Definition dump_custom (s : stamp) : server_value := if stamp_eq s naive_max then PosInf else if stamp_eq s naive_min then NegInf else Fin (at_ s).
  (** 1207-1214: _PsycopgTimestampTzDumper is registered last; naive objects are passed on to psycopg's own dumper *)
  Definition dump_stamp (s : stamp) : server_value := if aware s then dump_custom s else Fin (at_ s).
  Definition load_stamp (tz : bool) (v : server_value) : res stamp := rmap (mkStamp tz) (load v).
End DT.
