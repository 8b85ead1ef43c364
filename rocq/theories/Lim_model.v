(* LIMIT / OFFSET clauses and their textual forms.

   postbound/qal/_qal.py 7552-7658          Limit
   postbound/qal/_formatter.py 570-622      _quick_format_limit
   postbound/postgres.py 2163-2190          PostgresLimitClause *)
From Coq Require Import List ZArith String Ascii Bool DecimalString Decimal DecimalZ.
From Verif Require Import PyBase Ident_model.
Import ListNotations.
Open Scope string_scope.

(* FetchDirection, _qal.py 7548 *)
Inductive direction := First | Next | Prior | Last.

(* Limit, _qal.py 7576-7590.  Both numbers are Python ints (no range check). *)
Record limit := mkLimit { l_limit : option Z; l_offset : option Z; l_dir : direction }.

(* Limit.__init__, _qal.py 7576-7590 *)
Definition limit_init (lim off : option Z) (d : direction) : res limit :=
  match lim, off with
  | None, None => Raise ValueError
  | _, _ => Ok (mkLimit lim off d)
  end.

(* str(int) *)
Definition num (z : Z) : string := NilZero.string_of_int (Z.to_int z).

Definition upper (d : direction) : string :=
  match d with First => "FIRST" | Next => "NEXT" | Prior => "PRIOR" | Last => "LAST" end.

(* Limit.__str__, _qal.py 7644-7658 *)
Definition limit_str (l : limit) : string :=
  let offset_str := match l_offset l with Some o => "OFFSET " ++ num o ++ " ROWS" | None => "" end in
  let limit_str := match l_limit l with
                   | Some n => "FETCH " ++ upper (l_dir l) ++ " " ++ num n ++ " ROWS ONLY"
                   | None => "" end in
  if negb (offset_str =? "") && negb (limit_str =? "") then offset_str ++ " " ++ limit_str
  else if negb (offset_str =? "") then offset_str
  else if negb (limit_str =? "") then limit_str
  else "".

(* the truth value of an optional int *)
Definition truthy (z : option Z) : bool :=
  match z with Some n => negb (n =? 0)%Z | None => false end.

(* the number printed by an f-string, only evaluated for truthy values *)
Definition onum (z : option Z) : string := match z with Some n => num n | None => "None" end.

(* SqlDialect, _formatter.py 44: "vanilla", "postgres" or something else *)
Inductive flavor := Vanilla | Postgres | OtherFlavor.

(* _quick_format_limit, _formatter.py 570-622 *)
Definition quick_format (l : limit) (f : flavor) : list string :=
  match f, l_dir l with
  | Vanilla, d =>
      if truthy (l_limit l) && truthy (l_offset l) then
        ["FETCH " ++ upper d ++ " " ++ onum (l_limit l) ++ " ROWS ONLY"; "OFFSET " ++ onum (l_offset l) ++ " ROWS"]
      else if truthy (l_limit l) then ["FETCH " ++ upper d ++ " " ++ onum (l_limit l) ++ " ROWS ONLY"]
      else if truthy (l_offset l) then ["OFFSET " ++ onum (l_offset l) ++ " ROWS"]
      else []
  | Postgres, (First | Next) =>
      if truthy (l_limit l) && truthy (l_offset l) then
        ["LIMIT " ++ onum (l_limit l); "OFFSET " ++ onum (l_offset l)]
      else if truthy (l_limit l) then ["LIMIT " ++ onum (l_limit l)]
      else if truthy (l_offset l) then ["OFFSET " ++ onum (l_offset l)]
      else []
  | Postgres, (Prior | Last) => [limit_str l]
  | OtherFlavor, _ => [limit_str l]
  end.

(* "\n".join(pretty_query_parts), _formatter.py 1138, restricted to the parts
   of the LIMIT clause, which is the last clause of a query *)
Definition newline : string := String (ascii_of_nat 10) "".
Definition quick_text (l : limit) (f : flavor) : string := String.concat newline (quick_format l f).

(* PostgresLimitClause.__str__, postgres.py 2179-2190 *)
Definition pg_str (l : limit) : string :=
  match l_dir l with
  | First =>
      if truthy (l_limit l) && truthy (l_offset l) then
        "LIMIT " ++ onum (l_limit l) ++ " OFFSET " ++ onum (l_offset l)
      else if truthy (l_limit l) then "LIMIT " ++ onum (l_limit l)
      else if truthy (l_offset l) then "OFFSET " ++ onum (l_offset l)
      else ""
  | _ => limit_str l
  end.
