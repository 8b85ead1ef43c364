(* What LIMIT / OFFSET clauses mean: the SQL text is read by a small tokenizer
   and a grammar for the SQL standard and for PostgreSQL, and evaluated on a
   list of rows.  Nothing here refers to the functions that print clauses. *)
From Coq Require Import List ZArith String Ascii Bool DecimalString Decimal DecimalZ.
From Verif Require Import PyBase Ident_model.
Import ListNotations.
Open Scope string_scope.

(* None: a database error (negative number) or a syntax error *)
Definition skip {A} (off : option Z) (rows : list A) : option (list A) :=
  match off with
  | None => Some rows
  | Some o => if (o <? 0)%Z then None else Some (skipn (Z.to_nat o) rows)
  end.
Definition take {A} (lim : option Z) (rows : list A) : option (list A) :=
  match lim with
  | None => Some rows
  | Some n => if (n <? 0)%Z then None else Some (firstn (Z.to_nat n) rows)
  end.

(* the rows a LIMIT / OFFSET pair asks for *)
Definition window {A} (lim off : option Z) (rows : list A) : option (list A) :=
  match skip off rows with Some r => take lim r | None => None end.

(* white space separated words *)
Definition is_space (c : ascii) : bool := (Ascii.eqb c " " || Ascii.eqb c (ascii_of_nat 10))%bool.
Definition push (w : string) (ws : list string) : list string := if w =? "" then ws else w :: ws.
Fixpoint words_from (w : string) (s : string) : list string :=
  match s with
  | EmptyString => push w []
  | String c s' => if is_space c then push w (words_from "" s') else words_from (w ++ String c "") s'
  end.
Definition words (s : string) : list string := words_from "" s.

Definition number (w : string) : option Z := option_map Z.of_int (NilZero.int_of_string w).

Definition fetch_word (d : string) : bool := ((d =? "FIRST") || (d =? "NEXT"))%bool.

(* One item of a clause: (limit, offset, remaining words). *)
Inductive item := ILimit (n : Z) | IOffset (n : Z).

(* the SQL standard: OFFSET n ROWS, FETCH FIRST n ROWS ONLY *)
Definition std_item (ws : list string) : option (item * list string) :=
  match ws with
  | "OFFSET" :: n :: "ROWS" :: rest => option_map (fun z => (IOffset z, rest)) (number n)
  | "FETCH" :: d :: n :: "ROWS" :: "ONLY" :: rest =>
      if fetch_word d then option_map (fun z => (ILimit z, rest)) (number n) else None
  | _ => None
  end.

(* PostgreSQL also knows LIMIT n and OFFSET n *)
Definition pg_item (ws : list string) : option (item * list string) :=
  match ws with
  | "LIMIT" :: n :: rest => option_map (fun z => (ILimit z, rest)) (number n)
  | "OFFSET" :: n :: "ROWS" :: rest => option_map (fun z => (IOffset z, rest)) (number n)
  | "OFFSET" :: n :: rest => option_map (fun z => (IOffset z, rest)) (number n)
  | "FETCH" :: d :: n :: "ROWS" :: "ONLY" :: rest =>
      if fetch_word d then option_map (fun z => (ILimit z, rest)) (number n) else None
  | _ => None
  end.

(* The SQL standard wants the offset first. *)
Definition std_clause (ws : list string) : option (option Z * option Z) :=
  match ws with
  | [] => Some (None, None)
  | _ => match std_item ws with
         | Some (ILimit n, []) => Some (Some n, None)
         | Some (IOffset o, []) => Some (None, Some o)
         | Some (IOffset o, rest) =>
             match std_item rest with
             | Some (ILimit n, []) => Some (Some n, Some o)
             | _ => None
             end
         | _ => None
         end
  end.

(* PostgreSQL accepts both orders. *)
Definition pg_clause (ws : list string) : option (option Z * option Z) :=
  match ws with
  | [] => Some (None, None)
  | _ => match pg_item ws with
         | Some (ILimit n, []) => Some (Some n, None)
         | Some (IOffset o, []) => Some (None, Some o)
         | Some (IOffset o, rest) =>
             match pg_item rest with
             | Some (ILimit n, []) => Some (Some n, Some o)
             | _ => None
             end
         | Some (ILimit n, rest) =>
             match pg_item rest with
             | Some (IOffset o, []) => Some (Some n, Some o)
             | _ => None
             end
         | _ => None
         end
  end.

Definition eval {A} (c : option (option Z * option Z)) (rows : list A) : option (list A) :=
  match c with Some (l, o) => window l o rows | None => None end.

(* executing the text at the end of a query that has the given rows *)
Definition run_std {A} (text : string) (rows : list A) : option (list A) := eval (std_clause (words text)) rows.
Definition run_pg {A} (text : string) (rows : list A) : option (list A) := eval (pg_clause (words text)) rows.
