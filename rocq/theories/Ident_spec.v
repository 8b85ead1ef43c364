(** How an SQL lexer (PostgreSQL rules) reads one identifier token. *)
From Coq Require Import List Bool Arith Ascii String.
From Verif Require Import PyBase.
Import ListNotations.
Local Open Scope string_scope.

Definition in_range (lo hi : nat) (c : ascii) : Prop := lo <= nat_of_ascii c <= hi.
(** The body of a delimited identifier up to its closing quote: two quotes stand for one. *)
Inductive delimited : string -> string -> Prop :=
| delim_end : delimited (String (ascii_of_nat 34) "") ""
| delim_char c body name : c <> ascii_of_nat 34 -> delimited body name -> delimited (String c body) (String c name)
| delim_quote body name : delimited body name ->
    delimited (String (ascii_of_nat 34) (String (ascii_of_nat 34) body)) (String (ascii_of_nat 34) name).

Definition letter_or_us (c : ascii) : Prop := in_range 65 90 c \/ in_range 97 122 c \/ nat_of_ascii c = 95.
Definition fold_case (c d : ascii) : Prop :=
  (in_range 65 90 c /\ nat_of_ascii d = nat_of_ascii c + 32) \/ (~ in_range 65 90 c /\ d = c).
(** Continuation of a regular identifier and what it folds to. *)
Inductive regular_rest : string -> string -> Prop :=
| reg_end : regular_rest "" ""
| reg_char c d body name : letter_or_us c \/ in_range 48 57 c \/ nat_of_ascii c = 36 -> fold_case c d ->
    regular_rest body name -> regular_rest (String c body) (String d name).

(** [denotes reserved tok name]: the text [tok] is one identifier token with the meaning [name], where the (lower case)
    words in [reserved] cannot be used as regular identifiers. *)
Inductive denotes (reserved : string -> Prop) : string -> string -> Prop :=
| den_quoted body name : delimited body name -> name <> "" -> denotes reserved (String (ascii_of_nat 34) body) name
| den_regular c d body name : letter_or_us c -> fold_case c d -> regular_rest body name ->
    ~ reserved (String d name) -> denotes reserved (String c body) (String d name).

(** Words that PostgreSQL 16 does not accept as a table name unless quoted and that the keyword list of PostBOUND lacks. *)
Definition missing_keywords : list string :=
  ["analyse"; "analyze"; "authorization"; "collation"; "concurrently"; "freeze"; "isnull"; "notnull"; "tablesample"].
