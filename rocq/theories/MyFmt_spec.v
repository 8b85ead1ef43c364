(** How MySQL reads literals, EXPLAIN clauses and hint blocks. *)
From Coq Require Import List Bool Arith Ascii String.
From Verif Require Import PyBase MyFmt_model.
Import ListNotations.

(** MySQL reference manual 9.1.1: the character for an escape sequence; [\%] and [\_] are kept. *)
Definition unescape (c : ascii) : text :=
  if Ascii.eqb c "0"%char then ["000"%char] else if Ascii.eqb c "b"%char then ["008"%char] else
  if Ascii.eqb c "n"%char then ["010"%char] else if Ascii.eqb c "r"%char then ["013"%char] else
  if Ascii.eqb c "t"%char then ["009"%char] else if Ascii.eqb c "Z"%char then ["026"%char] else
  if Ascii.eqb c "%"%char || Ascii.eqb c "_"%char then [bsl; c] else [c].
(** The string that ends with the quote [q], and what follows it. *)
Fixpoint read_to (q : ascii) (l : text) : option (text * text) :=
  match l with
  | [] => None
  | c :: r =>
      if Ascii.eqb c q then
        match r with
        | c' :: r' => if Ascii.eqb c' q then option_map (fun x => (q :: fst x, snd x)) (read_to q r') else Some ([], r)
        | [] => Some ([], [])
        end
      else if Ascii.eqb c bsl then
        match r with
        | c' :: r' => option_map (fun x => (unescape c' ++ fst x, snd x)) (read_to q r')
        | [] => None
        end
      else option_map (fun x => (c :: fst x, snd x)) (read_to q r)
  end.
Definition number_start (c : ascii) : bool := Ascii.eqb c "-"%char || ((48 <=? nat_of_ascii c) && (nat_of_ascii c <=? 57))%nat.
(** The literal that a text is; strings may be enclosed in double quotes unless the mode ANSI_QUOTES is on. *)
Definition reads (ansi : bool) (t : text) (v : lit) : Prop :=
  match t with
  | [] => False
  | c :: r =>
      if Ascii.eqb c sq then exists s, read_to sq r = Some (s, []) /\ v = LTxt s
      else if Ascii.eqb c dq then ansi = false /\ exists s, read_to dq r = Some (s, []) /\ v = LTxt s
      else if number_start c then v = LNum t
      else t = la "NULL" /\ v = LNull
  end.
(** Numbers start with a digit or a sign. *)
Definition wf_lit (v : lit) : Prop := match v with LNum [] => False | LNum (c :: _) => number_start c = true | _ => True end.
(** The text of a literal within a formatted query. *)
Inductive lit_text : ex -> text -> Prop :=
| lt_std v : lit_text (ELit v) (std_lit v)
| lt_my v : lit_text (EMyLit v) (my_lit v).

(** EXPLAIN [ANALYZE] [FORMAT = name], MySQL reference manual 13.8.2. *)
Inductive mysql_explain : bool -> option text -> text -> Prop :=
| me_plain : mysql_explain false None (la "EXPLAIN")
| me_analyze : mysql_explain true None (la "EXPLAIN ANALYZE")
| me_format f : mysql_explain false (Some f) (la "EXPLAIN FORMAT=" ++ f)
| me_both f : mysql_explain true (Some f) (la "EXPLAIN ANALYZE FORMAT=" ++ f).

(** A statement whose hint block is read: it follows the first keyword SELECT directly. *)
Definition with_hints (before block rest : text) : text :=
  before ++ la "SELECT " ++ match block with [] => [] | _ => block ++ la " " end ++ rest ++ la ";".

(** Casts and functions without casts at the top. *)
Definition no_cast (e : ex) : Prop := match e with ECast _ _ _ _ | EMyCast _ _ => False | _ => True end.
(** Expressions as they occur in queries, without the classes of the MySQL backend. *)
Inductive plain : ex -> Prop :=
| pl_lit v : plain (ELit v) | pl_col c : plain (ECol c)
| pl_cast e ty ps arr : plain e -> plain (ECast e ty ps arr)
| pl_fun f args : (forall a, In a args -> plain a) -> plain (EFun f args).
