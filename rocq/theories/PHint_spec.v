(** Comments of SQL texts, SET commands, and the meaning of row limits. *)
From Coq Require Import String Ascii List Bool Arith.
From Verif Require Import PyBase PHint_model.
Import ListNotations.
Open Scope list_scope.

(** ** the comments of an SQL text (string literals with doubled quotes, quoted identifiers, line comments, nested block comments;
    without dollar quotes and escape strings) *)
Inductive lstate :=
| N                                        (* outside of everything *)
| ND | NS                                  (* the same, after a dash or a slash *)
| Q | QI                                   (* in a string literal, in a quoted identifier *)
| L (acc : text)                           (* in a line comment *)
| B (depth : nat) (acc : text) (mode : nat). (* in a block comment; the mode is 1 after a star and 2 after a slash *)
Definition dash := "-"%char.
Definition slash := "/"%char.
Definition star := "*"%char.
Definition quote := "'"%char.
Definition dquote := """"%char.
Definition outside (c : ascii) : lstate :=
  if Ascii.eqb c quote then Q else if Ascii.eqb c dquote then QI else if Ascii.eqb c dash then ND else if Ascii.eqb c slash then NS else N.
Definition lex_step (s : lstate) (c : ascii) : lstate * list text :=
  match s with
  | N => (outside c, [])
  | ND => (if Ascii.eqb c dash then L [dash; dash] else outside c, [])
  | NS => (if Ascii.eqb c star then B 1 [slash; star] 0 else outside c, [])
  | Q => (if Ascii.eqb c quote then N else Q, [])
  | QI => (if Ascii.eqb c dquote then N else QI, [])
  | L acc => if Ascii.eqb c newline then (N, [acc]) else (L (acc ++ [c]), [])
  | B d acc m =>
      if Nat.eqb m 1 && Ascii.eqb c slash then
        if Nat.eqb d 1 then (N, [acc ++ [c]]) else (B (d - 1) (acc ++ [c]) 0, [])
      else if Nat.eqb m 2 && Ascii.eqb c star then (B (S d) (acc ++ [c]) 0, [])
      else (B d (acc ++ [c]) (if Ascii.eqb c star then 1 else if Ascii.eqb c slash then 2 else 0), [])
  end.
Fixpoint lex (s : lstate) (t : text) : lstate * list text :=
  match t with
  | [] => (s, [])
  | c :: r => let (s1, o1) := lex_step s c in let (s2, o2) := lex s1 r in (s2, o1 ++ o2)
  end.
Definition comments (t : text) : list text := let (s, cs) := lex N t in cs ++ match s with L acc => [acc] | _ => [] end.

(** [x] directly followed by [y] does not occur *)
Fixpoint nopair (x y : ascii) (t : text) : Prop :=
  match t with
  | a :: r => match r with b :: _ => ~ (a = x /\ b = y) | [] => True end /\ nopair x y r
  | [] => True
  end.
Definition blanks (t : text) : Prop := Forall (fun c => is_space c = true) t.

(** the part of the texts for which the comments are found: line comments before everything else or directly after other comments, block
    comments that are not nested and that are not preceded by comments of another kind or anything that looks like a comment *)
Inductive item := Line (pre c : text) | Block (pre c : text).
Definition item_text (i : item) : text :=
  match i with
  | Line pre c => pre ++ str "--" ++ c ++ [newline]
  | Block pre c => pre ++ str "/*" ++ c ++ str "*/"
  end.
Definition item_ok (i : item) : Prop :=
  match i with
  | Line pre c => blanks pre /\ ~ In newline c
  | Block pre c => lex N pre = (N, []) /\ nopair slash star (pre ++ [slash]) /\ nopair star slash (pre ++ [slash])
                   /\ nopair slash star (c ++ [star]) /\ nopair star slash ([star] ++ c ++ [star])
  end.
Definition body_ok (t : text) : Prop := comments t = [] /\ nopair slash star t.
Definition trimmed_end (t r : text) : Prop := exists b, t = r ++ b /\ blanks b /\ forall c, hd_error (rev r) = Some c -> is_space c = false.

(** ** reading SET name TO 'value'; *)
Fixpoint read_name (t : text) : text * text :=
  match t with c :: r => if Ascii.eqb c " "%char then ([], t) else let (n, s) := read_name r in (c :: n, s) | [] => ([], []) end.
(** the inside of a literal in which quotes are doubled, and the text after it *)
Fixpoint read_literal (t : text) : option (text * text) :=
  match t with
  | [] => None
  | c :: r =>
      if Ascii.eqb c quote then
        match r with
        | d :: r' => if Ascii.eqb d quote then match read_literal r' with Some (v, s) => Some (quote :: v, s) | None => None end else Some ([], r)
        | [] => Some ([], [])
        end
      else match read_literal r with Some (v, s) => Some (c :: v, s) | None => None end
  end.
Definition expect (p t : text) : option text := if prefix p t then Some (skipn (List.length p) t) else None.
Definition read_set (t : text) : option (text * text) :=
  match expect (str "SET ") t with
  | Some t1 =>
      let (n, t2) := read_name t1 in
      match expect (str " TO '") t2 with
      | Some t3 => match read_literal t3 with Some (v, s) => if list_eq_dec ascii_dec s (str ";") then Some (n, v) else None | None => None end
      | None => None
      end
  | None => None
  end.

(** ** the rows that a query with LIMIT and OFFSET returns; LIMIT ALL and OFFSET NULL are no limits *)
Inductive counts : option const -> option nat -> Prop :=
| counts_none : counts None None
| counts_null : counts (Some CNull) None
| counts_int n : counts (Some (CInt n)) (Some n).
Definition rows {R} (lim off : option nat) (l : list R) : list R :=
  let l1 := match off with Some o => skipn o l | None => l end in match lim with Some n => firstn n l1 | None => l1 end.
