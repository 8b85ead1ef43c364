(** Model of the quick formatter, postbound/qal/_formatter.py 66-159, 162-297, 300-333, 336-371, 455-567, 570-622 (flavor "vanilla"), 625-924,
    1033-1138, and of str() of queries, qal/_qal.py.

    Only the flavor "vanilla" without inlined hint blocks.  Joins in FROM and set queries are modelled in SText_model.v (C124, C125),
    the meaning of the text of predicates and arithmetic in PPrint_model.v and MPrint_model.v (C03, C04), LIMIT in C17.

    A text is a list of pieces: blanks, newlines, punctuation, (parts of) words and string literals.  A literal is kept as one piece so that
    it is known which newlines ([None]) are part of a literal. *)
From Coq Require Import String List Bool Arith DecimalString.
From Verif Require Import PyBase.
Import ListNotations.
Open Scope string_scope.
Open Scope list_scope.

Inductive piece := Sp | Nl | P (s : string) | W (s : string) | L (l : list (option nat)).
Definition text := list piece.

Inductive expr :=
| ELit (l : list (option nat)) | ECol (c : string)
| EFun (fn : string) (args : list expr) (distinct : bool) (flt : option expr)
| ESub (a : option nat) (q : query)                       (* [Some i]: FormattingSubqueryExpression with indentation i *)
| ECase (a : option nat) (cases : list (expr * expr)) (simple els : option expr)    (* [Some i]: FormattingCaseExpression *)
| ECast (e : expr) (ty : string) (arr : bool)
| EMath (op : string) (a b : expr) | ENeg (op : string) (a : expr)
| EBin (op : string) (a b : expr) | EBetween (a lo hi : expr) | EIn (a : expr) (vs : list expr)
| EPred (a : expr) | EExists (a : expr)                   (* UnaryPredicate without operation and with EXISTS *)
| ENot (p : expr) | EAnd (ps : list expr) | EOr (ps : list expr)
with source :=
| SDirect (t : string)
| SFun (f : expr) (alias : option string)
| SSub (q : query) (lateral : bool) (name : option string)
with cte :=
| CQuery (q : query) (name : string) (mat : option bool)
| CValues (rows : list (list expr)) (name : string) (cols : list string) (mat : option bool)
with query :=
| Query (hint : option text) (explain : option text) (ctes : option (list cte * bool))
    (distinct : option (list expr)) (targets : list (expr * option string))
    (from : option (list string + list source))          (* ImplicitFromClause or From *)
    (where_ : option expr) (group : option (list expr * bool)) (having : option expr)
    (order : option (list (expr * text))) (limit : option (option nat * option nat)).   (* limit and offset *)

(** ** Pieces of text *)
Definition w (s : string) : text := [W s].
Definition p (s : string) : text := [P s].
Definition blanks (n : nat) : text := repeat Sp n.
Fixpoint sepby (s : text) (l : list text) : text := match l with [] => [] | [x] => x | x :: r => (x ++ s ++ sepby s r)%list end.
Definition commas := sepby [P ","; Sp].
Definition paren (t : text) : text := (p "(" ++ t ++ p ")")%list.
Definition opt {A} (f : A -> text) (o : option A) : text := match o with Some x => f x | None => [] end.
(** a newline in the text, possibly in a literal *)
Definition has_nl (t : text) : bool := existsb (fun c => match c with Nl => true | L l => existsb (fun x => match x with None => true | _ => false end) l | _ => false end) t.
(** prefixing each line with n blanks: _increase_indentation, 66-85; also 136-140, 364-366, 475-477.  Blanks are the number 32. *)
Definition ind_lit (n : nat) (l : list (option nat)) : list (option nat) := flat_map (fun x => match x with None => None :: repeat (Some 32) n | _ => [x] end) l.
Definition indent (n : nat) (t : text) : text :=
  (blanks n ++ flat_map (fun c => match c with Nl => Nl :: blanks n | L l => [L (ind_lit n l)] | _ => [c] end) t)%list.
(** "\n".join *)
Definition unlines := sepby [Nl].
(** str.rstrip() *)
Definition is_ws (c : piece) : bool := match c with Sp | Nl => true | _ => false end.
Fixpoint lstrip (t : text) : text := match t with c :: r => if is_ws c then lstrip r else t | [] => [] end.
Definition rstrip (t : text) : text := rev (lstrip (rev t)).
Definition digits (n : nat) : text := w (NilZero.string_of_uint (Nat.to_uint n)).

(** MathExpression._requires_brackets, qal/_qal.py 651-671, for the operators of an expression and its child (C04) *)
Definition brk (op o : string) : bool :=
  let lazy s := existsb (String.eqb s) ["+"; "*"; "%"] in
  let eager s := existsb (String.eqb s) ["-"; "/"] in
  if String.eqb o op then false
  else if String.eqb op "||" || String.eqb o "||" then true
  else (eager op && lazy o) || (lazy op && eager o).

Definition is_leaf (e : expr) : bool := match e with ECol _ | ELit _ => true | _ => false end.
Definition math_op (e : expr) : option string := match e with EMath op _ _ | ENeg op _ => Some op | _ => None end.
Definition needs (op : string) (e : expr) : bool := match math_op e with Some o => brk op o | None => false end.
Definition is_compound (e : expr) : bool := match e with ENot _ | EAnd _ | EOr _ => true | _ => false end.
(** CaseExpression._braketify, 1560-1564 *)
Definition braketify (e : expr) (t : text) : text := match e with ECase _ _ _ _ | EMath _ _ _ | ENeg _ _ => paren t | _ => t end.
Definition mat_info (m : option bool) : text := match m with None => [] | Some true => [W "MATERIALIZED"; Sp] | Some false => [W "NOT"; Sp; W "MATERIALIZED"; Sp] end.
(** FormattingSubqueryExpression.__str__, 121-140 *)
Definition layout (n : nat) (t : text) : text := if has_nl t then Nl :: indent n t else (blanks n ++ t)%list.
(** the columns of VALUES, 184-185 and qal/_qal.py 5599-5600 *)
Definition col_list (cols : list string) : text := match cols with [] => [] | _ => paren (commas (map w cols)) end.
(** SELECT DISTINCT ON (...), 273-280 and qal/_qal.py 6112-6120 *)
Definition sel_prefix (d : option (list text)) : text :=
  match d with
  | None => w "SELECT"
  | Some ts => match commas ts with [] => [W "SELECT"; Sp; W "DISTINCT"] | t => ([W "SELECT"; Sp; W "DISTINCT"; Sp; W "ON"; Sp] ++ paren t)%list end
  end.
(** Limit.__str__, qal/_qal.py 7644-7658, with direction "first", and _quick_format_limit 588-601 *)
Definition offset_text (n : nat) : text := ([W "OFFSET"; Sp] ++ digits n ++ [Sp; W "ROWS"])%list.
Definition fetch_text (n : nat) : text := ([W "FETCH"; Sp; W "FIRST"; Sp] ++ digits n ++ [Sp; W "ROWS"; Sp; W "ONLY"])%list.
Definition limit_str (l : option nat * option nat) : text :=
  match l with
  | (Some n, Some m) => (offset_text m ++ [Sp] ++ fetch_text n)%list
  | (None, Some m) => offset_text m
  | (Some n, None) => fetch_text n
  | (None, None) => []
  end.
Definition truthy (o : option nat) : bool := match o with Some (S _) => true | _ => false end.
Definition limit_lines (l : option nat * option nat) : list text :=
  let '(n, m) := l in
  if truthy n && truthy m then [opt fetch_text n; opt offset_text m]
  else if truthy n then [opt fetch_text n] else if truthy m then [opt offset_text m] else [].

(** first line, further lines indented, a comma after each but the last: 282-294, 322-330, 556-564 *)
Fixpoint comma_lines (first : text) (rest : list text) : list text :=
  match rest with [] => [first] | x :: r => (first ++ p ",") :: comma_lines (blanks 2 ++ x) r end.
Definition tails {A} (f : A -> list A -> list text) (l : list A) : list text := match l with [] => [] | x :: r => f x r end.

(** str(expression) is [pr None e] (qal/_qal.py 288, 487, 683, 766, 1018, 1303, 1576, 2628, 2790, 2946-2968, 3082, 3351-3380).
    [pr (Some i) e] is str(_expression_prettifier(e, flavor="vanilla", inline_hints=False, indentation=i)), 651-924 (see [pr_prettify] below).
    [strq q] is q.stringify(trailing_delimiter=False), qal/_qal.py 9117-9137 and 8038-8056; [fq q] is format_quick(q, trailing_semicolon=False),
    1072-1138: all clauses after replace_expressions (RExp_model.v, C237). *)
Fixpoint pr (m : option nat) (e : expr) {struct e} : text :=
  match e with
  | ELit l => [L l]
  | ECol c => w c
  | EFun fn args d f =>
      let a := commas (map (pr m) args) in
      let a := if Nat.ltb 1 (List.length args) && d then paren a else a in
      (w fn ++ paren ((if d then [W "DISTINCT"; Sp] else []) ++ a)
        ++ opt (fun e => [Sp; W "FILTER"; Sp] ++ paren ([W "WHERE"; Sp] ++ pr m e)) f)%list
  | ESub a q =>
      match m, a with
      | None, None => paren (strq q)
      | Some i, _ | None, Some i => layout (i + 2) (paren (fq q))
      end
  | ECase a cases simple els =>
      match m, a with
      | None, None =>
          ([W "CASE"; Sp] ++ opt (fun e => pr m e ++ [Sp]) simple
            ++ sepby [Sp] (map (fun c => match c with (x, y) => [W "WHEN"; Sp] ++ pr m x ++ [Sp; W "THEN"; Sp] ++ braketify y (pr m y) end) cases)
            ++ opt (fun e => [Sp; W "ELSE"; Sp] ++ braketify e (pr m e)) els ++ [Sp; W "END"])%list
      | Some i, _ =>
          unlines (([W "CASE"] ++ opt (fun e => Sp :: pr (Some (i + 2)) e) simple)
            :: map (fun c => match c with (x, y) => blanks (i + 2) ++ [W "WHEN"; Sp] ++ pr (Some (i + 2)) x ++ [Sp; W "THEN"; Sp] ++ pr (Some (i + 2)) y end) cases
            ++ match els with Some e => [blanks (i + 2) ++ [W "ELSE"; Sp] ++ pr (Some (i + 2)) e] | None => [] end ++ [w "END"])%list
      | None, Some i =>
          unlines (([W "CASE"] ++ opt (fun e => Sp :: pr None e) simple)
            :: map (fun c => match c with (x, y) => blanks (i + 2) ++ [W "WHEN"; Sp] ++ pr None x ++ [Sp; W "THEN"; Sp] ++ pr None y end) cases
            ++ match els with Some e => [blanks (i + 2) ++ [W "ELSE"; Sp] ++ pr None e] | None => [] end ++ [w "END"])%list
      end
  | ECast e ty arr =>
      (w "CAST" ++ paren ((if is_leaf e then pr m e else paren (pr m e)) ++ [Sp; W "AS"; Sp; W ty]
        ++ match m with None => if arr then p "[]" else [] | Some _ => [] end))%list     (* 712: the array type is not passed on *)
  | EMath op a b =>
      ((if needs op a then paren (pr m a) else pr m a) ++ [Sp; P op; Sp] ++ (if needs op b then paren (pr m b) else pr m b))%list
  | ENeg op a => (p op ++ pr m a)%list
  | EBin op a b => (pr m a ++ [Sp; W op; Sp] ++ pr m b)%list
  | EBetween a lo hi => (pr m a ++ [Sp; W "BETWEEN"; Sp] ++ pr m lo ++ [Sp; W "AND"; Sp] ++ pr m hi)%list
  | EIn a vs => (pr m a ++ [Sp; W "IN"; Sp] ++ (match vs with [ESub _ _ as v] => pr m v | _ => paren (commas (map (pr m) vs)) end))%list
  | EPred a => pr m a
  | EExists a => ([W "EXISTS"; Sp] ++ pr m a)%list
  | ENot (EIn a vs) => (pr m a ++ [Sp; W "NOT"; Sp; W "IN"; Sp] ++ (match vs with [ESub _ _ as v] => pr m v | _ => paren (commas (map (pr m) vs)) end))%list
  | ENot q => ([W "NOT"; Sp] ++ pr m q)%list
  | EAnd ps => sepby [Sp; W "AND"; Sp] (map (pr m) ps)
  | EOr ps => paren (sepby [Sp; W "OR"; Sp] (map (fun c => if is_compound c then paren (pr m c) else pr m c) ps))
  end
(** TableSource.__str__, qal/_qal.py 6266, 6425, 6666 *)
with strs (s : source) : text :=
  match s with
  | SDirect t => w t
  | SFun f a => (pr None f ++ opt (fun n => [Sp; W "AS"; Sp; W n]) a)%list
  | SSub q lat n => ((if lat then [W "LATERAL"; Sp] else []) ++ paren (strq q) ++ opt (fun n => [Sp; W "AS"; Sp; W n]) n)%list
  end
(** the lines of a table source in a From clause, each with two more blanks: 354-371, 474-477 *)
with fs (s : source) : text :=
  match s with
  | SDirect t => (blanks 2 ++ w t)%list
  | SFun f a => (blanks 2 ++ pr (Some 2) f ++ opt (fun n => [Sp; W "AS"; Sp; W n]) a)%list
  | SSub q lat n =>
      indent 2 (unlines [(if lat then [W "LATERAL"; Sp; P "("] else p "("); indent 2 (fq q); (p ")" ++ opt (fun n => [Sp; W "AS"; Sp; W n]) n)%list])
  end
(** WithQuery.__str__, qal/_qal.py 5460-5466, 5587-5602 *)
with strw (c : cte) : text :=
  match c with
  | CQuery q n m => ([W n; Sp; W "AS"; Sp] ++ mat_info m ++ paren (strq q))%list
  | CValues rows n cols m =>
      (w n ++ col_list cols ++ [Sp; W "AS"; Sp] ++ mat_info m ++ paren ([W "VALUES"; Sp] ++ commas (map (fun r => paren (commas (map (pr None) r))) rows)))%list
  end
(** header and content of a CTE if there are several, 213-240.  The query of VALUES is [SELECT * FROM (VALUES ...) AS name (cols)] *)
with fw (c : cte) : text :=
  match c with
  | CQuery q n m => ([W n; Sp; W "AS"; Sp] ++ mat_info m ++ p "(" ++ [Nl] ++ indent 2 (fq q))%list
  | CValues rows n cols m =>
      ([W n; Sp; W "AS"; Sp] ++ mat_info m ++ p "(" ++ [Nl] ++
        indent 2 ([W "SELECT"; Sp; P "*"; Nl; W "FROM"; Nl; Sp; Sp] ++
          paren ([W "VALUES"; Sp] ++ commas (map (fun r => paren (commas (map (pr (Some 2)) r))) rows)) ++ [Sp; W "AS"; Sp; W n] ++ match cols with [] => [] | _ => Sp :: col_list cols end))%list
  end
(** a single CTE, 181-210 *)
with fw1 (rec : text) (c : cte) {struct c} : text :=
  match c with
  | CQuery q n m => unlines [([W "WITH"; Sp] ++ rec ++ [W n; Sp; W "AS"; Sp] ++ mat_info m ++ p "(")%list; indent 2 (fq q); p ")"]
  | CValues rows n cols m =>
      unlines [([W "WITH"; Sp; W n] ++ col_list cols ++ [Sp; W "AS"; Sp; P "("])%list;
        indent 2 ([W "VALUES"; Sp] ++ sepby [P ","; Nl] (map (fun r => paren (commas (map (pr (Some 2)) r))) rows)); p ")"]
  end
with strq (q : query) : text :=
  match q with
  | Query hint explain ctes d ts from wh gr hav ord lim =>
      rstrip (opt (fun t : text => t ++ [Nl]) hint ++ opt (fun t : text => t ++ [Sp]) explain
        ++ opt (fun c : list cte * bool => match c with (l, r) => w "WITH" ++ (if r then [Sp; W "RECURSIVE"] else []) ++ [Sp] ++ commas (map strw l) ++ [Sp] end) ctes
        ++ sel_prefix (option_map (map (pr None)) d) ++ [Sp]
        ++ commas (map (fun t : expr * option string => match t with (e, n) => pr None e ++ opt (fun n => [Sp; W "AS"; Sp; W n]) n end) ts) ++ [Sp]
        ++ opt (fun f : list string + list source => [W "FROM"; Sp] ++ (match f with inl l => commas (map w l) | inr l => commas (map strs l) end) ++ [Sp]) from
        ++ opt (fun e => [W "WHERE"; Sp] ++ pr None e ++ [Sp]) wh
        ++ opt (fun g : list expr * bool => match g with (es, b) => [W "GROUP"; Sp; W "BY"] ++ (if b then [Sp; W "DISTINCT"] else []) ++ [Sp] ++ commas (map (pr None) es) ++ [Sp] end) gr
        ++ opt (fun e => [W "HAVING"; Sp] ++ pr None e ++ [Sp]) hav
        ++ opt (fun l : list (expr * text) => [W "ORDER"; Sp; W "BY"; Sp] ++ commas (map (fun t : expr * text => match t with (e, n) => pr None e ++ n end) l) ++ [Sp]) ord
        ++ opt (fun l => limit_str l ++ [Sp]) lim)%list
  end
with fq (q : query) : text :=
  match q with
  | Query hint explain ctes d ts from wh gr hav ord lim =>
      unlines (match hint with Some t => [t] | None => [] end ++ match explain with Some t => [t] | None => [] end
        ++ match ctes with
           | Some ([c], r) => [fw1 (if r then [W "RECURSIVE"; Sp] else []) c]
           | Some (c :: l, r) =>
               [[W "WITH"; Sp] ++ (if r then [W "RECURSIVE"; Sp] else []) ++ [Sp] ++ fw c
                 ++ flat_map (fun c => [Nl; P ")"; P ","; Sp] ++ fw c) l ++ [Nl; P ")"]]
           | _ => []
           end
        ++ (let tx := map (fun t : expr * option string => match t with (e, n) => pr (Some 2) e ++ opt (fun n => [Sp; W "AS"; Sp; W n]) n end) ts in
            let pre := sel_prefix (option_map (map (pr None)) d) in
            let on := match d with Some ds => match commas (map (pr None) ds) with [] => false | _ => true end | None => false end in
            if Nat.leb 3 (List.length ts) || on
            then (if on then pre :: tails comma_lines (match tx with t :: r => (blanks 2 ++ t) :: r | [] => [] end)
                  else tails comma_lines (match tx with t :: r => (pre ++ [Sp] ++ t) :: r | [] => [] end))
            else [pre ++ [Sp] ++ commas tx])
        ++ match from with
           | None => []
           | Some (inl l) => if Nat.ltb 3 (List.length l) then tails comma_lines (match map w l with t :: r => ([W "FROM"; Sp] ++ t) :: r | [] => [] end)
                             else match l with [] => [] | _ => [[W "FROM"; Sp] ++ commas (map w l)] end
           | Some (inr l) => [match l with [] => w "FROM" | _ => [W "FROM"; Nl] ++ sepby [P ","; Nl] (map fs l) end]
           end
        ++ match wh with
           | None => []
           | Some e => match (match e with      (* 484-511, 532-537 *)
                              | EAnd [] => []
                              | EAnd (x :: r) => pr (Some 2) x :: map (fun y => [W "AND"; Sp] ++ pr (Some 2) y) r
                              | _ => [pr (Some 2) e]
                              end) with
                       | [] => []
                       | t :: r => ([W "WHERE"; Sp] ++ t) :: map (fun t => blanks 2 ++ t) r
                       end
           end
        ++ match gr with
           | None => []
           | Some (es, b) =>
               let pre := [W "GROUP"; Sp; W "BY"; Sp] ++ (if b then [W "DISTINCT"; Sp] else []) in
               if Nat.ltb 3 (List.length es) then tails comma_lines (match map (pr (Some 2)) es with t :: r => (pre ++ t) :: r | [] => [] end)
               else [pre ++ commas (map (pr (Some 2)) es)]
           end
        ++ match hav with None => [] | Some e => [[W "HAVING"; Sp] ++ pr (Some 2) e] end
        ++ match ord with None => [] | Some l => [[W "ORDER"; Sp; W "BY"; Sp] ++ commas (map (fun t : expr * text => match t with (e, n) => pr (Some 2) e ++ n end) l)] end
        ++ match lim with None => [] | Some l => limit_lines l end)%list
  end.

(** _expression_prettifier, 651-924 (vanilla, no inlined hints) *)
Fixpoint prettify (i : nat) (e : expr) : expr :=
  match e with
  | ELit _ | ECol _ => e
  | ESub _ q => ESub (Some i) q
  | ECase _ cases simple els => ECase (Some i) (map (fun c => match c with (x, y) => (prettify (i + 2) x, prettify (i + 2) y) end) cases) (option_map (prettify (i + 2)) simple) (option_map (prettify (i + 2)) els)
  | ECast e ty arr => ECast (prettify i e) ty false
  | EMath op a b => EMath op (prettify i a) (prettify i b)
  | ENeg op a => ENeg op (prettify i a)
  | EFun fn args d f => EFun fn (map (prettify i) args) d (option_map (prettify i) f)
  | EBin op a b => EBin op (prettify i a) (prettify i b)
  | EBetween a lo hi => EBetween (prettify i a) (prettify i lo) (prettify i hi)
  | EIn a vs => EIn (prettify i a) (map (prettify i) vs)
  | EPred a => EPred (prettify i a)
  | EExists a => EExists (prettify i a)
  | ENot q => ENot (prettify i q)
  | EAnd ps => EAnd (map (prettify i) ps)
  | EOr ps => EOr (map (prettify i) ps)
  end.
