(** Hints, preparatory statements and row limits in the parser.
    postbound/parser.py 1841-1896   _pglast_parse_limit
    postbound/parser.py 2102-2133   _pglast_parse_set_commands
    postbound/parser.py 2136-2194   _parse_hint_block
    postbound/qal/_qal.py 7575-7586 Limit

    Simplifications: texts are lists of characters; the JSON data of pglast (whose sources are not in the repository) are the fields
    that are read here.  pglast leaves out the number of an integer constant that is zero (parser.py 663, 1876), and a constant NULL
    has the member "isnull" only. *)
From Coq Require Import String Ascii List Bool Arith.
From Verif Require Import PyBase.
Import ListNotations.
Open Scope list_scope.

Definition text := list ascii.
Definition str (s : string) : text := list_ascii_of_string s.
Definition newline : ascii := ascii_of_nat 10.
Definition is_space (c : ascii) : bool := let n := nat_of_ascii c in Nat.eqb n 32 || (Nat.leb 9 n && Nat.leb n 13).
Fixpoint lstrip (t : text) : text := match t with c :: r => if is_space c then lstrip r else t | [] => [] end.
Definition strip (t : text) : text := rev (lstrip (rev (lstrip t))).
Fixpoint prefix (p t : text) : bool :=
  match p, t with
  | [], _ => true
  | a :: p, b :: t => Ascii.eqb a b && prefix p t
  | _ :: _, [] => false
  end.
(** t.find(p) for a non-empty p; [None] for -1 *)
Fixpoint find (p t : text) : option nat :=
  if prefix p t then Some 0 else match t with [] => None | _ :: r => option_map S (find p r) end.
Fixpoint join (sep : text) (l : list text) : text := match l with [] => [] | [x] => x | x :: r => x ++ sep ++ join sep r end.

(** *** _parse_hint_block 2136-2194; the result is the preparatory statements and the hints of the Hint clause *)
Definition make_hint (set_cmds hints : list text) : option (text * text) :=
  let prep := join [newline] set_cmds in
  let hint := join [newline] hints in
  match prep, hint with [], [] => None | _, _ => Some (prep, hint) end.
Fixpoint hint_block (fuel : nat) (raw : text) (set_cmds current : list text) : res (option (text * text)) :=
  match fuel with
  | O => Raise OutOfFuel
  | S fuel =>
      let raw := lstrip raw in
      let block_hint := match find (str "/*") raw with Some _ => true | None => false end in
      let line_hint := prefix (str "--") raw in
      if negb block_hint && negb line_hint then Ok (make_hint set_cmds current)
      else if line_hint then
        match find [newline] raw with
        | None => Raise OtherError
        | Some line_end => hint_block fuel (skipn line_end raw) set_cmds (current ++ [strip (firstn line_end raw)])
        end
      else
        let block_start := match find (str "/*") raw with Some i => i | None => 0 end in
        match find (str "*/") raw with
        | None => Raise OtherError
        | Some block_end =>
            hint_block fuel (skipn (block_end + 2) raw) set_cmds
              (current ++ [strip (firstn (block_end + 2 - block_start) (skipn block_start raw))])
        end
  end.
Definition parse_hint_block (raw : text) (set_cmds : list text) : res (option (text * text)) :=
  hint_block (S (List.length raw)) raw set_cmds [].

(** *** _pglast_parse_set_commands 2102-2133 *)
Inductive const := CInt (n : nat) | CFloat (t : text) | CStr (t : text) | CBool (b : bool) | CNull.
(** a statement: SET with its kind ("VAR_SET_VALUE" or another one), name and arguments, or anything else *)
Inductive stmt := SSet (set_value : bool) (name : text) (args : list const) | SOther (id : nat).
Definition set_text (name value : text) : text := str "SET " ++ name ++ str " TO '" ++ value ++ str "';".
(** [done] is the number of the current statement: the variable [i] keeps its last value if the loop is not left early *)
Fixpoint set_loop (all rest : list stmt) (i : nat) (prep : list text) : res (list text * list stmt) :=
  match rest with
  | [] => match all with [] => Raise UnboundLocalError | _ => Ok (prep, skipn (i - 1) all) end
  | SOther _ :: _ => Ok (prep, skipn i all)
  | SSet ok name args :: r =>
      if negb ok then Raise OtherError
      else match args with
           | [] => Raise KeyError
           | CStr v :: _ => set_loop all r (S i) (prep ++ [set_text name v])
           | _ :: _ => Raise KeyError
           end
  end.
Definition set_commands (stmts : list stmt) : res (list text * list stmt) := set_loop stmts stmts 0 [].
(** parse_query 2316-2319: exactly one statement must remain *)
Definition single_stmt (stmts : list stmt) : res (list text * stmt) :=
  rbind (set_commands stmts) (fun x => match snd x with [s] => Ok (fst x, s) | _ => Raise ValueError end).

(** *** _pglast_parse_limit 1841-1896 *)
Inductive direction := DFirst | DNext | DPrior | DLast.
Record limit := mkL { l_limit : option nat; l_offset : option nat; l_dir : direction }.
Definition contains (p t : text) : bool := match find p t with Some _ => true | None => false end.
(** the number of an integer constant, as it is printed by pglast *)
Definition ival (c : const) : res (option nat) := match c with CInt 0 => Ok None | CInt n => Ok (Some n) | _ => Raise KeyError end.
(** [q] is the text of the query in lower case *)
Definition parse_limit (raw_limit raw_offset : option const) (q : text) : res (option limit) :=
  match raw_limit, raw_offset with
  | None, None => Ok None
  | _, _ =>
      rbind (match raw_limit with Some c => ival c | None => Ok None end) (fun nrows =>
      rbind (match raw_offset with
             | Some c => rmap (fun o => Some (match o with Some n => n | None => 0 end)) (ival c)
             | None => Ok None end) (fun offset =>
      let standard := contains (str "limit") q || contains (str "fetch first") q in
      rbind (match raw_limit with
             | Some _ => if standard then Ok DFirst
                         else if contains (str "fetch next") q then Ok DNext
                         else if contains (str "fetch prior") q then Ok DPrior
                         else if contains (str "fetch last") q then Ok DLast
                         else Raise OtherError
             | None => Ok DFirst end) (fun dir =>
      match nrows, offset with
      | None, None => Raise ValueError
      | _, _ => Ok (Some (mkL nrows offset dir))
      end)))
  end.
