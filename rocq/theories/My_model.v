(** Model of the MySQL backend, postbound/mysql.py: EXPLAIN plans 756-1212 and 648-666, hints 456-458 and 508-641, configuration files
    675-703 with util/misc.py 21-26.  Tables are numbers with their name and alias.  Warnings and the texts of inspect() are left out. *)
From Coq Require Import List Bool Arith ZArith String Ascii.
From Verif Require Import PyBase FSet Hint_model Card_model QPlan_model JT_model Lim_model PGHint_model.
Import ListNotations.
Open Scope list_scope.
Open Scope nat_scope.

(** ** JSON documents.  The keys of an object are different. *)
Inductive js (num : Type) : Type :=
| JO (l : list (string * js num))
| JA (l : list (js num))
| JS (s : string)
| JN (n : num)
| JB (b : bool)
| JNull.
Arguments JO {num}. Arguments JA {num}. Arguments JS {num}. Arguments JN {num}. Arguments JB {num}. Arguments JNull {num}.

Section Plans.
  (** Floats: [fl] is float(text), [add] the sum, [pct f c] is [f / 100 * c], [tocard] and [tocost] what the plan keeps of them; [None] is NaN. *)
  Context {num : Type} (is0 : num -> bool) (zero one : num) (fl : string -> res num) (add pct : num -> num -> num)
          (tocard : option num -> card) (tocost : option num -> option nat).
  Notation js := (js num).
  Definition truthy (v : js) : bool :=
    match v with JO l => negb (List.length l =? 0) | JA l => negb (List.length l =? 0) | JS s => negb (String.eqb s "") | JN n => negb (is0 n) | JB b => b | JNull => false end.
  Fixpoint assoc (k : string) (l : list (string * js)) : option js :=
    match l with [] => None | (k', v) :: r => if String.eqb k k' then Some v else assoc k r end.
  (** [k in v], [v[k]], [v.get(k)] and float(v). *)
  Definition contains (k : string) (v : js) : res bool :=
    match v with
    | JO l => Ok (match assoc k l with Some _ => true | None => false end)
    | JA l => Ok (existsb (fun e => match e with JS s => String.eqb s k | _ => false end) l)
    | JS s => Ok (match String.index 0 k s with Some _ => true | None => false end)
    | _ => Raise TypeError
    end.
  Definition sub (v : js) (k : string) : res js :=
    match v with JO l => match assoc k l with Some x => Ok x | None => Raise KeyError end | _ => Raise TypeError end.
  Definition jget (v : js) (k : string) : res (option js) := match v with JO l => Ok (assoc k l) | _ => Raise AttributeError end.
  Definition to_float (v : js) : res num :=
    match v with JS s => fl s | JN n => Ok n | JB true => Ok one | JB false => Ok zero | _ => Raise TypeError end.
  (** [float(x) if x else default] *)
  Definition float_or {X} (some : num -> X) (default : X) (o : option js) : res X :=
    match o with Some v => if truthy v then rmap some (to_float v) else Ok default | None => Ok default end.
  (** _parse_cost_info 857-886. *)
  Definition cost_info (v : js) : res (option num * option num) :=
    rbind (contains "cost_info" v) (fun b =>
    if negb b then Ok (None, None)
    else
      rbind (sub v "cost_info") (fun ci =>
      rbind (rbind (jget ci "read_cost") (float_or (fun x => x) zero)) (fun rc =>
      rbind (rbind (jget ci "eval_cost") (float_or (fun x => x) zero)) (fun ec =>
      let sc := add rc ec in
      rbind (rbind (jget ci "prefix_cost") (float_or Some None)) (fun jc =>
      Ok (if is0 sc then None else Some sc, jc)))))).
  (** _parse_cardinality_info 889-914. *)
  Definition card_info (v : js) : res (option num * option num) :=
    rbind (rbind (jget v "rows_examined_per_scan") (float_or Some None)) (fun tc =>
    rbind (rbind (jget v "filtered") (float_or Some None)) (fun fi =>
    rbind (rbind (jget v "rows_produced_per_join") (float_or Some None)) (fun jc =>
    Ok (match fi, tc with Some f, Some c => Some (pct f c) | _, _ => None end, jc)))).

  (** Node types: scans are 0 Const, 1 Index Lookup, 2 Index Merge, 3 Table Scan; joins 4 Nested Loop, 5 Block Nested Loop, 6 Batched Key
      Access, 7 Hash Join; 8 is the empty text; wrapper nodes are 10 + their position in [wrappers].  825-838 and 845-850. *)
  Open Scope string_scope.
  Definition access_types : list (string * nat) :=
    [("system", 0); ("const", 0); ("eq_ref", 1); ("ref", 1); ("fulltext", 1); ("ref_or_null", 1); ("index_merge", 2); ("unique_subquery", 1);
     ("index_subquery", 1); ("range", 1); ("index", 1); ("ALL", 3)].
  Definition buffer_types : list (string * nat) := [("Block Nested Loop", 5); ("Batched Key Access", 6); ("Batched Key Access (unique)", 6); ("hash join", 7)].
  Definition wrappers : list (string * nat) :=
    [("optimized_away_subqueries", 10); ("grouping_operation", 11); ("ordering_operation", 12); ("duplicate_removal", 13); ("union_result", 14);
     ("buffer_result", 15); ("select_list_subqueries", 16)].
  Close Scope string_scope.
  Fixpoint code (k : string) (l : list (string * nat)) : option nat :=
    match l with [] => None | (k', v) :: r => if String.eqb k k' then Some v else code k r end.
  (** Dictionary access with a JSON value: lists and objects have no hash. *)
  Definition code_of (v : js) (l : list (string * nat)) : res nat :=
    match v with
    | JS s => match code s l with Some n => Ok n | None => Raise KeyError end
    | JO _ | JA _ => Raise TypeError
    | _ => Raise KeyError
    end.
  Inductive kind := KLoop | KTable | KWrap (n : nat).
  (** _MysqlExplainNodeTypes 790-800. *)
  Definition kind_of (k : string) : option kind :=
    if String.eqb k "nested_loop" then Some KLoop else if String.eqb k "table" then Some KTable else option_map KWrap (code k wrappers).

  (** Tables of the query, in the order of iteration. *)
  Context (fullname alias : nat -> string) (qtabs : option (list nat)).
  (** _lookup_table 756-787: later tables replace earlier ones, aliases replace names. *)
  Definition lookup_table (s : string) (tabs : list nat) : res nat :=
    match find (fun t => String.eqb (alias t) s) (rev tabs) with
    | Some t => Ok t
    | None => match find (fun t => String.eqb (fullname t) s) (rev tabs) with Some t => Ok t | None => Raise KeyError end
    end.
  Definition lookup_json (v : js) (tabs : list nat) : res nat :=
    match v with JS s => lookup_table s tabs | JO _ | JA _ => Raise TypeError | _ => Raise KeyError end.

  (** MysqlExplainNode 1088-1112. *)
  Record mdata := mkm { n_scan : nat; n_join : nat; n_type : option nat; n_table : option nat;
                        n_scost : option num; n_jcost : option num; n_scard : option num; n_jcard : option num }.
  Inductive mnode := MN (d : mdata) (next : option mnode) (sub : option mnode).
  Definition md (n : mnode) : mdata := let 'MN d _ _ := n in d.
  Definition set_next (n : mnode) (x : option mnode) : mnode := let 'MN d _ s := n in MN d x s.

  (** _parse_mysql_table_node 936-968 for the object [l]; [s] is the parsed subquery. *)
  Definition table_node (l : list (string * js)) (s : res (option mnode)) : res (option mnode) :=
    rbind (match qtabs with None => Ok None | Some tabs => rbind (sub (JO l) "table_name") (fun v => rmap Some (lookup_json v tabs)) end) (fun tab =>
    rbind (rbind (sub (JO l) "access_type") (fun v => code_of v access_types)) (fun scan =>
    rbind (match assoc "using_join_buffer" l with None => Ok 4 | Some v => code_of v buffer_types end) (fun join =>
    rbind (cost_info (JO l)) (fun c =>
    rbind (card_info (JO l)) (fun k =>
    rbind s (fun q => Ok (Some (MN (mkm scan join None tab (fst c) (snd c) (fst k) (snd k)) None q)))))))).
  (** _parse_mysql_wrapper_node 971-987 for the data [v]; [s] is the parsed source. *)
  Definition wrapper_node (n : nat) (v : js) (s : res (option mnode)) : res (option mnode) :=
    rbind (cost_info v) (fun c => rbind (card_info v) (fun k => rbind s (fun q => Ok (Some (MN (mkm 8 8 (Some n) None (fst c) (snd c) (fst k) (snd k)) None q))))).
  (** _parse_mysql_join_node 923-933 for the remaining inputs: the objects are linked one after another. *)
  Section Link.
    Context (f : js -> res (option mnode)).
    Fixpoint link (cur : option mnode) (l : list js) : res (option mnode) :=
      match l with
      | [] => Ok cur
      | x :: r => rbind (f x) (fun nx => match cur with None => Raise AttributeError | Some c => rbind (link nx r) (fun nx' => Ok (Some (set_next c nx'))) end)
      end.
  End Link.
  (** _parse_next_mysql_explain_node 1011-1017 and _parse_mysql_explain_node 990-1008: the first known key is the operator. *)
  Fixpoint parse_next (v : js) : res (option mnode) :=
    match v with
    | JO l =>
        (fix go (l : list (string * js)) : res (option mnode) :=
           match l with
           | [] => Raise ValueError
           | (k, d) :: r =>
               match kind_of k with
               | None => go r
               | Some kd =>
                   if negb (truthy d) then Ok None
                   else match kd with
                        | KLoop => match d with JA (e :: es) => rbind (parse_next e) (fun c => link parse_next c es) | _ => Raise AssertionError end
                        | KTable =>
                            match d with
                            | JO tl => table_node tl ((fix at_sub (m : list (string * js)) : res (option mnode) :=
                                                         match m with
                                                         | [] => Ok None
                                                         | (k', x) :: m' => if String.eqb "materialized_from_subquery" k' then parse_next x else at_sub m'
                                                         end) tl)
                            | _ => Raise AssertionError
                            end
                        | KWrap n =>
                            match d with
                            | JO bl => (fix at_block (m : list (string * js)) : res (option mnode) :=
                                          match m with
                                          | [] => wrapper_node n d (parse_next d)
                                          | (k', x) :: m' => if String.eqb "query_block" k' then wrapper_node n x (parse_next x) else at_block m'
                                          end) bl
                            | _ => rbind (contains "query_block" d) (fun b => if b then Raise TypeError else wrapper_node n d (parse_next d))
                            end
                        end
               end
           end) l
    | _ => Raise AttributeError
    end.
  (** parse_mysql_explain_plan 1020-1032 (the total cost is only printed). *)
  Definition parse_explain (v : js) : res mnode :=
    rbind (sub v "query_block") (fun b =>
    rbind (jget b "cost_info") (fun ci =>
    rbind (match ci with None => Ok None | Some c => jget c "query_cost" end) (fun _ =>
    rbind (parse_next b) (fun o => match o with Some n => Ok n | None => Raise AssertionError end)))).

  (** Operators 1035-1046. *)
  Definition scan_oper (t : nat) : option physop := match t with 1 => Some (PScan 1) | 2 => Some (PScan 3) | 3 => Some (PScan 0) | _ => None end.
  Definition join_oper (t : nat) : physop := match t with 7 => PJoin 1 | _ => PJoin 0 end.
  (** _make_qep_node_for_scan 1153-1160, _collect_node_sequence 1148-1151, _node_sequence_to_qep 1049-1085 (the case of two nodes is the
      general one), as_qep 1114-1132. *)
  Definition scan_plan (d : mdata) : plan := Node (mkpd (n_scan d) (scan_oper (n_scan d)) (n_table d) [] [] 0 (tocard (n_scard d)) (tocost (n_scost d)) [] no_measures) [] None.
  Fixpoint sequence (n : mnode) : list mdata := match n with MN d None _ => [d] | MN d (Some x) _ => sequence x ++ [d] end.
  Definition join_plan (d : mdata) (former : plan) : plan :=
    Node (mkpd (n_join d) (Some (join_oper (n_join d))) None [] [] 0 (tocard (n_jcard d)) (tocost (n_jcost d)) [] no_measures) [former; scan_plan d] None.
  Fixpoint sequence_plan (l : list mdata) : res plan :=
    match l with
    | [] => Raise AssertionError
    | [d] => Ok (scan_plan d)
    | d :: former => rmap (join_plan d) (sequence_plan former)
    end.
  Fixpoint node_plan (n : mnode) : res plan :=
    match n with
    | MN d nx s =>
        match n_type d with
        | Some t =>
            rbind (match s with Some q => rmap (fun p => [p]) (node_plan q) | None => Ok [] end) (fun ks =>
            Ok (Node (mkpd t None (n_table d) [] [] 0 (tocard (n_jcard d)) (tocost (n_jcost d)) [] no_measures) ks None))
        | None => match nx with None => Ok (scan_plan d) | Some _ => sequence_plan (sequence n) end
        end
    end.
  (** MysqlOptimizer.query_plan 648-659 for the document MySQL returns, and parse_plan 664-666, which makes the document itself the root. *)
  Definition query_plan (v : js) : res plan := rbind (parse_explain v) node_plan.
  Definition parse_plan (v : js) : res plan := Raise AttributeError.
End Plans.

(** ** Hints *)
Section Hints.
  Context {A C V : Type} (name : nat -> string) (iter : list nat -> list nat) (set_name : nat -> string) (set_value : V -> string).
  Notation tree := (jt nat A).
  Open Scope string_scope.
  (** _generate_join_order_hint 508-513. *)
  Definition order_hint (jo : option tree) : string :=
    match jo with
    | None => ""
    | Some t => if jt_empty t then "" else "  JOIN_ORDER(" ++ String.concat ", " (map name (jt_itertables t)) ++ ")"
    end.
  (** MysqlOptimizerHints 516-523. *)
  Definition op_kw (o : physop) : option string :=
    match o with
    | PJoin 0 => Some "NO_BNL" | PJoin 1 => Some "BNL"
    | PScan 0 => Some "NO_INDEX" | PScan 1 => Some "INDEX" | PScan 2 => Some "INDEX" | PScan 3 => Some "INDEX_MERGE"
    | _ => None
    end.
  Definition key (o : option string) : res string := match o with Some s => Ok s | None => Raise KeyError end.
  Definition ops_bool (p : poa) : bool := match glob p, joins p, scans p, inters p with [], [], [], [] => false | _, _, _, _ => true end.
  (** _generate_operator_hints 527-547: the lines. *)
  Definition op_lines (ops : option poa) : res (list string) :=
    match ops with
    | None => Ok []
    | Some p =>
        if negb (ops_bool p) then Ok []
        else
          rbind (rmapM (fun e => rmap (fun o => "  " ++ o ++ "(" ++ name (fst e) ++ ")") (key (op_kw (PScan (sa_op (snd e)))))) (scans p)) (fun hs =>
          rbind (rmapM (fun e => rmap (fun o => "  " ++ o ++ "(" ++ String.concat ", " (map name (iter (fst e))) ++ ")") (key (op_kw (PJoin (ja_op (snd e)))))) (joins p)) (fun hj =>
          Ok (hs ++ hj)%list))
    end.
  (** MysqlSwitchableOptimizations 550, _generate_prep_statements 563-583; parameters are always true. *)
  Definition switch_kw (o : physop) : option string := match o with PJoin 1 => Some "block_nested_loop" | _ => None end.
  Definition prep_lines (ops : option poa) (pp : option (@pparams C V)) : res (list string) :=
    rbind (match ops with
           | None => Ok []
           | Some p =>
               if negb (ops_bool p) then Ok []
               else rmap (fun l => match l with [] => [] | _ => ["SET @@optimizer_switch='" ++ String.concat "," l ++ "';"] end)
                         (rmapM (fun e => rmap (fun o => o ++ "=" ++ (if snd e : bool then "on" else "off")) (key (switch_kw (fst e)))) (glob p))
           end) (fun s =>
    Ok (s ++ match pp with Some p => map (fun e => ("SET " ++ set_name (fst e) ++ "=" ++ set_value (snd e) ++ ";")%string) (pp_settings p) | None => [] end)%list).
  (** generate_hints 591-624: the preparatory statements and the hint block, [None] if the query is left as it is.
      [plan] are the parts extracted from a plan.  UnsupportedDatabaseFeatureError is [OtherError]. *)
  Definition hint_parts (plan : option (tree * poa * @pparams C V)) (jo : option tree) (ops : option poa) (pp : option (@pparams C V)) : res (option (string * string)) :=
    rbind (match jo with
           | Some t => if jt_empty t then Ok tt else rbind (jt_is_linear t) (fun b => if b then Ok tt else Raise OtherError)
           | None => Ok tt
           end) (fun _ =>
    let '(jo, ops, pp) := match plan with Some (t, o, p) => (Some t, Some o, Some p) | None => (jo, ops, pp) end in
    let order := order_hint jo in
    rbind (op_lines ops) (fun lines =>
    rbind (prep_lines ops pp) (fun prep =>
    let op_text := String.concat nl lines in
    if String.eqb order "" && String.eqb op_text "" then Ok None
    else Ok (Some (String.concat nl prep, "/*+" ++ nl ++ String.concat nl (filter (fun s => negb (String.eqb s "")) [order; op_text]) ++ nl ++ "*/"))))).
  (** supports_hint 640-641 with 456-457, for operators. *)
  Definition supports (o : physop) : bool := match o with PJoin 0 | PJoin 1 | PScan 0 | PScan 1 => true | _ => false end.
End Hints.
(** _escape_setting 554-560: booleans are integers, too. *)
Inductive sval := SBool (b : bool) | SNum (s : string) | SText (s : string).
Definition escape_setting (v : sval) : string :=
  match v with SBool b => if b then "True" else "False" | SNum s => s | SText s => "'" ++ s ++ "'" end%string.

(** ** Configuration files *)
Definition upper (c : ascii) : bool := let n := nat_of_ascii c in (65 <=? n) && (n <=? 90).
Definition to_lower (c : ascii) : ascii := if upper c then ascii_of_nat (nat_of_ascii c + 32) else c.
(** camel_case2snake_case, util/misc.py 21-26: the pattern matches before each upper case letter that is not at the start. *)
Definition snake_rest (l : list ascii) : list ascii := flat_map (fun c => if upper c then ["_"%char; to_lower c] else [c]) l.
Definition snake (l : list ascii) : list ascii := match l with [] => [] | c :: r => to_lower c :: snake_rest r end.
Definition snake_case (s : string) : string := string_of_list_ascii (snake (list_ascii_of_string s)).
Section Config.
  Open Scope string_scope.
  (** MysqlConnectionArguments 92-114: the fields besides user and database, with their default values as texts. *)
  Definition fields : list (string * string) :=
    [("password", ""); ("host", "127.0.0.1"); ("port", "3306"); ("use_unicode", "True"); ("charset", "utf8mb4"); ("autocommit", "True"); ("sql_mode", "ANSI")].
  Definition options : list string := ["Password"; "Host"; "Port"; "UseUnicode"; "Charset"; "AutoCommit"; "SqlMode"].
  (** _parse_mysql_connection 675-703 for the [MYSQL] section of the file, if there is one: user, database and the other fields. *)
  Definition parse_config (section : option (string -> option string)) : res (string * string * list (string * string)) :=
    match section with
    | None => Raise ValueError
    | Some get =>
        match get "User", get "Database" with
        | Some u, Some d =>
            let given := flat_map (fun k => match get k with Some v => [(snake_case k, v)] | None => [] end) options in
            if forallb (fun e => existsb (fun f => String.eqb (fst f) (fst e)) fields) given
            then Ok (u, d, map (fun f => (fst f, match find (fun e => String.eqb (fst e) (fst f)) given with Some e => snd e | None => snd f end)) fields)
            else Raise TypeError
        | _, _ => Raise ValueError
        end
    end.
End Config.
