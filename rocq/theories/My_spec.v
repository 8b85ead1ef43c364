(** Independent description of the EXPLAIN documents of MySQL, of its hints and of names in snake case. *)
From Coq Require Import List Bool Arith ZArith String Ascii Permutation.
From Verif Require Import PyBase FSet Hint_model Card_model QPlan_model JT_model Lim_model PGHint_spec My_model.
Import ListNotations.
Open Scope list_scope.
Open Scope nat_scope.

(** ** Documents *)
Section Docs.
  Context {num : Type} (is0 : num -> bool) (zero : num) (fl : string -> res num) (add pct : num -> num -> num)
          (tocard : option num -> card) (tocost : option num -> option nat) (fullname alias : nat -> string) (qtabs : option (list nat)).
  (** Whether numbers may be zero. *)
  Context (zok : Prop).
  Notation js := (js num).
  Open Scope string_scope.
  Definition operators : list string :=
    ["nested_loop"; "table"; "optimized_away_subqueries"; "grouping_operation"; "ordering_operation"; "duplicate_removal"; "union_result"; "buffer_result"; "select_list_subqueries"].
  (** An object has the attribute; it has not. *)
  Definition attr (l : list (string * js)) (k : string) (v : js) : Prop := exists a b, (l = a ++ (k, v) :: b)%list /\ ~ In k (map fst a).
  Definition no_attr (l : list (string * js)) (k : string) : Prop := ~ In k (map fst l).
  (** The object contains one operator. *)
  Definition sole (l : list (string * js)) (k : string) (d : js) : Prop :=
    exists a b, (l = a ++ (k, d) :: b)%list /\ In k operators /\ (forall k', In k' (map fst a ++ map fst b)%list -> ~ In k' operators).
  (** A number that is given, as number or as text, or is missing. *)
  Inductive number (l : list (string * js)) (k : string) : option num -> Prop :=
  | nu_none : no_attr l k -> number l k None
  | nu_num n : attr l k (JN n) -> (is0 n = true -> zok) -> number l k (Some n)
  | nu_text s n : attr l k (JS s) -> s <> "" -> fl s = Ok n -> number l k (Some n).
  (** Cost of the scan and cost of the join. *)
  Inductive costs (l : list (string * js)) : option num -> option num -> Prop :=
  | co_none : no_attr l "cost_info" -> costs l None None
  | co_unknown ci j : attr l "cost_info" (JO ci) -> number ci "read_cost" None -> number ci "eval_cost" None -> number ci "prefix_cost" j -> costs l None j
  | co_known ci r e j s : attr l "cost_info" (JO ci) -> number ci "read_cost" r -> number ci "eval_cost" e -> (r <> None \/ e <> None) ->
      s = add (match r with Some x => x | None => zero end) (match e with Some x => x | None => zero end) -> (is0 s = true -> zok) ->
      number ci "prefix_cost" j -> costs l (Some s) j.
  (** Rows of the scan after filtering, rows of the join. *)
  Definition rows (l : list (string * js)) (s j : option num) : Prop :=
    exists f c, number l "filtered" f /\ number l "rows_examined_per_scan" c /\ number l "rows_produced_per_join" j
    /\ s = match f, c with Some x, Some y => Some (pct x y) | _, _ => None end.
  (** The identifier of a table. *)
  Definition ident (t : nat) : string := if String.eqb (alias t) "" then fullname t else alias t.
  Definition denotes (s : string) (t : nat) : Prop := exists tabs, qtabs = Some tabs /\ In t tabs /\ ident t = s.
  (** How a table is read: node type and operator. *)
  Inductive access : string -> nat -> option physop -> Prop :=
  | ac_const s : In s ["system"; "const"] -> access s 0 None
  | ac_index s : In s ["eq_ref"; "ref"; "fulltext"; "ref_or_null"; "unique_subquery"; "index_subquery"; "range"; "index"] -> access s 1 (Some (PScan 1))
  | ac_merge : access "index_merge" 2 (Some (PScan 3))
  | ac_all : access "ALL" 3 (Some (PScan 0)).
  (** How it is joined to the tables before. *)
  Inductive joining (l : list (string * js)) : nat -> nat -> Prop :=
  | jo_plain : no_attr l "using_join_buffer" -> joining l 4 0
  | jo_bnl : attr l "using_join_buffer" (JS "Block Nested Loop") -> joining l 5 0
  | jo_bka s : attr l "using_join_buffer" (JS s) -> In s ["Batched Key Access"; "Batched Key Access (unique)"] -> joining l 6 0
  | jo_hash : attr l "using_join_buffer" (JS "hash join") -> joining l 7 1.
  (** The nodes of the plan for a table entry: the scan and the join. *)
  Definition scan_of (l : list (string * js)) (p : plan) : Prop :=
    exists acc n o b s j sc jc, attr l "access_type" (JS acc) /\ access acc n o
    /\ (match qtabs with None => b = None | Some _ => exists nm t, attr l "table_name" (JS nm) /\ denotes nm t /\ b = Some t end)
    /\ costs l sc jc /\ rows l s j /\ p = Node (mkpd n o b [] [] 0 (tocard s) (tocost sc) [] no_measures) [] None.
  Definition join_of (l : list (string * js)) (a b p : plan) : Prop :=
    exists n o s j sc jc, joining l n o /\ costs l sc jc /\ rows l s j /\ p = Node (mkpd n (Some (PJoin o)) None [] [] 0 (tocard j) (tocost jc) [] no_measures) [a; b] None.
  (** An object that is just one table without a subquery of its own. *)
  Definition table_step (v : js) (tl : list (string * js)) : Prop :=
    exists l, v = JO l /\ sole l "table" (JO tl) /\ tl <> [] /\ no_attr tl "materialized_from_subquery" /\ (exists n o, joining tl n o).
  (** Nested loops join one table after the other. *)
  Inductive joined : list js -> plan -> Prop :=
  | jd_one e tl p : table_step e tl -> scan_of tl p -> joined [e] p
  | jd_more es e tl p q r : joined es p -> table_step e tl -> scan_of tl q -> join_of tl p q r -> joined (es ++ [e])%list r.
  Definition wrapper_code (k : string) (n : nat) : Prop :=
    In (k, n) [("optimized_away_subqueries", 10); ("grouping_operation", 11); ("ordering_operation", 12); ("duplicate_removal", 13); ("union_result", 14);
               ("buffer_result", 15); ("select_list_subqueries", 16)].
  (** The query block of a wrapper is either nested or the object itself. *)
  Inductive block (bl : list (string * js)) : list (string * js) -> Prop :=
  | bl_nested b : attr bl "query_block" (JO b) -> block bl b
  | bl_self : no_attr bl "query_block" -> bl <> [] -> block bl bl.
  Inductive doc_plan : js -> plan -> Prop :=
  | dp_table v tl p : table_step v tl -> scan_of tl p -> doc_plan v p
  | dp_loop l es p : sole l "nested_loop" (JA es) -> joined es p -> doc_plan (JO l) p
  | dp_wrap l k n bl b sc jc s j p : sole l k (JO bl) -> wrapper_code k n -> block bl b -> costs b sc jc -> rows b s j -> doc_plan (JO b) p ->
      doc_plan (JO l) (Node (mkpd n None None [] [] 0 (tocard j) (tocost jc) [] no_measures) [p] None).
  (** The whole document. *)
  Definition document (v : js) (b : list (string * js)) : Prop :=
    exists l, v = JO l /\ attr l "query_block" (JO b) /\ (no_attr b "cost_info" \/ exists ci, attr b "cost_info" (JO ci)).

  (** The table entries of a document, anywhere. *)
  Inductive part_of : js -> js -> Prop :=
  | pa_self v : part_of v v
  | pa_obj l k v w : In (k, v) l -> part_of v w -> part_of (JO l) w
  | pa_arr l v w : In v l -> part_of v w -> part_of (JA l) w.
  Definition table_entry (v : js) (s : string) : Prop := exists l tl, part_of v (JO l) /\ In ("table", JO tl) l /\ attr tl "table_name" (JS s).
  (** The names of the tables, in the order in which they are read, and the table entries. *)
  Inductive reads : js -> list (list (string * js)) -> Prop :=
  | rd_table v tl : table_step v tl -> reads v [tl]
  | rd_loop l es tls : sole l "nested_loop" (JA es) -> Forall2 table_step es tls -> reads (JO l) tls
  | rd_wrap l k n bl b tls : sole l k (JO bl) -> wrapper_code k n -> block bl b -> reads (JO b) tls -> reads (JO l) tls.
End Docs.

(** ** Hints *)
Open Scope string_scope.
(** The tree that joins the tables of a list one after the other. *)
Inductive one_by_one {A} : list nat -> jt nat A -> Prop :=
| ob_one g t a : one_by_one [t] (JScan g t a)
| ob_more g h ts t o a b : one_by_one ts o -> one_by_one (ts ++ [t])%list (JJoin g o (JScan h t a) b).
Inductive mysql_keyword : physop -> string -> Prop :=
| mk_nlj : mysql_keyword (PJoin 0) "NO_BNL" | mk_hash : mysql_keyword (PJoin 1) "BNL"
| mk_seq : mysql_keyword (PScan 0) "NO_INDEX" | mk_idx : mysql_keyword (PScan 1) "INDEX" | mk_idxonly : mysql_keyword (PScan 2) "INDEX"
| mk_bitmap : mysql_keyword (PScan 3) "INDEX_MERGE".
Definition names_of (name : nat -> string) (tabs : list nat) (s : string) : Prop := exists ts, Permutation ts tabs /\ s = String.concat ", " (map name ts).
(** Lines that a join order and an assignment of operators ask for. *)
Inductive asked {A} (name : nat -> string) (jo : option (jt nat A)) (ops : option poa) : (string -> Prop) -> Prop :=
| as_order t : jo = Some t -> (forall g, t <> JEmpty g) -> asked name jo ops (fun l => l = "  JOIN_ORDER(" ++ String.concat ", " (map name (jt_itertables t)) ++ ")")
| as_scan p t a kw : ops = Some p -> In (t, a) (scans p) -> mysql_keyword (PScan (sa_op a)) kw -> asked name jo ops (fun l => l = "  " ++ kw ++ "(" ++ name t ++ ")")
| as_join p ts a kw : ops = Some p -> In (ts, a) (joins p) -> mysql_keyword (PJoin (ja_op a)) kw ->
    asked name jo ops (fun l => exists s, names_of name ts s /\ l = "  " ++ kw ++ "(" ++ s ++ ")").
(** Statements that the settings ask for. *)
Inductive set_first {C V} (set_name : nat -> string) (set_value : V -> string) (ops : option poa) (pp : option (@pparams C V)) : list string -> Prop :=
| sf_intro sw st : (match ops with
                    | Some p => match glob p with
                                | [] => sw = []
                                | g => exists l, Forall2 (fun e s => fst e = PJoin 1 /\ s = "block_nested_loop=" ++ (if snd e : bool then "on" else "off")) g l
                                       /\ sw = ["SET @@optimizer_switch='" ++ String.concat "," l ++ "';"]
                                end
                    | None => sw = []
                    end) ->
    (match pp with Some p => Forall2 (fun e s => s = "SET " ++ set_name (fst e) ++ "=" ++ set_value (snd e) ++ ";") (pp_settings p) st | None => st = [] end) ->
    set_first set_name set_value ops pp (sw ++ st)%list.
Definition newline : string := String (ascii_of_nat 10) "".
(** The hint block made of some lines. *)
Definition block_of (lines : list string) : string := "/*+" ++ newline ++ String.concat newline lines ++ newline ++ "*/".
(** All operators have hints, all global settings can be switched. *)
Definition expressible (ops : option poa) : Prop :=
  forall p, ops = Some p ->
    (forall t a, In (t, a) (scans p) -> exists kw, mysql_keyword (PScan (sa_op a)) kw) /\ (forall ts a, In (ts, a) (joins p) -> exists kw, mysql_keyword (PJoin (ja_op a)) kw)
    /\ (forall o b, In (o, b) (glob p) -> o = PJoin 1).

(** ** Names: words in camel case *)
Definition capital (c : ascii) : Prop := 65 <= nat_of_ascii c <= 90.
Definition lowered (c d : ascii) : Prop := (capital c /\ nat_of_ascii d = nat_of_ascii c + 32) \/ (~ capital c /\ d = c).
(** A word starts with a capital letter and goes on without them; words are joined by underscores. *)
Inductive words : list ascii -> list ascii -> Prop :=
| wd_nil : words [] []
| wd_cap c d r s : capital c -> lowered c d -> words r s -> words (c :: r) ("_"%char :: d :: s)
| wd_other c r s : ~ capital c -> words r s -> words (c :: r) (c :: s).
Definition camel_snake (l s : list ascii) : Prop :=
  match l with [] => s = [] | c :: r => exists d t, lowered c d /\ words r t /\ s = d :: t end.
