(** Model of the optimizer interface and the choice of the hinting backend for Postgres, postbound/postgres.py: execute_query 694-773
    with _apply_preparatory_statements 630-635, PostgresOptimizer 2847-2950, PostgresExplainPlan.__init__ 4435-4442, and
    PostgresHintService._infer_pg_backend 2682-2812; simplify_result_set, db/_db.py 257-286.

    Simplifications: a query is its preparatory SET commands, its hint block, its EXPLAIN clause and a number for the rest; a query
    text is the list of its statements; the cache, hints passed to execute_query and the conversion of errors of the driver are left
    out; a plan document is given by what the interface reads from it. *)
From Coq Require Import List Bool Arith ZArith Ascii String.
From Verif Require Import PyBase Ident_model.
Import ListNotations.

(** ** Statements *)
Inductive explain := XPlan | XAnalyze.
Inductive stmt := SSet (name value : string) | SQuery (x : option explain) (block body : nat).
Record query := { q_prep : list (string * string); q_block : nat; q_explain : option explain; q_body : nat }.
(** The text of a query, with its preparatory statements in front (format_query, 2661-2666; Hint.__str__, qal/_qal.py 5160-5165). *)
Definition script (q : query) : list stmt :=
  map (fun p => SSet (fst p) (snd p)) (q_prep q) ++ [SQuery (q_explain q) (q_block q) (q_body q)].
(** transform.as_explain / as_explain_analyze, transform.py 749-786. *)
Definition with_explain (x : explain) (q : query) : query :=
  {| q_prep := q_prep q; q_block := q_block q; q_explain := Some x; q_body := q_body q |}.
(** transform.drop_hints(..., preparatory_statements_only=True), transform.py 738-746. *)
Definition drop_prep (q : query) : query := {| q_prep := []; q_block := q_block q; q_explain := q_explain q; q_body := q_body q |}.

(** ** Values: plan documents (with the fields that are read), sequences, anything else *)
Record doc := { d_rows : Z; d_cost : Z; d_id : nat }.
Inductive py := VDoc (d : option doc) | VList (l : list py) | VTuple (l : list py) | VOther (n : nat).
Notation settings := (dict string string).

Section Server.
  (** The rows that the server returns for a query under the current settings. *)
  Context (answer : settings -> option explain -> nat -> nat -> res (list (list py))).

  Definition step (s : settings) (x : stmt) : settings * res (option (list (list py))) :=
    match x with
    | SSet n v => (dset s n v, Ok None)
    | SQuery e b q => (s, rbind (answer s e b q) (fun r => Ok (Some r)))
    end.
  (** [cursor.execute(text)] and [fetchall()]: all statements are executed; the result is the one of the first statement
      (postgres.py 725-728, 738-746). *)
  Fixpoint exec (s : settings) (l : list stmt) : settings * res (option (list (list py))) :=
    match l with
    | [] => (s, Ok None)
    | x :: r =>
        let '(s1, a) := step s x in
        match a with
        | Raise e => (s1, Raise e)
        | Ok v => let '(s2, b) := exec s1 r in (s2, rbind b (fun _ => Ok v))
        end
    end.

  (** simplify_result_set, db/_db.py 257-286. *)
  Definition first_of (row : list py) : res py := match row with x :: _ => Ok x | [] => Raise IndexError end.
  Definition simplify (rs : option (list (list py))) : res py :=
    match rs with
    | None | Some [] => Ok (VList [])
    | Some (r0 :: rest) =>
        rbind (if List.length r0 =? 1 then rmapM first_of (r0 :: rest) else Ok (map VTuple (r0 :: rest))) (fun l =>
        Ok (match l with [x] => x | _ => VList l end))
    end.
  (** The result with [raw=True]. *)
  Definition raw_value (rs : option (list (list py))) : py :=
    match rs with None => VOther 0 | Some l => VList (map VTuple l) end.

  (** execute_query on a text, 736-746, and on a query, 724-730. *)
  Definition execute_text (s : settings) (l : list stmt) : settings * res (option (list (list py))) := exec s l.
  Definition execute_query (s : settings) (q : query) : settings * res (option (list (list py))) :=
    match q_prep q with
    | [] => exec s (script q)
    | _ =>
        let '(s1, a) := exec s (map (fun p => SSet (fst p) (snd p)) (q_prep q)) in
        match a with
        | Raise e => (s1, Raise e)
        | Ok _ => exec s1 (script (drop_prep q))
        end
    end.

  (** [value[0]] *)
  Definition item0 (v : py) : res py :=
    match v with
    | VList (x :: _) | VTuple (x :: _) => Ok x
    | VList [] | VTuple [] => Raise IndexError
    | VDoc _ => Raise KeyError
    | VOther _ => Raise TypeError
    end.
  (** PostgresExplainPlan.__init__, 4435-4442: the document must have a plan. *)
  Definition explain_plan (v : py) : res doc :=
    rbind (match v with VList _ => item0 v | _ => Ok v end) (fun d =>
    match d with VDoc (Some d) => Ok d | _ => Raise ValueError end).

  (** PostgresOptimizer.query_plan on a query, 2847-2857. *)
  Definition query_plan (s : settings) (q : query) : settings * res doc :=
    let '(s1, a) := execute_text s (script (with_explain XPlan q)) in
    (s1, rbind a (fun rs => rbind (simplify rs) (fun v => rbind (item0 v) explain_plan))).
  (** [value[0]["Plan"]], 2909 and 2919. *)
  Definition plan_entry (v : py) : res doc :=
    rbind (item0 v) (fun d => match d with VDoc (Some d) => Ok d | VDoc None => Raise KeyError | _ => Raise TypeError end).
  (** cardinality_estimate, 2902-2910, and cost_estimate, 2912-2920. *)
  Definition cardinality_estimate (s : settings) (q : query) : settings * res Z :=
    let '(s1, a) := execute_text s (script (with_explain XPlan q)) in
    (s1, rbind a (fun rs => rbind (simplify rs) (fun v => rbind (plan_entry v) (fun d => Ok (d_rows d))))).
  Definition cost_estimate (s : settings) (q : query) : settings * res Z :=
    let '(s1, a) := execute_text s (script (with_explain XPlan q)) in
    (s1, rbind a (fun rs => rbind (simplify rs) (fun v => rbind (plan_entry v) (fun d => Ok (d_cost d))))).
  (** analyze_plan, 2870-2883: None after a timeout. *)
  Definition analyze_plan (s : settings) (q : query) : settings * res (option doc) :=
    let '(s1, a) := execute_query s (with_explain XAnalyze q) in
    (s1, match rbind a (fun rs => rbind (simplify rs) item0) with
         | Raise TimeoutError => Ok None
         | Raise e => Raise e
         | Ok v => rbind (explain_plan v) (fun d => Ok (Some d))
         end).
  (** parse_plan, 2885-2900. *)
  Definition parse_plan (v : py) : res doc :=
    rbind (match v with VList _ => item0 v | _ => Ok v end) (fun v =>
    rbind (match v with VTuple _ => item0 v | _ => Ok v end) explain_plan).
End Server.

(** ** configure_operator, 2922-2942 *)
Inductive operator :=
| NestedLoopJoin | HashJoin | SortMergeJoin | SequentialScan | IndexScan | IndexOnlyScan | BitmapScan | Memoize | Materialize | Sort.
(** PostgresOptimizerSettings, 2058-2069. *)
Definition setting_of (o : operator) : option string :=
  Some match o with
  | NestedLoopJoin => "enable_nestloop" | HashJoin => "enable_hashjoin" | SortMergeJoin => "enable_mergejoin"
  | SequentialScan => "enable_seqscan" | IndexScan => "enable_indexscan" | IndexOnlyScan => "enable_indexonlyscan"
  | BitmapScan => "enable_bitmapscan" | Memoize => "enable_memoize" | Materialize => "enable_material" | Sort => "enable_sort"
  end%string.
(** [instance.cursor] is the method of 900-901, [instance.cursor()] would be the cursor. *)
Inductive attr := Method | Cursor.
Definition execute_on (a : attr) (s : settings) (n v : string) : settings * res unit :=
  match a with Method => (s, Raise AttributeError) | Cursor => (dset s n v, Ok tt) end.
Definition configure_operator (s : settings) (o : operator) (enabled : bool) : settings * res unit :=
  match setting_of o with
  | None => (s, Raise ValueError)
  | Some n => execute_on Method s n (if enabled then "on" else "off")%string
  end.

(** ** _infer_pg_backend, 2682-2812 *)
Inductive backend := PgHintPlan | PgLab | NoBackend.
(** What is observed: the answers to SHOW (None if the setting is not defined), the platform, the host of the connection, the commands
    of the processes listed for the PID and the files that the server process has open. *)
Record env := {
  v_hint : option string; v_lab : option string; v_posix : bool; v_darwin : bool; v_host : string;
  v_commands : list string; v_files : list string }.
Fixpoint prefixb (p s : string) : bool :=
  match p, s with
  | EmptyString, _ => true
  | String a p, String b s => Ascii.eqb a b && prefixb p s
  | _, EmptyString => false
  end.
Fixpoint srev (s acc : string) : string := match s with EmptyString => acc | String a r => srev r (String a acc) end.
Definition suffixb (p s : string) : bool := prefixb (srev p "") (srev s "").
Definition is_on (o : option string) : bool := match o with Some v => String.eqb v "on" | None => false end.
Definition lib_ext (v : env) : string := if v_darwin v then "dylib" else "so".
Definition found_pg (v : env) : bool := existsb (fun c => prefixb "postgres" (slower c)) (v_commands v).
Definition local_host (v : env) : bool := mem (v_host v) ["localhost"; "127.0.0.1"; "::1"]%string.
(** The backend and whether hinting is inactive. *)
Definition infer_backend (v : env) : backend * bool :=
  if is_on (v_hint v) then (PgHintPlan, false) else                       (* 2692-2705 *)
  if is_on (v_lab v) then (PgLab, false) else                             (* 2707-2720 *)
  if negb (v_posix v) then (PgHintPlan, false) else                       (* 2728-2740 *)
  if negb (local_host v) || negb (found_pg v) then (PgHintPlan, false) else       (* 2777-2787 *)
  if existsb (fun f => suffixb ("pg_lab." ++ lib_ext v) f) (v_files v) then (PgLab, false) else      (* 2791-2796 *)
  if existsb (fun f => suffixb ("pg_hint_plan." ++ lib_ext v) f) (v_files v) then (PgHintPlan, false) else     (* 2797-2804 *)
  (NoBackend, true).
