(** Model of reading and changing the settings of a Postgres server: postbound/postgres.py 84-250 (the sets of settings), 1088-1123
    (current_configuration), 1125-1153 (apply_configuration), 1155-1203 (has_extension, on Linux) and postbound/opt/dynprog.py 629-660
    (infer_settings).  The settings objects are those of Conf_model.v.

    The server has named settings, the values of which it shows as texts.  It executes a text of SET commands of the form
    [SET name = 'value';], in which two quotes stand for one, as one transaction: either all commands are executed or none.  Warnings are
    not modelled. *)
From Coq Require Import String Ascii List Bool Arith.
From Verif Require Import PyBase Ident_model Conf_model.
Import ListNotations.
Open Scope string_scope.

(** * The server *)
Record server := mkServer {
  sv_settings : dict string string;      (* pg_settings: name, setting *)
  sv_settable : string -> bool;          (* whether the setting can be changed in a session *)
  sv_accept : string -> string -> option string; (* the value that results from setting the given text; None if this is not a value of the setting *)
}.
Definition with_settings (s : server) (d : dict string string) : server := mkServer d (sv_settable s) (sv_accept s).
Definition quote : ascii := "'"%char.
Fixpoint strip (p s : string) : option string :=
  match p, s with
  | EmptyString, _ => Some s
  | String a p, String b s => if Ascii.eqb a b then strip p s else None
  | _, EmptyString => None
  end.
Definition white (c : ascii) : bool := Ascii.eqb c " " || Ascii.eqb c (ascii_of_nat 10).
Fixpoint skip (s : string) : string := match s with String c s' => if white c then skip s' else s | _ => s end.
(** Up to the first blank *)
Fixpoint word (s : string) : string * string :=
  match s with
  | String c s' => if white c then ("", s) else let (a, b) := word s' in (String c a, b)
  | EmptyString => ("", "")
  end.
(** A string literal, after the opening quote *)
Fixpoint literal (s : string) : option (string * string) :=
  match s with
  | EmptyString => None
  | String c s1 =>
      if Ascii.eqb c quote then
        match s1 with
        | String d s2 => if Ascii.eqb d quote then option_map (fun x => (String quote (fst x), snd x)) (literal s2) else Some ("", s1)
        | EmptyString => Some ("", s1)
        end
      else option_map (fun x => (String c (fst x), snd x)) (literal s1)
  end.
Fixpoint commands (fuel : nat) (s : string) : option (list (string * string)) :=
  match fuel with
  | 0 => None
  | S fuel =>
      match skip s with
      | EmptyString => Some []
      | s => match strip "SET " s with
             | None => None
             | Some s => let (name, s) := word s in
                 match strip " = '" s with
                 | None => None
                 | Some s => match literal s with
                             | None => None
                             | Some (v, s) => match strip ";" s with None => None | Some s => option_map (cons (name, v)) (commands fuel s) end
                             end
                 end
             end
      end
  end.
Definition set_one (s : server) (nv : string * string) : res server :=
  match dget (sv_settings s) (fst nv) with
  | None => Raise OtherError
  | Some _ => if sv_settable s (fst nv)
              then match sv_accept s (fst nv) (snd nv) with None => Raise OtherError | Some v => Ok (with_settings s (dset (sv_settings s) (fst nv) v)) end
              else Raise OtherError
  end.
Fixpoint set_all (s : server) (l : list (string * string)) : res server := match l with [] => Ok s | x :: l => rbind (set_one s x) (fun s => set_all s l) end.
Definition execute (s : server) (sql : string) : res server :=
  match commands (S (String.length sql)) sql with None => Raise OtherError | Some l => set_all s l end.

(** * The sets of settings *)
(** _SignificantPostgresSettings 84-193.  There is no comma after recursive_worktable_factor, hence it is joined with the next literal. *)
Definition significant : list string :=
  ["shared_buffers"; "huge_pages"; "huge_page_size"; "temp_buffers"; "max_prepared_transactions"; "work_mem"; "hash_mem_multiplier"; "maintenance_work_mem";
   "autovacuum_work_mem"; "vacuum_buffer_usage_limit"; "logical_decoding_work_mem"; "max_stack_depth"; "shared_memory_type"; "dynamic_shared_memory_type";
   "min_dynamic_shared_memory"; "temp_file_limit"; "max_files_per_process"; "vacuum_cost_delay"; "vacuum_cost_page_hit"; "vacuum_cost_page_miss";
   "vacuum_cost_page_dirty"; "vacuum_cost_limit"; "bgwriter_delay"; "bgwriter_lru_maxpages"; "bgwriter_lru_multiplier"; "bgwriter_flush_after";
   "backend_flush_after"; "effective_io_concurrency"; "maintenance_io_concurrency"; "max_worker_processes"; "max_parallel_workers_per_gather";
   "max_parallel_maintenance_workers"; "max_parallel_workers"; "parallel_leader_participation"; "old_snapshot_threshold"; "enable_async_append";
   "enable_bitmapscan"; "enable_gathermerge"; "enable_hashagg"; "enable_hashjoin"; "enable_incremental_sort"; "enable_indexscan"; "enable_indexonlyscan";
   "enable_material"; "enable_memoize"; "enable_mergejoin"; "enable_nestloop"; "enable_parallel_append"; "enable_parallel_hash"; "enable_partition_pruning";
   "enable_partitionwise_join"; "enable_partitionwise_aggregate"; "enable_presorted_aggregate"; "enable_seqscan"; "enable_sort"; "enable_tidscan";
   "seq_page_cost"; "random_page_cost"; "cpu_tuple_cost"; "cpu_index_tuple_cost"; "cpu_operator_cost"; "parallel_setup_cost"; "parallel_tuple_cost";
   "min_parallel_table_scan_size"; "min_parallel_index_scan_size"; "effective_cache_size"; "jit_above_cost"; "jit_inline_above_cost";
   "jit_optimize_above_cost"; "geqo"; "geqo_threshold"; "geqo_effort"; "geqo_pool_size"; "geqo_generations"; "geqo_selection_bias"; "geqo_seed";
   "default_statistics_target"; "constraint_exclusion"; "cursor_tuple_fraction"; "from_collapse_limit"; "jit"; "join_collapse_limit"; "plan_cache_mode";
   "recursive_worktable_factor" ++ "autovacuum"; "autovacuum_max_workers"; "autovacuum_naptime"; "autovacuum_threshold"; "autovacuum_insert_threshold";
   "autovacuum_analyze_threshold"; "autovacuum_scale_factor"; "autovacuum_analyze_scale_factor"; "autovacuum_freeze_max_age";
   "autovacuum_multixact_freeze_max_age"; "autovacuum_cost_delay"; "autovacuum_cost_limit"].
(** _RuntimeChangeablePostgresSettings 216-249 *)
Definition at_start_only : list string :=
  ["autovacuum_max_workers"; "autovacuum_naptime"; "autovacuum_threshold"; "autovacuum_insert_threshold"; "autovacuum_analyze_threshold";
   "autovacuum_scale_factor"; "autovacuum_analyze_scale_factor"; "autovacuum_freeze_max_age"; "autovacuum_multixact_freeze_max_age";
   "autovacuum_cost_delay"; "autovacuum_cost_limit"; "autovacuum_work_mem"; "bgwriter_delay"; "bgwriter_lru_maxpages"; "bgwriter_lru_multiplier";
   "bgwriter_flush_after"; "dynamic_shared_memory_type"; "huge_pages"; "huge_page_size"; "max_files_per_process"; "max_prepared_transactions";
   "max_worker_processes"; "min_dynamic_shared_memory"; "old_snapshot_threshold"; "shared_buffers"; "shared_memory_type"].
Definition runtime : list string := filter (fun s => negb (mem s at_start_only)) significant.

(** * Reading and changing the configuration *)
(** current_configuration 1088-1123; the names are the keys of a dictionary (and of keyword arguments) *)
Definition current_configuration (s : server) (runtime_changeable_only : bool) : res config :=
  let allowed := if runtime_changeable_only then runtime else significant in
  load [] (dict_of (map (fun x => (fst x, VObj (snd x))) (filter (fun x => mem (fst x) allowed) (sv_settings s)))).

(** apply_configuration 1125-1153 *)
Inductive target := TSetting (x : setting) | TConfig (c : config) | TText (t : string).
Definition split (es : list entry) : res (list setting) :=
  rmap (fun l => filter (fun x => mem (s_param x) runtime) l) (rmapM (fun e => match e with ESetting x => Ok x | ERaw _ => Raise AttributeError end) es).
Definition apply_configuration (s : server) (t : target) : res server :=
  match t with
  | TSetting x => if mem (s_param x) runtime then execute s (setting_str x) else Ok s
  | TConfig c => rbind (split (dvalues (c_settings c))) (fun l => rbind (new (map ESetting l)) (fun c => execute s (c_data c)))
  | TText t => execute s t
  end.

(** has_extension 1155-1203 on Linux.  [open_files]: the files opened by the server process, util/system.py 13-50; [installed]: pg_extension. *)
Fixpoint rev_string (s acc : string) : string := match s with EmptyString => acc | String c s => rev_string s (String c acc) end.
Definition ends_with (s suffix : string) : bool := match strip (rev_string suffix "") (rev_string s "") with Some _ => true | None => false end.
Definition has_extension (open_files installed : list string) (name : string) (is_shared_object : bool) : bool :=
  if is_shared_object || mem name ["pg_hint_plan"; "pg_lab"]
  then existsb (fun so => ends_with so (if ends_with name ".so" then name else name ++ ".so")) open_files
  else existsb (fun e => deqb e name) installed.

(** infer_settings, opt/dynprog.py 629-660.  [show]: the value of a SHOW command, postgres.py 510-511; [int]: Python's int() *)
Inductive scan_op := SeqScan | IdxScan | IdxOnlyScan | BitmapScan.
Inductive join_op := NestLoop | HashJoin | MergeJoin.
Record planner := mkPlanner { pl_scans : list scan_op; pl_joins : list join_op; pl_material : bool; pl_memoize : bool; pl_sort : bool; pl_workers : nat }.
Definition infer_settings (show : string -> string) (int : string -> res nat) : res planner :=
  let on := fun s => String.eqb (show s) "on" in
  rmap (fun w => mkPlanner
    ((if on "enable_seqscan" then [SeqScan] else []) ++ (if on "enable_indexscan" then [IdxScan] else [])
     ++ (if on "enable_indexonlyscan" then [IdxOnlyScan] else []) ++ (if on "enable_bitmapscan" then [BitmapScan] else []))%list
    ((if on "enable_nestloop" then [NestLoop] else []) ++ (if on "enable_hashjoin" then [HashJoin] else []) ++ (if on "enable_mergejoin" then [MergeJoin] else []))%list
    (on "enable_material") (on "enable_memoize") (on "enable_sort") w)
  (int (show "max_parallel_workers_per_gather")).
