(** What changing the settings of a server means, stated without the functions of PConf_model.v. *)
From Coq Require Import String Ascii List Bool.
From Verif Require Import PyBase Ident_model Conf_model PConf_model.
Import ListNotations.
Open Scope string_scope.

Definition free_of (c : ascii) (s : string) : Prop := ~ In c (list_ascii_of_string s).
(** A setting, the name of which is one word and the value of which contains no quotes *)
Definition plain (x : setting) : Prop :=
  free_of " " (s_param x) /\ free_of (ascii_of_nat 10) (s_param x) /\ free_of "'" (text_of (s_value x)).
(** A configuration of settings, each known by its own name *)
Definition proper (c : config) : Prop := dwf (c_settings c) /\ forall k e, In (k, e) (c_settings c) -> exists x, e = ESetting x /\ s_param x = k.
Definition setting_of (c : config) (x : setting) : Prop := In (s_param x, ESetting x) (c_settings c).
Definition shows (s : server) (p v : string) : Prop := dget (sv_settings s) p = Some v.
(** What the server does with a setting *)
Definition accepts (s : server) (x : setting) (v : string) : Prop :=
  (exists old, shows s (s_param x) old) /\ sv_settable s (s_param x) = true /\ sv_accept s (s_param x) (text_of (s_value x)) = Some v.
(** Two states of the same server *)
Definition same_server (s s' : server) : Prop :=
  sv_settable s' = sv_settable s /\ sv_accept s' = sv_accept s /\ forall p, (exists v, shows s p v) <-> (exists v, shows s' p v).
(** The names as they are written in the source, one by one *)
Definition written (p : string) : Prop := In p
  ["shared_buffers"; "huge_pages"; "huge_page_size"; "temp_buffers"; "max_prepared_transactions"; "work_mem"; "hash_mem_multiplier"; "maintenance_work_mem";
   "autovacuum_work_mem"; "vacuum_buffer_usage_limit"; "logical_decoding_work_mem"; "max_stack_depth"; "shared_memory_type"; "dynamic_shared_memory_type";
   "min_dynamic_shared_memory"; "temp_file_limit"; "max_files_per_process"; "vacuum_cost_delay"; "vacuum_cost_page_hit"; "vacuum_cost_page_miss";
   "vacuum_cost_page_dirty"; "vacuum_cost_limit"; "bgwriter_delay"; "bgwriter_lru_maxpages"; "bgwriter_lru_multiplier"; "bgwriter_flush_after";
   "backend_flush_after"; "effective_io_concurrency"; "maintenance_io_concurrency"; "max_worker_processes"; "max_parallel_workers_per_gather";
   "max_parallel_maintenance_workers"; "max_parallel_workers"; "parallel_leader_participation"; "old_snapshot_threshold"; "enable_async_append";
   "enable_bitmapscan"; "enable_gathermerge"; "enable_hashagg"; "enable_hashjoin"; "enable_incremental_sort"; "enable_indexscan"; "enable_indexonlyscan";
   "enable_material"; "enable_memoize"; "enable_mergejoin"; "enable_nestloop"; "enable_parallel_append"; "enable_parallel_hash"; "enable_partition_pruning";
   "enable_partitionwise_join"; "enable_partitionwise_aggregate"; "enable_presorted_aggregate"; "enable_seqscan"; "enable_sort"; "enable_tidscan";
   "seq_page_cost"; "random_page_cost"; "cpu_tuple_cost"; "cpu_index_tuple_cost"; "cpu_operator_cost"; "parallel_setup_cost"; "parallel_tuple_cost";
   "min_parallel_table_scan_size"; "min_parallel_index_scan_size"; "effective_cache_size"; "jit_above_cost"; "jit_inline_above_cost";
   "jit_optimize_above_cost"; "geqo"; "geqo_threshold"; "geqo_effort"; "geqo_pool_size"; "geqo_generations"; "geqo_selection_bias"; "geqo_seed";
   "default_statistics_target"; "constraint_exclusion"; "cursor_tuple_fraction"; "from_collapse_limit"; "jit"; "join_collapse_limit"; "plan_cache_mode";
   "recursive_worktable_factor"; "autovacuum"; "autovacuum_max_workers"; "autovacuum_naptime"; "autovacuum_threshold"; "autovacuum_insert_threshold";
   "autovacuum_analyze_threshold"; "autovacuum_scale_factor"; "autovacuum_analyze_scale_factor"; "autovacuum_freeze_max_age";
   "autovacuum_multixact_freeze_max_age"; "autovacuum_cost_delay"; "autovacuum_cost_limit"].
(** A file in some directory *)
Definition located (file name : string) : Prop := file = name \/ exists dir, file = dir ++ "/" ++ name.
