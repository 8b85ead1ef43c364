# Formal model of PostBOUND (Rocq / Coq 8.16.1)

## Trusted base

* Coq's kernel (the whole development is re-checked by `coqchk`).
* What `Print Assumptions` lists below each theorem in the `*_props.v` files. The development uses the
  standard library only and is meant to be axiom free ("Closed under the global context" everywhere).
* The faithfulness of the model to `/repo/postbound`. Every definition in a `*_model.v` file carries a comment with
  the file and the lines it models and says where it simplifies. Nothing in `/repo` is executed; the model was
  written by reading.

## Structure of `rocq/theories`

For each area `X`:

* `X_model.v`  – the code, function by function (comments cite `/repo/postbound/...: lines`). Python exceptions are
  values of an explicit result type (`PyBase.v`), loops that need fuel return an explicit out-of-fuel error which the
  theorems exclude.
* `X_spec.v` or a `Spec` section – what the property *means*, stated without the model's helper functions
  (three-valued SQL semantics, graph connectivity, bags of rows, reference parsers, ...).
* `X_proofs.v` – lemmas, non-vacuity examples.
* `X_props.v`  – only the property theorems, each closed by `exact lemma`, followed by `Print Assumptions`, next to an
  `Example` that shows a non-trivial case satisfying the hypotheses.

Naming: `Cnn_...` is a theorem for property Cnn. `_refuted` proves that the claim is false of the (faithfully
modelled) code, with a concrete witness. `_partial` is the strongest positive version that was proved; the comment
above it says what is missing.

## General modelling decisions

* Python sets are lists with set-equality (`incl` both ways), or duplicate-free lists whose order is universally
  quantified when the iteration order matters (connectivity check, DP enumeration).
* Hashes: `hash(obj)` is an arbitrary function of the tuple handed to `hash()`. "Equal implies same hash" is stated
  for every such function.
* SQL values: `NULL | integer | string`-like values; predicates evaluate in three-valued logic (`True/False/Unknown`);
  comparison of non-null values is a parameter where only its algebra matters.
* Floats: cardinalities are `NaN | +inf | integer` (the code rounds/stores ints); averages in histograms, Tonic costs
  and plan costs are exact rationals or an abstract ordered type; IEEE rounding is not modelled.
* Concurrency: interleavings as inductive traces over atomic steps.

## Properties

Per property: what is modelled / how it is proved.

| id | model | proof idea |
|----|-------|------------|
| C01 | predicate AST, `is_join`, `_collect_filter_predicates`, `_collect_join_predicates` | induction on trees, 3VL; false for mixed disjunctions (refutation + homogeneous version) |
| C02 | `flatten_and_predicate` | induction, 3VL equality |
| C03 | `CompoundPredicate.__str__` on token lists + reference precedence parser as grammar relation | print/parse round trip; refuted for NOT over AND |
| C04 | `MathExpression.__str__`, `_requires_brackets` on token lists + reference grammar | refuted; round trip for the exactly characterised safe trees |
| C05 | expression AST with `iterchildren`, `columns`, `tables`, `itercolumns` | induction; refuted for CASE / window / n-ary arithmetic |
| C06 | equality and hash-key functions of predicates | refuted for IN / SimpleFilter; positive for the rest |
| C07 | `_attempt_filter_unwrap` | refuted for literal on the left; positive otherwise |
| C08 | join predicate map, `joins_between` | list lemmas |
| C09 | `joins_tables`, `_join_tables_check` | loop invariant = connected component, fuel bound |
| C10 | `join_graph`, `CrossProductPreCheck` | reduce to connectivity; refuted for predicate-less tables |
| C11 | `determine_join_equivalence_classes`, `generate_predicates_for_equivalence_classes`, `add_ec_predicates` | equality closure on rows; refuted for non-equi joins |
| C12 | `_get_predicate_fragment` | induction, monotonicity of 3VL AND; refuted for OR |
| C13 | `rename_columns_in_predicate` | induction |
| C14 | `explicit_to_implicit` for inner join trees | bag semantics of joins as filtered products |
| C15 | `QueryPredicates.__init__`, `join_partners` | refuted; total on the characterised trees |
| C16 | `build_query`, `clauses`, `add_clause`, `drop_clause`, `replace_clause` | fold lemmas |
| C17 | `_quick_format_limit`, `PostgresLimitClause.__str__` as token lists + reference reader | refuted for LIMIT 0; positive otherwise |
| C18 | `__json__`, `load_table_json`, `load_column_json` on an explicit JSON type | refuted for schema; positive otherwise |
| C19 | `quote` on character lists + reference lexer | refuted for embedded quotes; positive otherwise |
| C20, C21 | DP table as function from table sets to plans, loops over subset enumeration | loop invariant "entry is optimal for its set"; monotone cost |
| C22 | n:m and n:1 bound formulas over integers with rounding | counting lemma sum f1*f2 <= ...; refuted with rounding, exact version proved |
| C23 | `_sample_join_graph` with a choice oracle | invariant over merge steps |
| C24 | `_enumerate_join_graph` | induction on the recursion |
| C25 | `JoinGraph` state | state machine invariant over operation sequences |
| C26, C27 | `JoinTree` methods | induction on trees; `is_linear` refuted |
| C28 | JSON of join trees | induction |
| C29, C30 | assignments as finite maps | map algebra; refuted equality / dropped execution mode |
| C31 | `_walk_join_order`, pg_lab hint loop | unique readability; refuted for stale hint |
| C32 | `Histogram`, `_infer_histogram_bounds` | counting; refuted for wrong side of `frequency_above` |
| C33 | `MostCommonValues` | sortedness lemmas |
| C34 | `update_costs`, `current_recommendation` | induction on the history |
| C35 | `standard_add_path` | invariant over histories |
| C36, C37 | `Cardinality` operators | case analysis + lia; refuted `>` for infinity |
| C38, C39 | queues, `BoundedInt` | history invariants; refuted falsy pop |
| C40 | `AtomicInt` with lock, interleaving semantics | invariant over traces; `__pos__` deadlock refuted |
| C41 | `Version` comparison | lexicographic order proofs |
| C42 | `powerset`, `pairs`, `sliding_window` | counting / NoDup |
| C43 | `DependencyGraph` | refuted |
| C44 | dict helpers on association lists | map algebra; refuted for `hash_dict`, `invert_multi` |
| C45 | `CompoundCheck`, `merge_checks` | list algebra; refuted for database checks |
| C46 | pipelines as state machines | invariant over call sequences; refuted for the integrated pipeline |
| C47, C48 | `bench` loops with outcome oracle | induction on the schedule; refuted for `ignore` |
| C49, C50 | `Workload` | list/map algebra; refuted cases |
| C51 | query cache | invariant cache ⊆ live answers |
| C52 | timeout executor as parent/worker transition system | case analysis over traces; refuted for crash before run |
| C53 | parallel executor | permutation invariance; refuted callback |
| C54 | `PostgresConfiguration` | map algebra; refuted for setting objects |
| C55 | `SchemaCache` | cache invariant |
| C56 | random walk / BFS | invariant with choice oracle; BFS refuted |
| C57 | `remove_predicate` | induction on the predicate tree |
| C58 | table and column references, their order and equality | case analysis |
| C59, C60 | `is_join` of expressions, `SimpleFilter.wrap_all` | induction |
| C61 | `LogicalJoinTree` class hierarchy | induction on trees |
| C62–C64 | equality, worker integration and JSON of operator assignments | map algebra; refuted cases |
| C65 | PostgreSQL histogram reader | list lemmas |
| C66 | exhaustive enumeration is complete | induction on join trees |
| C67, C68 | equi/inner join checks, queries a pipeline accepts | case analysis; refuted cases |
| C69 | progressive output of benchmarks | induction on the schedule |
| C70–C72 | reading workloads, `wrap_workload`, result simplification | list algebra |
| C73 | `mark_joined` | state machine invariants |
| C74 | UES frequency maintenance | invariants over join sequences |
| C75–C77 | TONIC QEP-S: integrate, recommend, unknown costs, JSON | induction on the synopsis tree |
| C78 | `SortKey` equality and compatibility | case analysis |
| C79, C80 | special transformations; equality and hash of clauses and queries | structural equality over a generic object type |
| C81–C86 | `QueryPlan` traversal, shapes, canonical forms, equality, derived plans, cost metrics | induction on plans |
| C87–C90 | conversions plan / join tree / hints / JSON | round trips |
| C91–C94 | SQL to relational algebra | bag semantics; the translation is evaluated and compared with the SQL semantics |
| C95, C96 | `mutate`, copies, equality and hash of relational algebra nodes | heap model with node identities |
| C97, C98 | binding of columns in the parser | scoping relation |
| C99–C102 | cardinality estimators | enumeration as list functions, estimator as oracle |
| C103–C107 | plan comparison, join depth, similarity, star query cardinality | induction; exact rationals |
| C108, C109 | `rename_table`, `merge_tables` | row semantics of renamed queries |
| C110–C113 | training specifications, data, repositories and pipelines | set algebra; state machine |
| C114–C116 | PostgreSQL-style dynamic programming | search space as inductive relation; pruning with the fuzz factor |
| C117–C123 | tables, columns, subqueries, bound tables, predicates, result columns of queries | mutually inductive query syntax, occurrence and scoping relations |
| C124, C125 | text of joins and set queries | unambiguous grammar of SQL, round trips |
| C126, C127, C128 | EXPLAIN output as query plans | relation between EXPLAIN trees and plans; number of processes by position |
| C129, C130, C131 | DuckDB scans, plans and hints | best match by similarity; plan relation; list of requested hints |
| C132, C133, C134 | MySQL plans, hints and configuration | relation between documents and plans; requested hints; words of names |
| C191, C192, C193 (C194, C195) | enumeration and random choice of operators, native costs | assignments of allowed operators as functions of tables and joins; answers of the database |
| C196, C197 (C198) | PostgreSQL hints of entire plans, hint service | join order of a plan; nodes with keywords and cardinalities; nodes above all joins |
| C199–C203 (C204–C207) | database schemas: keys, foreign keys, graph, join equivalence, lookups | declared constraints and indexes; columns linked by foreign keys; first element with a property |
| C208–C211 (C212, C213) | UES join order optimizer: tables and joins of the join order, success, greedy choices, cross products | leaves of trees; joins that evaluate a predicate; lowest element; connected components; foreign keys of the query |
| C214–C218 (C219) | random query generator: tables, predicates, connectedness, progress, number of filters | conjuncts of a WHERE clause; foreign keys of a schema; chains of joined tables; lists of filters |
| C220–C225 (C226) | fragments of entire queries: tables, clauses, FROM, set queries, CTEs, success | tables() of queries, lists of expressions, conjuncts, virtual tables and their CTEs |
| C227 | UES branching policy | numbers of joined tables, bounds and sizes |
| C228–C235 (C236) | CEB workload generator: values, dependencies, IN predicates, literals, placeholders, registration, target columns, workloads | SQL literals with doubled quotes, token-wise substitution, candidate queries under given values, numbered labels |
| C237, C239 (C238, C240) | replacing expressions and predicates of queries | the list of all expressions and the rest of the query; truth values under arbitrary connectives |
| C241, C242 (C243) | moving tables into a subquery | the bag of result rows on any database, three-valued conditions; conjuncts and nesting of predicates |
| C244 | the quick formatter | the tokens of a text: words, punctuation, string literals |
| C245 | the experiment log of benchmarks | histories of runs, JSON text |
| C246 | preparing queries for a benchmark | documented option values, slots of a query, what is sent to a database |
| C247–C250 | deleting rows from a Postgres database | rows gone and kept, order with NULLs, marked values |
| C251–C253 | connecting to databases, the connection pool | libpq reading of connect strings, numbered names |
| C254–C258 | annotated join graphs, strategies of joins_between, simplified joins | conjunctions by meaning, last join in iteration order, columns below casts |
| C259–C262 | the texts of plans: ast, inspect, explain, operator counts | lines of a text, preorders of trees, unambiguity |
| C263–C265 | hints, SET commands and row limits in the parser | SQL comments, reading of SET commands, rows of LIMIT/OFFSET |
| C266–C272 | statistics of databases, maintaining statistics and the buffer pool | contents of tables, caches, server state, relations |
| C273–C275 | loading workloads from files, predefined workloads | lines of files, disk and network |
| C276 | dates and timestamps of Postgres | order and round trips of values |
| C277 | exploring operator costs (TONIC) | combinations of operators |
| C278–C279 | visitors and base tables of relational algebra | nodes, tables outside of subqueries |
| C287–C291 | settings and extensions of Postgres servers | texts of SET commands, values shown by the server |
| C292–C298 | shorthands for building predicates, required tables, output names | what a Python value stands for, spellings of operators, tables an expression needs |
| C299–C302 | texts for MySQL | how MySQL reads strings, EXPLAIN clauses and hint blocks |
| C303–C308 | Optimizer interface and hinting backend of Postgres (PgOpt) | a server that explains with one document per query; settings after SET commands as a relation; usable backends by switches and libraries |
| C309–C311 | Parts of C279, C289 and C287 that hold throughout | as there |
| C312–C316 | JSON encoding, reading plan parameters and table sequences, hashable containers (Enc) | representations and counterparts as relations; equality of containers up to the order of iteration of sets |
| C317–C325 | entry point of the parser, relations of the dynamic programming, stages as complete algorithms (PQ) | values of EXPLAIN options by their last occurrence, the wanted schema by cases |
| C326–C336 | frozen dictionaries, export of data frames, processes, score matrices (Exp) | last values of keys, exported entries as a relation, table of extensions |
| C337–C343 | drawing of trees and plans, comparison of texts, presets, timeouts of DuckDB (Vis) | nodes of trees and plans below each other as relations |
| C344–C349 | progress of benchmarks, loggers, copies of the output, stored workloads (Log) | messages per repetition, words of prefixes and files that receive the output as relations |
| C350–C354 | lookups of join graphs and tables, labels of plans, actual costs (Inf) | state of tables and possible joins as predicates on the graph, equality of columns, parts of texts |
| C355–C359 | drawing of join graphs and queries, annotations, escaped labels (PJG) | references between columns, arrows, lines of texts and decoding of HTML as relations |
| C360–C362 | grids of plots and distances of layouts (Grid) | cells in reading order, least number of rows, order of elements as relations |
| C363–C367 | mappings of expressions, walks over graphs, wrapped cardinality estimators (Wlk) | estimates per use and pairs of initialization and cleanup as relations |
| C368–C371 | types, operators and CASE expressions of the parser (Pty) | characters of operators; values of CASE in SQL as a relation |
| C372, C373 | normalized filters of QEP-S nodes (Nrm) | columns without aliases and equality up to aliases as relations |
| C135–C190, C280–C286 | parts of the properties above that hold without exception | the theorems are listed in tools/extra.json and named after the property they were first stated for |

Not expressible / out of scope: performance, the real behaviour of PostgreSQL / DuckDB / MySQL, the `pglast` grammar,
pandas, networkx internals (their documented contract is modelled instead), IEEE rounding.

## Modelled code

Everything that is not listed here is not modelled. The comments in the model files give the exact lines.

<!-- modelled code: begin -->
| model file | property files and ids | code |
|---|---|---|
| Ana_model.v | C103, C104, C105, C106, C107 | Model of postbound/opt/_analysis.py and postbound/util/stats.py 13-20. Scores are exact rational numbers (floats in the code); cardinalities and float division in [catalan_number] are those of Card_model. [opt/_analysis.py, stats.py, util/stats.py] |
| Atomic_model.v | C40 | Model of util/num.py [AtomicInt] (20-231) with its lock, under arbitrary thread interleavings. [threading.Lock] is not re-entrant: acquiring it blocks while it is held, even by the same thread. Each method is compiled to the sequence of shared-memory accesses ... [util/num.py] |
| BLog_model.v | C245 | Model of the experiment log of benchmarks, postbound/bench.py 370-458, and of the JSON text that json.dump writes (Python's json module). A text is a list of characters. A file is None (it does not exist) or a text. Numbers are kept as the text that Python ... [bench.py] |
| Bench_model.v | C47, C48, C69 | Model of the benchmark loop, postbound/bench.py 492-1233. Labels and results are numbers. The outcome of the optimization of a query and of each of its executions is given by two arbitrary functions, indexed by the workload repetition, the label, and the ... [bench.py] |
| Bind_model.v | C97, C98 | Model of how the parser binds columns to tables: QueryNamespace, postbound/parser.py 204-518, and the handlers that use it, 549-641, 1199-1301, 1330-1392, 1431-1661, 1900-2100. Queries are what is left of pglast's output for this purpose: expressions and ... [_core.py, parser.py] |
| CEB_model.v | C228, C229, C230, C231, C232, C233, C234, C235 | Model of experiments/ceb.py: predicate generators, query templates and the workload generator of the CEB framework. Simplifications: - a scalar placeholder value is represented by its Python [str] text ([VS]), a tuple value by [VT]; - templates are token ... [experiments/ceb.py] |
| CEst_model.v | C99, C100, C101, C102 | Model of cardinality estimation: CardinalityEstimator, postbound/_stages.py 592-760, and the estimators of postbound/opt/_cardinalities.py. The enumeration of intermediates and the estimates for them are interleaved in the code (a generator); here all ... [_qal.py, _stages.py, db/_db.py, opt/_cardinalities.py, transform.py] |
| CHash_model.v | C80 | Equality and hash values of clauses, table sources and queries. postbound/qal/_qal.py: the constructors and __eq__ methods cited at [ohash] and [oeqb] below. Everything a query is made of is an [obj]; the classes are told apart by the constructors. ... [_qal.py, postgres.py, qal/_qal.py] |
| Cache_model.v | C51, C72 | Model of the query cache, postbound/db/_db.py 257-319, 364-690 and postbound/postgres.py 694-773, 3733-3840. Query texts are strings. The database is an unchanging function from texts to results. Result sets live in a heap, because the cache hands out the ... [db/_db.py, postgres.py] |
| Card_model.v | C36, C37, C74 | Model of [Cardinality], postbound/_core.py 22-397, including the floating point arithmetic it computes with. [_core.py] |
| Check_model.v | C45, C67 | Model of the optimization pre-checks, postbound/validation.py 53-734. Queries and database systems are type parameters. A check that is neither the empty check nor a compound check is given by its class, its name, the settings its [__eq__] looks at ... [qal/_qal.py, validation.py] |
| Clause_model.v | C16, C79 | Queries as collections of clauses, and the functions that assemble them. postbound/qal/_qal.py 8474-8514, 8919-8952, 9174-9175 SqlQuery postbound/qal/_qal.py 9184-9393 ImplicitSqlQuery, ExplicitSqlQuery, MixedSqlQuery postbound/qal/_qal.py 9441-9484, ... [_qal.py, postgres.py, qal/_qal.py, transform.py] |
| Collections_model.v | C38, C42 | Model of postbound/util/collections.py (combinatorial helpers and queues). [util/collections.py] |
| Conf_model.v | C54 | Model of Postgres configurations, postbound/postgres.py 252-501. Values are booleans or other objects, the latter given by the text str() yields. Indexing a configuration by position (it is a string) is not modelled. [postgres.py] |
| Conn_model.v | C251, C252 | Connecting to databases and the pool of connections. postbound/db/_db.py 3238-3349 DatabasePool postbound/postgres.py 2953-3172 _reconnect, _read_connection_from_file, connect postbound/duckdb.py 922-970 _reconnect, connect postbound/mysql.py 705-731 connect ... [db/_db.py, duckdb.py, mysql.py, postgres.py] |
| DP_model.v | C20, C21 | Model of the dynamic programming enumerator, postbound/opt/dynprog.py 50-435. Tables are numbers, frozensets canonical lists (FSet.v). What the enumerator takes from its environment is left open: the cost model and the cardinality estimator (functions of the ... [opt/dynprog.py] |
| DT_model.v | C276 | Model of the conversion of dates and timestamps, postbound/postgres.py 525-627 (_PsycopgDateDumper, _PsycopgDateLoader, the dumpers and loaders for timestamps) and their registration 1207-1221 (_init_connection). Simplifications: dates are day numbers, ... [postgres.py] |
| Dicts_model.v | C44 | Model of postbound/util/dicts.py. Dictionaries are insertion-ordered association lists (PyBase.dict). [util/dicts.py] |
| Duck_model.v | C129, C130, C131 | Model of the DuckDB backend: binding of scan nodes to tables, parsing of plans and generation of hints, postbound/duckdb.py 458-582 and 658-919, util/stats.py 18-21 and 40-43. Tables are numbers, [fullname] is TableReference.full_name and [filt] the text of ... [duckdb.py, util/dicts.py, util/stats.py] |
| EStat_model.v | C266, C267, C268, C269, C270 | Model of the statistics interface, postbound/db/_db.py 1965-2995 (DatabaseStatistics), with its implementations postbound/postgres.py 1862-1952 and postbound/duckdb.py 385-455 (MySQL's cannot be instantiated, see Conn_model.v). Simplifications: names are ... [db/_db.py, duckdb.py, postgres.py] |
| Enc_model.v | C312, C313, C314, C315, C316 | Model of the JSON encoder, postbound/util/jsonize.py 34-77 (with json.dumps and dataclasses.asdict of Python), of reading plan parameters and nested table sequences, postbound/opt/_helpers.py 144-167, 280-305 with PlanParameterization.__json__, _hints.py ... [_hints.py, dicts.py, opt/_helpers.py, util/collections.py, util/dicts.py, util/jsonize.py] |
| Enum_model.v | C23, C24, C56, C66 | Model of the exhaustive and the random enumeration of join orders and of the graph walks behind them: postbound/opt/enumeration.py 29-206, postbound/opt/randomized.py 32-285, postbound/util/nx.py 75-187 and 298-395. A join graph is a list of nodes and a list ... [_hints.py, enumeration.py, nx.py, opt/enumeration.py, opt/randomized.py, randomized.py, util/nx.py] |
| Eq_model.v |  | Model of equality and hashing of expressions and predicates (postbound/qal/_qal.py 204-3363, and the views 3843-3938, 4083-4172). Python's hash of a tuple is an arbitrary function [htup] of the hashes of its members, the hash of everything atomic is an ... [qal/_qal.py] |
| Exp_model.v | C326, C327, C328, C329, C330, C331, C332, C333, C334 | Model of frozendict, postbound/util/dicts.py 305-338 (with collections.UserDict, on which it is based); of read_df and write_df, postbound/util/_df.py 12-75; of prepare_export, postbound/bench.py 1236-1274; of run_cmd and ProcResult, postbound/util/proc.py ... [bench.py, util/_df.py, util/dicts.py, util/jsonize.py, util/proc.py, util/stats.py] |
| Expl_model.v | C126, C127, C128 | Model of PostgresExplainNode and its translation to a QueryPlan, postbound/postgres.py 3881-4406. Names, conditions and node types are numbers. Row counts are exact integers (Python multiplies floats), times and costs opaque. [postgres.py] |
| Expr_model.v | C05, C06, C07, C13, C59, C60 | Model of PostBOUND's SQL expressions (postbound/qal/_qal.py 95-1677): which columns and tables they report, their equality and hash, how columns are renamed in them (postbound/transform.py 1429-1693), and how filters are simplified (_qal.py 3634-3941). ... [_qal.py, qal/_qal.py, transform.py] |
| Frag_model.v | C220, C221, C222, C223, C224, C225 | Model of extract_query_fragment, postbound/transform.py 241-292 and 313-481, for entire queries (as in Src_model). Simplifications: those of Src_model. In particular LIMIT is not modelled; extract_query_fragment always keeps it (479, 400), it drops hints and ... [_qal.py, transform.py] |
| Grid_model.v | C360, C361, C362 | Model of make_grid_plot, postbound/vis/plots.py 15-44, and of the distances of kamada_kawai_layout and fruchterman_reingold_layout, postbound/vis/fdl.py 33-68. Simplifications: data frames are given by the number of their labels; an axis is its position in ... [vis/fdl.py, vis/plots.py] |
| Hint_model.v | C29, C30, C62, C63, C64 | Model of PhysicalOperatorAssignment, PlanParameterization and the operator assignments, postbound/_hints.py 25-1211, and of the JSON reader opt/_helpers.py 89-141. Tables are numbers, operators are numbers of their kind, frozensets are canonical lists. [_hints.py, opt/_helpers.py] |
| Ident_model.v | C18, C19, C58 | Model of identifiers and of table and column references, [postbound/_core.py] and the JSON loaders of [postbound/parser.py]. Strings are byte strings. [_core.py, parser.py] |
| Inf_model.v | C350, C351, C352, C353, C354 | Model of the lookups of the join graph, postbound/opt/_joingraph.py 646-669, 1114-1148 (on the graph of JG_model); of TableInfo of database schemas, postbound/db/_db.py 726-747; of _query_plan_labels, postbound/vis/optimizer.py 327-353; and of ... [_core.py, db/_db.py, opt/_analysis.py, opt/_joingraph.py, vis/optimizer.py] |
| JG_model.v | C25, C73 | Model of the mutable join graph, postbound/opt/_joingraph.py 101-333, 405-614, 681-1039. Tables and columns are abstract; the state that a join graph can change -- the "free" attribute of the nodes and the index information of the columns -- lives in a heap, ... [opt/_joingraph.py] |
| JT_model.v | C26, C27, C28, C61 | Model of join trees: JoinTree and LogicalJoinTree, postbound/_hints.py 1230-1760, and their JSON form (opt/_helpers.py 630-666). The tables of the tree functions are any type with decidable equality (Python compares table references case-insensitively; here ... [_hints.py, opt/_helpers.py] |
| Lim_model.v | C17 | LIMIT / OFFSET clauses and their textual forms. postbound/qal/_qal.py 7552-7658 Limit postbound/qal/_formatter.py 570-622 _quick_format_limit postbound/postgres.py 2163-2190 PostgresLimitClause [_formatter.py, _qal.py, postgres.py, qal/_formatter.py, qal/_qal.py] |
| Log_model.v | C344, C345, C346, C347, C348 | Model of the progress of benchmarks, postbound/bench.py 569-624 with the loops 960-1004 and 1212-1231; of make_logger, postbound/util/logging.py 26-78; of tee_stdout 122-134; and of persist_workload, postbound/experiments/ceb.py 848-863. Simplifications: ... [bench.py, experiments/ceb.py, util/logging.py] |
| MPrint_model.v | C04 | Model of the text of arithmetic expressions: MathExpression.__str__ and _requires_brackets, postbound/qal/_qal.py 651-702. Operands that are not MathExpressions or numbers (columns, casts, function calls, CASE, subqueries) print as self-contained text and are ... [_qal.py, qal/_qal.py] |
| MSub_model.v | C241, C242, C243 | Model of move_into_subquery, postbound/transform.py 483-497, 519-638. Tables and column names are numbers. Expressions are columns and functions; renaming columns in them is rename_columns_in_expression (1429-1598) for the expressions it supports. [q_rest] ... [_qal.py, qal/_qal.py, transform.py] |
| Maint_model.v | C271, C272 | Model of maintaining statistics and the buffer pool of Postgres: postbound/postgres.py 1758-1860 PostgresStatisticsInterface.update_statistics postbound/postgres.py 938-1086 PostgresInterface.prewarm_tables, cooldown_tables postbound/postgres.py 1269-1295 ... [postgres.py, util/dicts.py] |
| MyFmt_model.v | C299, C300, C301, C302 | Model of how queries are written for MySQL: literals, casts and EXPLAIN clauses (postbound/mysql.py 461-505 and 626-638 with postbound/qal/_formatter.py 651-717, 1091) and the texts that are sent to the server (mysql.py 174-199, 253-277, 648-659). ... [_formatter.py, _qal.py, mysql.py, qal/_formatter.py] |
| My_model.v | C132, C133, C134 | Model of the MySQL backend, postbound/mysql.py: EXPLAIN plans 756-1212 and 648-666, hints 456-458 and 508-641, configuration files 675-703 with util/misc.py 21-26. Tables are numbers with their name and alias. Warnings and the texts of inspect() are left out. [mysql.py, util/misc.py] |
| Nrm_model.v | C372, C373 | Model of _normalize_filter_predicate, postbound/opt/tonic.py 146-175, with TableReference.drop_alias, postbound/_core.py 823-839. Simplifications: a predicate is given by its shape (operators, functions and constants) and its columns in order; renaming ... [_core.py, opt/tonic.py] |
| Num_model.v | C43, C39, C41 | Model of util/num.py [BoundedInt] and util/misc.py [Version], [DependencyGraph]. [util/misc.py, util/num.py] |
| PBuild_model.v | C292, C293, C294, C295, C296, C297, C298 | Model of the shorthands that build predicates (as_expression and as_predicate, postbound/qal/_qal.py 1865-1896 and 3497-3554), of the tables that a predicate requires (2367-2397) and of the output names of a SELECT clause (6057-6084). Simplifications: Python ... [qal/_qal.py, util/collections.py] |
| PConf_model.v | C287, C288, C289, C290, C291 | Model of reading and changing the settings of a Postgres server: postbound/postgres.py 84-250 (the sets of settings), 1088-1123 (current_configuration), 1125-1153 (apply_configuration), 1155-1203 (has_extension, on Linux) and postbound/opt/dynprog.py 629-660 ... [opt/dynprog.py, postgres.py, util/system.py] |
| PGHint_model.v | C31 | Model of the hint generation for PostgreSQL: the operator tables, _walk_join_order, _generate_pg_hint_plan_hints and _generate_pglab_hints, postbound/postgres.py 2058-2102 and 2201-2457. Tables are numbers, [name] is TableReference.identifier ([name] writes ... [_core.py, postgres.py] |
| PHint_model.v | C263, C264, C265 | Hints, preparatory statements and row limits in the parser. postbound/parser.py 1841-1896 _pglast_parse_limit postbound/parser.py 2102-2133 _pglast_parse_set_commands postbound/parser.py 2136-2194 _parse_hint_block postbound/qal/_qal.py 7575-7586 Limit ... [parser.py, qal/_qal.py] |
| PJG_model.v | C355, C356, C357, C358 | Model of plot_join_graph, postbound/vis/optimizer.py 48-173; of merged_annotation and setup_annotations 294-324; and of the escaping of labels for relational algebra 448-458. Simplifications: a drawing is the list of its nodes (identifier, label, colour) and ... [vis/optimizer.py] |
| PLab_model.v | C196, C197 | Model of the hints of entire query plans for PostgreSQL: _extract_plan_join_order, _iter_plan_bfs and _generate_pglab_plan, postbound/postgres.py 2460-2538, and PostgresHintService.generate_hints 2588-2659. Plans are those of QPlan_model, tables are numbers, ... [postgres.py] |
| PPrint_model.v | C03 | Model of the text of predicates: [__str__] of the predicate classes, postbound/qal/_qal.py. A text is a list of tokens. The text of a base predicate (comparison, BETWEEN, IN, ...) is one atom: it is assumed to be self-contained, i.e. the arguments of base ... [_qal.py, qal/_formatter.py, qal/_qal.py] |
| PQ_model.v | C317, C318, C319, C320, C321 | Model of the entry point of the parser, postbound/parser.py 1981-2015 (_pglast_parse_explain), 2197-2205 (_apply_extra_clauses), 2240-2341 (parse_query) and 2344-2367 (load_query); of RelOptInfo, postbound/opt/dynprog.py 480-492; and of as_complete_algorithm, ... [_stages.py, opt/dynprog.py, parser.py] |
| PText_model.v | C259, C260, C261, C262 | The texts that describe a query plan. postbound/_qep.py 1841-1884 QueryPlan.inspect, explain, plan_summary, ast postbound/_qep.py 1980-2093 _default_explain, _custom_explain, _explainify, _astify Simplifications: texts are lists of characters. The values of a ... [_qep.py] |
| Par_model.v | C53 | Model of the parallel query executor, postbound/postgres.py 3280-3473. Futures are numbered in the order of submission. What the execution of each future leads to is given; [order] is the order in which as_completed() yields them, it ends early if draining ... [postgres.py] |
| Path_model.v | C35, C78 | The PostgreSQL-style path pruning of the dynamic programming enumerator and the sort keys it compares. postbound/_qep.py 27-182 SortKey postbound/opt/dynprog.py 725-789 standard_add_path postbound/opt/dynprog.py 1206-1221 _set_cheapest ... [_core.py, _qal.py, _qep.py, dynprog.py, opt/dynprog.py, util/_errors.py] |
| PgDP_model.v | C114, C115, C116 | Model of the PostgreSQL-style dynamic programming enumerator, postbound/opt/dynprog.py 438-1824 (PostgresDynProg), for cost models other than the one of PostgreSQL itself (_is_pg_cost 1681-1685 is false; only the final choice 681-695 is modelled for it). ... [_qep.py, opt/dynprog.py, util/collections.py] |
| PgOpt_model.v | C303, C304, C305, C306, C307, C308 | Model of the optimizer interface and the choice of the hinting backend for Postgres, postbound/postgres.py: execute_query 694-773 with _apply_preparatory_statements 630-635, PostgresOptimizer 2847-2950, PostgresExplainPlan.__init__ 4435-4442, and ... [db/_db.py, postgres.py, qal/_qal.py, transform.py] |
| Pipe_model.v | C46, C68 | Model of the optimization pipelines, postbound/_pipelines.py 320-1294: which components are used when. A component (optimization stage) is an identity together with its pre-check. The optimization itself is not modelled: a successful call of ... [_pipelines.py, _stages.py, qal/_qal.py, validation.py] |
| Pred_model.v | C01, C15 | Model of PostBOUND's predicate hierarchy ([postbound/qal/_qal.py]) and of [QueryPredicates]. Tables and column names are numbers (only their equality and order matter here). The scalar expressions inside base predicates are a type parameter [E] together with ... [_core.py, _qal.py, qal/_qal.py] |
| Pty_model.v | C368, C369, C370, C371 | Model of _pglast_parse_operator, _pglast_parse_type, _pglast_parse_case and _pglast_parse_predicate, postbound/parser.py 677-808 and 1667-1695, and of the checks and properties of CaseExpression, postbound/qal/_qal.py 1470-1530. Simplifications: operators are ... [parser.py, qal/_qal.py] |
| QConv_model.v | C87, C88, C89, C90 | Model of the conversions between query plans, join trees, operator assignments and plan parameters (postbound/_hints.py 1766-1872, opt/_helpers.py 170-252, 309-527, 669-690), of the JSON form of plans (_qep.py 1889-1898, opt/_helpers.py 530-627) and of the ... [_core.py, _hints.py, _qep.py, opt/_helpers.py] |
| QFmt_model.v | C244 | Model of the quick formatter, postbound/qal/_formatter.py 66-159, 162-297, 300-333, 336-371, 455-567, 570-622 (flavor "vanilla"), 625-924, 1033-1138, and of str() of queries, qal/_qal.py. Only the flavor "vanilla" without inlined hint blocks. Joins in FROM ... [qal/_formatter.py, qal/_qal.py] |
| QGen_model.v | C214, C215, C216, C217, C218 | Model of the random query generator, postbound/experiments/querygen.py 29-333. Tables are numbers, a column is a pair of its table and its own number. The graph of the schema (DatabaseSchema.as_graph, db/_db.py 1441-1480, see Sch_model) is given by the tables ... [_qal.py, db/_db.py, experiments/querygen.py, nx.py, qal/_qal.py] |
| QGraph_model.v | C254, C255, C256, C257 | Model of the annotated join graph of a query's predicates (QueryPredicates.join_graph, postbound/qal/_qal.py 4411-4481), of the two further strategies of QueryPredicates.joins_between (4807-4900), and of the SimpleJoin view (3944-4175). As in [Pred_model], ... [_core.py, qal/_qal.py] |
| QPlan_model.v | C81, C82, C83, C84, C85, C86 | Model of QueryPlan, postbound/_qep.py 735-1974. Tables are numbers. Cardinalities are those of Card_model. [_qep.py] |
| QPred_model.v | C08, C09, C10 | Model of the connectivity checks of [QueryPredicates] (postbound/qal/_qal.py) and of the cross product check built on top of them. [_qal.py, qal/_qal.py, validation.py] |
| QPrep_model.v | C246 | Preparing queries for a benchmark. postbound/bench.py 149-317 QueryPreparation postbound/bench.py 530-567 _execute_query postbound/transform.py 672-717, 749-786 as_star_query, as_count_star_query, as_explain, as_explain_analyze (in Clause_model) ... [bench.py, transform.py] |
| RExp_model.v | C237, C238, C239, C240 | Model of replace_expressions and replace_predicate, postbound/transform.py 960-1333. Names are numbers. Expressions are opaque except for subqueries (SubqueryExpression, qal/_qal.py 1209-1290), because the replacement decides what happens below an expression. ... [_core.py, qal/_qal.py, transform.py] |
| RTab_model.v | C108, C109 | Model of rename_table and merge_tables, postbound/transform.py 1333-1430, 1700-1924 (columns), 1927-2339 (tables), 2361-2447. Names are numbers. Table references have a full name and an alias (schemas and the virtual flag are left out, neither matters for ... [_core.py, transform.py] |
| RVis_model.v | C278, C279 | Model of visiting relational algebra, postbound/relalg.py 449-2440 (the methods accept_visitor), and of finding the base table of a predicate, relalg.py 2959-3124 (_BaseTableLookup). Simplifications: nodes are given by their kind and a number (their ... [relalg.py] |
| RelMut_model.v | C91, C92, C93, C94, C95, C96 | Model of copying and modifying relational algebra trees: RelNode.mutate and _RelNodeUpdateManager, postbound/relalg.py 229-281 and 2523-2716, parse_relalg 4266-4284 with its final copy, hash values 105, 392-396, 433-434 and leaf() 139-149. The objects of a ... [relalg.py] |
| Rel_model.v | C91, C92, C93, C94 | Model of the translation of SQL queries to relational algebra, postbound/relalg.py. Covered are queries over base tables (FROM lists, no explicit joins, which the code rejects, 3519-3522), WHERE, GROUP BY, HAVING, ORDER BY and SELECT without nested ... [_qal.py, relalg.py] |
| SCache_model.v | C55 | Model of the parser's schema cache, postbound/parser.py 117-201. A database schema is an identity (schemas are equal if they belong to the same database, db/_db.py 1590-1591) together with its catalog: the columns of a table in the current or a named database ... [db/_db.py, parser.py] |
| SText_model.v | C124, C125 | The text of explicit joins and of set queries. postbound/qal/_qal.py 6672-6753, 6917-6920 JoinType, JoinTableSource.__init__, JoinTableSource.__str__ postbound/qal/_qal.py 7782-7786, 7861-7864, 7956-7959 UnionClause.__str__, ExceptClause.__str__, ... [qal/_formatter.py, qal/_qal.py] |
| Sch_model.v | C199, C200, C201, C202, C203 | Model of the database schemas: DatabaseSchema (postbound/db/_db.py 748-1590) and its specialisations PostgresSchemaInterface (postbound/postgres.py 1339-1628), MysqlSchemaInterface (postbound/mysql.py 280-406) and DuckDBSchema (postbound/duckdb.py 237-382). ... [_core.py, _db.py, db/_db.py, duckdb.py, mysql.py, postgres.py] |
| Sel_model.v | C191, C192, C193 | Model of the exhaustive and the random selection of operators and plans, postbound/opt/enumeration.py 209-433 and opt/randomized.py 323-651, of the native cost model, opt/native.py 57-405, and of the parameters of native plans, opt/native.py 491-518. ... [_qep.py, enumeration.py, opt/enumeration.py, opt/native.py, opt/randomized.py, randomized.py] |
| Shift_model.v | C247, C248, C249 | Deleting rows from a Postgres database. postbound/postgres.py 4536-4996 WorkloadShifter postbound/db/_db.py 1013-1066 DatabaseSchema.primary_key_column postbound/db/_db.py 2085-2125, 2697-2719 DatabaseStatistics.total_rows, emulated The database is modelled ... [_db.py, db/_db.py, postgres.py] |
| Src_model.v | C117, C118, C119, C120, C121, C122, C123 | Table sources and what a query says about its tables, columns, subqueries, predicates and result columns. postbound/qal/_qal.py 1244-1290 SubqueryExpression postbound/qal/_qal.py 4702-4743 QueryPredicates.and_ postbound/qal/_qal.py 5304-5722 WithQuery, ... [_core.py, qal/_qal.py] |
| Stats_model.v | C32, C33, C65 | Model of column statistics: MostCommonValues and Histogram, postbound/db/_db.py 1600-1962, and of the histograms read from PostgreSQL, postbound/postgres.py 1954-2037. Column values are integers, frequencies natural numbers. [db/_db.py, postgres.py] |
| TExpl_model.v | C277 | Model of the exploration of operator costs of TONIC, postbound/opt/tonic.py 1165-1267 (_generate_all_cost_estimates, _sample_cost_estimates) and 1391-1457 (TonicOperatorSelection.explore_costs), with JoinTree.tables and iterjoins, postbound/_hints.py ... [_hints.py, opt/tonic.py] |
| Tmo_model.v | C52 | Model of the timeout executor, postbound/postgres.py 3476-3875. The worker process and the main process communicate through a pipe only. Time is counted in abstract units from the start of the worker. The behaviour of the worker's environment (database ... [postgres.py] |
| Tonic_model.v | C34, C75, C76, C77 | Model of the QEP-S (query execution plan synopsis) of TONIC, postbound/opt/tonic.py 42-886. Simplifications: costs are exact rationals instead of doubles. Operators are numbers. A table is a pair of its name and its alias (alias 0: none); [tlt] is the order ... [_hints.py, _qep.py, opt/tonic.py, tonic.py] |
| Train_model.v | C110, C111, C112, C113 | Model of training data and of training optimization stages: postbound/train/_train.py, postbound/_pipelines.py 179-302, postbound/_stages.py 20-153, 187-346. Features, columns and names are numbers. Pandas data frames are modelled by their column names and ... [_pipelines.py, _stages.py, _train.py, train/_train.py] |
| Trans_model.v | C02, C11, C12, C13, C14, C57 | Model of the predicate transformations of [postbound/transform.py]. [_qal.py, transform.py] |
| UO_model.v | C208, C209, C210, C211, C227 | Model of the UES join order optimizer: UESJoinOrderOptimizer, postbound/opt/ues.py 1037-1080, 1106-1477, with the join paths of the join graph, postbound/opt/_joingraph.py 462-535, 616-644, 822-897, 1057-1079, and nx_bfs_tree, util/nx.py 133-187. The join ... [_hints.py, nx.py, opt/_joingraph.py, opt/ues.py, util/nx.py] |
| Ues_model.v | C22, C74 | Model of the UES upper bounds: [UESBoundEstimator], postbound/opt/ues.py 670-806, and the maintenance of the column frequencies in [StatsContainer.trigger_frequency_update] 161-220 with [MaxFrequencyStats] 333-346. Tables are numbers, a column is a pair of ... [_core.py, opt/ues.py, util/dicts.py] |
| Vis_model.v | C337, C338, C339, C340, C341 | Model of plot_tree, postbound/vis/trees.py 13-105; of the children that are drawn for query plans, postbound/vis/optimizer.py 356-371; of text_diff, postbound/opt/_analysis.py 98-127; of presets.fetch, postbound/opt/presets.py 117-155; and of timeouts of ... [duckdb.py, opt/_analysis.py, opt/presets.py, vis/optimizer.py, vis/trees.py] |
| WLoad_model.v | C273, C274, C275 | Model of further ways to load workloads, postbound/workloads.py: 55-81 _fetch_workload 767-875 read_batch_workload, read_csv_workload 924-1172 _assert_workload_loaded, job, job_light, job_complex, ssb, stack, stats, fetch_workload Simplifications: texts are ... [workloads.py] |
| Wlk_model.v | C363, C364, C365, C366, C367 | Model of GraphWalk, postbound/util/nx.py 190-295; of _generate_expression_mapping_dict, postbound/relalg.py 2754-2810; and of _CardinalityEstimatorWrapper, postbound/opt/ues.py 550-589. Simplifications: edge data is opaque, with values for dictionaries that ... [opt/ues.py, relalg.py, util/nx.py] |
| Work_model.v | C49, C50, C70, C71 | Model of workloads, postbound/workloads.py 92-921. Labels and queries are arbitrary types with decidable equality. natsort.natsorted is an arbitrary function [nsort], random choices (random.sample) are given by an arbitrary function [choice] that permutes the ... [workloads.py] |
<!-- modelled code: end -->
