{"id": "C01", "title": "filters() and joins() together are the WHERE clause", "statement": "For a query, a row combination satisfies the WHERE predicate if and only if it satisfies every predicate returned by query.filters() and every predicate returned by query.joins(): splitting a query into filters and joins neither loses nor adds a condition. Every join predicate that is reported is a join (touches at least two tables), every filter is not a join.", "quantifier": "for every predicate tree (AND/OR/NOT nesting of any depth over comparison, BETWEEN, IN and unary base predicates) and every assignment of SQL values (including NULL) to columns", "why_tests_cant": "predicate trees are unboundedly nested and equivalence is over all database contents with three-valued logic; tests only try a handful of flat conjunctions", "anchors": ["postbound/qal/_qal.py: QueryPredicates.filters, QueryPredicates.joins, _collect_filter_predicates, _collect_join_predicates, AbstractPredicate.is_join"]}
{"id": "C02", "title": "Un-nesting conjunctions preserves meaning", "statement": "transform.flatten_and_predicate returns a predicate with the same truth value (true / false / unknown) as its input on every row, mentions the same columns, and contains no conjunction nested directly inside a conjunction.", "quantifier": "for every predicate tree and every row, three-valued logic", "why_tests_cant": "arbitrary nesting depth, and equality has to hold for all rows", "anchors": ["postbound/transform.py: flatten_and_predicate"]}
{"id": "C03", "title": "Rendering a predicate keeps its logical structure", "statement": "str(predicate), read back with the SQL precedence rules (NOT binds tighter than AND, AND tighter than OR, parentheses override), denotes a predicate that has the same truth value on every row as the original predicate.", "quantifier": "for every predicate tree of arbitrary nesting and every row", "why_tests_cant": "the text is only correct if no combination of nested operators needs parentheses that were not printed; tests look at some fixed strings", "anchors": ["postbound/qal/_qal.py: CompoundPredicate.__str__, CompoundPredicate._stringify_not, CompoundPredicate._stringify_or"]}
{"id": "C04", "title": "Rendering an arithmetic expression keeps its value", "statement": "str(expression) of an arithmetic expression, read back with the usual precedence and left associativity of + - * / %, evaluates to the same value as the original expression.", "quantifier": "for every arithmetic expression tree and every assignment of values to columns", "why_tests_cant": "unbounded nesting; wrong only for particular operator/child combinations", "anchors": ["postbound/qal/_qal.py: MathExpression.__str__, MathExpression._requires_brackets"]}
{"id": "C05", "title": "columns() and tables() report everything an expression mentions", "statement": "For every SQL expression or predicate, columns() is exactly the set of column references that occur anywhere inside of it, itercolumns() lists the same set, and tables() is exactly the set of tables these columns are bound to.", "quantifier": "for every expression tree built from columns, literals, casts, functions (with FILTER), arithmetic, CASE, window, array expressions and predicates", "why_tests_cant": "structural recursion over an open set of shapes; a forgotten child only shows for the specific node kind in the specific argument position", "anchors": ["postbound/qal/_qal.py: SqlExpression.columns, SqlExpression.tables, SqlExpression.itercolumns, CaseExpression.iterchildren, WindowExpression.iterchildren, MathExpression.tables, MathExpression.columns"]}
{"id": "C06", "title": "Equal predicates are interchangeable as dictionary keys", "statement": "Predicate equality is reflexive and symmetric, and predicates that compare equal have equal hash values (so sets and dictionaries of predicates treat them as one).", "quantifier": "for every pair of predicates, and every hash function on the underlying tuples", "why_tests_cant": "quantifies over pairs of structurally different but equal objects and over hash functions", "anchors": ["postbound/qal/_qal.py: InPredicate.__eq__, InPredicate.__init__, SimpleFilter.__eq__, SimpleFilter.__hash__, SimpleJoin.__eq__, BinaryPredicate.__eq__, CompoundPredicate.__eq__"]}
{"id": "C07", "title": "A simplified filter means the same as the filter it wraps", "statement": "If SimpleFilter.wrap(p) succeeds with (column, operation, value), then the condition `column operation value` is true on exactly the rows on which p is true.", "quantifier": "for every filter predicate p that can be wrapped and every row", "why_tests_cant": "needs all operators, both argument orders, all rows", "anchors": ["postbound/qal/_qal.py: SimpleFilter, _attempt_filter_unwrap, _unwrap_expression"]}
{"id": "C08", "title": "joins_between returns exactly the join predicates between two tables", "statement": "query.joins_between(A, B) is symmetric in A and B, and is the conjunction of exactly those join predicates of the query that connect A and B (None if and only if there is none).", "quantifier": "for every list of binary join predicates and every pair of tables", "why_tests_cant": "any number of predicates in any order between any tables", "anchors": ["postbound/qal/_qal.py: QueryPredicates.joins_between, QueryPredicates._map_based_joins_between, QueryPredicates._init_join_predicate_map, QueryPredicates.joins_for"]}
{"id": "C09", "title": "joins_tables decides connectivity of the join graph", "statement": "query.joins_tables(T) returns True if and only if any two tables of T are connected by a chain of join predicates of the query that only uses tables of T.", "quantifier": "for every join graph, every non-empty set of tables T and every set iteration order", "why_tests_cant": "graphs and subsets of arbitrary size; iteration order of Python sets is arbitrary", "anchors": ["postbound/qal/_qal.py: QueryPredicates.joins_tables, QueryPredicates._join_tables_check"]}
{"id": "C10", "title": "The cross product check recognises every cross product", "statement": "The cross product pre-check accepts a query if and only if the query can be evaluated without cross product, i.e. the join graph over all tables of the FROM clause is connected; and SqlQuery.contains_cross_product() answers the same question.", "quantifier": "for every set of FROM tables and every set of filter and join predicates over them", "why_tests_cant": "arbitrary graphs; the missing case is a table without any predicate", "anchors": ["postbound/validation.py: CrossProductPreCheck", "postbound/qal/_qal.py: SqlQuery.contains_cross_product, QueryPredicates.join_graph"]}
{"id": "C11", "title": "Adding equivalence-class predicates does not change the query result", "statement": "transform.add_ec_predicates(query) has a WHERE clause that is true on exactly the rows on which the original WHERE clause is true; the derived equivalence classes are the connected components of the equality join predicates.", "quantifier": "for every conjunctive WHERE clause (any mix of filters, equi-joins, other joins) and every row", "why_tests_cant": "transitive closure over arbitrarily many columns, all rows, non-equi joins mixed in", "anchors": ["postbound/transform.py: add_ec_predicates", "postbound/qal/_qal.py: determine_join_equivalence_classes, generate_predicates_for_equivalence_classes"]}
{"id": "C12", "title": "A query fragment keeps only weaker conditions", "statement": "The predicate that transform.extract_query_fragment keeps for a subset of tables mentions only tables of the subset and is implied by the original WHERE clause: every row combination that satisfies the query also satisfies the fragment.", "quantifier": "for every predicate tree, every subset of tables and every row", "why_tests_cant": "implication over all rows and all nestings", "anchors": ["postbound/transform.py: extract_query_fragment, _get_predicate_fragment"]}
{"id": "C13", "title": "Renaming columns commutes with evaluation", "statement": "After transform.rename_columns_in_predicate with a renaming, evaluating the new predicate on a row gives the same truth value as evaluating the old predicate on the row in which every column is looked up under its renamed name.", "quantifier": "for every predicate, every renaming (not necessarily injective) and every row", "why_tests_cant": "all predicates, all renamings, all rows", "anchors": ["postbound/transform.py: rename_columns_in_predicate, rename_columns_in_expression"]}
{"id": "C14", "title": "Explicit joins can be written as implicit joins", "statement": "transform.explicit_to_implicit turns a tree of INNER JOIN ... ON into a FROM list plus WHERE predicate that produces exactly the same bag of rows (up to the order of columns).", "quantifier": "for every inner-join tree of base tables, every set of ON conditions, every optional WHERE and every database instance", "why_tests_cant": "bag semantics over all database instances and join tree shapes", "anchors": ["postbound/transform.py: explicit_to_implicit"]}
{"id": "C15", "title": "Predicates of any query can be analysed", "statement": "Building the predicate view of a query (query.predicates()) terminates without an exception for every WHERE clause.", "quantifier": "for every predicate tree", "why_tests_cant": "only particular OR/NOT/AND mixtures of joins and filters fail", "anchors": ["postbound/qal/_qal.py: QueryPredicates.__init__, QueryPredicates._init_join_predicate_map, CompoundPredicate.join_partners"]}
{"id": "C16", "title": "Assembling a query from its clauses is the identity", "statement": "build_query(query.clauses()) equals the query; adding, replacing or dropping one clause with transform.add_clause / replace_clause / drop_clause changes that clause only: every other clause of the query is unchanged, and dropping a clause that was just added to a query without such a clause yields the original query.", "quantifier": "for every combination of optional clauses", "why_tests_cant": "2^10 clause combinations times arbitrary clause contents", "anchors": ["postbound/qal/_qal.py: build_query, SqlQuery.clauses, SqlQuery.__eq__", "postbound/transform.py: add_clause, drop_clause, replace_clause"]}
{"id": "C17", "title": "A formatted LIMIT clause asks for the same rows", "statement": "The LIMIT / OFFSET text produced for a query (format_quick in both dialects and the Postgres-specific clause) selects the same sub-list of rows as the Limit object, for every input row list.", "quantifier": "for every limit/offset combination accepted by the constructor and every result list", "why_tests_cant": "boundary values of two optional integers, all result sizes", "anchors": ["postbound/qal/_formatter.py: _quick_format_limit", "postbound/postgres.py: PostgresLimitClause.__str__", "postbound/qal/_qal.py: Limit"]}
{"id": "C18", "title": "Table and column references survive a JSON round trip", "statement": "load_table_json(to_json(t)) == t and load_column_json(to_json(c)) == c.", "quantifier": "for every table reference (name, alias, schema, virtual flag) and every column reference", "why_tests_cant": "all combinations of optional attributes", "anchors": ["postbound/parser.py: load_table_json, load_column_json", "postbound/_core.py: TableReference.__json__, ColumnReference.__json__"]}
{"id": "C19", "title": "Quoted identifiers denote the identifier they were made from", "statement": "quote(name) is a lexically valid SQL identifier token (or keeps an unquoted identifier unchanged) which, when read by an SQL lexer, denotes exactly `name`.", "quantifier": "for every identifier string", "why_tests_cant": "all strings, including ones containing quotes and upper case letters", "anchors": ["postbound/_core.py: quote, normalize"]}
{"id": "C20", "title": "The dynamic programming enumerator returns a cheapest cross-product free plan", "statement": "When the DynamicProgrammingEnumerator finishes, the plan it returns has minimal cost among all operator trees for the query that contain no cross product, as long as the cost of a plan does not decrease when the cost of one of its inputs increases.", "quantifier": "for every connected join graph, every monotone cost model, every operator set and every enumeration order of the intermediate results", "why_tests_cant": "optimality is a statement about the exponentially many plans that are not looked at; tests compare against a few hand-computed plans", "anchors": ["postbound/opt/dynprog.py: DynamicProgrammingEnumerator.generate_execution_plan, _determine_dynprog_base_tables, _determine_dynprog_intermediates"]}
{"id": "C21", "title": "The dynamic programming enumerator returns a plan for exactly the query's tables", "statement": "The returned plan scans every table of the query exactly once and nothing else, joins only inputs that are connected by a join predicate, and a plan is always found if the join graph is connected.", "quantifier": "for every connected join graph", "why_tests_cant": "all graphs, all sizes", "anchors": ["postbound/opt/dynprog.py: DynamicProgrammingEnumerator"]}
{"id": "C22", "title": "The UES bound never under-estimates", "statement": "The cardinality bound computed by the UES upper bound estimation for an n:m join is at least the true number of result rows of the join, provided its inputs are correct bounds (row count and maximum frequency of the join column).", "quantifier": "for every pair of relations (every multiset of join column values) and every pair of correct input bounds", "why_tests_cant": "must hold for every database; tests use one fixed database", "anchors": ["postbound/opt/ues.py: UESBoundEstimator, _estimate_n_m_join", "postbound/_core.py: Cardinality.__truediv__"]}
{"id": "C23", "title": "Random join orders are always complete", "statement": "Every join order drawn by the random join order generator contains every table of the query exactly once and every join connects two join partners (no cross product), no matter which random choices are made, and the sampling always terminates.", "quantifier": "for every connected join graph and every sequence of random choices", "why_tests_cant": "all random seeds and all graphs", "anchors": ["postbound/opt/randomized.py: _sample_join_graph, RandomJoinOrderGenerator"]}
{"id": "C24", "title": "The exhaustive join order enumeration is sound", "statement": "Every join tree produced by the exhaustive enumeration contains each table of the query exactly once and has no cross product.", "quantifier": "for every connected join graph, for every produced tree", "why_tests_cant": "all graphs; the number of trees is exponential", "anchors": ["postbound/opt/enumeration.py: _enumerate_join_graph, ExhaustiveJoinOrderEnumerator.all_join_orders_for"]}
{"id": "C25", "title": "The join graph tracks joined tables consistently", "statement": "After any sequence of JoinGraph.mark_joined calls, the joined tables are exactly the marked ones, a table never becomes free again, free and joined tables partition the tables of the query, available join paths always lead from a joined to a free table (once there is a joined table), and a clone does not change when the original is changed.", "quantifier": "for every join graph and every sequence of operations on the graph and its clones", "why_tests_cant": "all operation histories", "anchors": ["postbound/opt/_joingraph.py: JoinGraph.mark_joined, JoinGraph.joined_tables, JoinGraph.free_tables, JoinGraph.available_join_paths, JoinGraph.clone"]}
{"id": "C26", "title": "Join trees enumerate their tables and sub-joins faithfully", "statement": "For a join tree, tables() is the set of scanned tables, len() counts them, iternodes visits every node exactly once with the joins below it, lookup(T) returns a node whose tables are exactly T or None if there is none, and join_with adds exactly the other tree.", "quantifier": "for every join tree of every shape and every lookup set", "why_tests_cant": "all shapes and sets", "anchors": ["postbound/_hints.py: JoinTree.tables, JoinTree.iternodes, JoinTree.lookup, JoinTree.join_with, JoinTree.__len__"]}
{"id": "C27", "title": "Linearity of a join tree is recognised", "statement": "JoinTree.is_linear() returns True if and only if every join of the tree has at least one base table as input; is_bushy is its negation.", "quantifier": "for every join tree", "why_tests_cant": "the difference shows only below the root", "anchors": ["postbound/_hints.py: JoinTree.is_linear, JoinTree.is_bushy", "postbound/_qep.py: QueryPlan.is_linear"]}
{"id": "C28", "title": "A join tree survives the JSON round trip", "statement": "Reading the JSON form of a join tree gives a join tree equal to the original.", "quantifier": "for every join tree over tables without explicit database schema", "why_tests_cant": "all shapes", "anchors": ["postbound/_hints.py: JoinTree.__json__", "postbound/opt/_helpers.py: read_jointree_json"]}
{"id": "C29", "title": "Operator assignments: the last assignment wins and merging keeps both sides", "statement": "After PhysicalOperatorAssignment.set/add, get returns the operator that was assigned last to the scan, join or intermediate; other entries are unchanged; merge_with keeps every entry of both assignments and prefers the other assignment on conflicts; clone is equal and independent; two assignments compare equal only if all their lookups agree.", "quantifier": "for every sequence of assignments and every lookup", "why_tests_cant": "all histories", "anchors": ["postbound/_hints.py: PhysicalOperatorAssignment.set, add, get, merge_with, clone, __eq__"]}
{"id": "C30", "title": "Plan parameters: merging keeps both sides", "statement": "PlanParameterization.merge_with keeps every cardinality, worker hint, system setting and the execution mode of both parameterizations, preferring the other parameterization on conflicts.", "quantifier": "for every pair of parameterizations", "why_tests_cant": "all pairs", "anchors": ["postbound/_hints.py: PlanParameterization.merge_with"]}
{"id": "C31", "title": "Generated optimizer hints reproduce the optimizer decisions", "statement": "The join order hint generated for a join tree determines the join tree (two different trees never generate the same hint), and every assigned scan and join operator occurs as a hint for exactly its own tables in the generated pg_lab hint block.", "quantifier": "for every join tree and every operator assignment including parallel workers", "why_tests_cant": "all trees; the failure needs several parallel operators", "anchors": ["postbound/postgres.py: _walk_join_order, _generate_pglab_hints, _generate_pghintplan_hints"]}
{"id": "C32", "title": "Histogram estimates are consistent", "statement": "For a histogram over a column, frequency_below(v) and frequency_above(v) lie between 0 and the number of rows, frequency_below grows and frequency_above shrinks with v, and with the conservative `bound` interpolation the estimates are upper bounds of the true number of smaller-or-equal / greater values.", "quantifier": "for every column (list of values), every number of bins and every probe value", "why_tests_cant": "all columns and probe values", "anchors": ["postbound/db/_db.py: Histogram.frequency_below, Histogram.frequency_above, _infer_histogram_bounds"]}
{"id": "C33", "title": "Most common value lists are ordered and bound the missing values", "statement": "MostCommonValues iterates in descending frequency, top(k) and below(k) partition the list, min_freq/max_freq are the smallest/largest frequency, and frequency_of returns the stored frequency, the default, or the minimum frequency for missing values as requested.", "quantifier": "for every list of value/frequency pairs with distinct values and every k", "why_tests_cant": "all lists", "anchors": ["postbound/db/_db.py: MostCommonValues"]}
{"id": "C34", "title": "Tonic operator costs are a discounted sum and the recommendation is the cheapest operator", "statement": "After the costs c1..cn were integrated for an operator at a QEP-S node, its stored cost is c_n + g*c_(n-1) + ... + g^(n-1)*c_1, the costs of other operators are unchanged, and the recommended operator has minimal stored cost.", "quantifier": "for every sequence of updates, every discount factor g and every operator", "why_tests_cant": "all histories", "anchors": ["postbound/opt/tonic.py: QEPsNode.update_costs, QEPsNode.current_recommendation"]}
{"id": "C35", "title": "The Postgres-style path pruning never discards a needed path", "statement": "After any sequence of candidate paths was offered to the path pruning, for every offered path a path is retained that is (up to the fuzz factor) at most as expensive and at least as well sorted.", "quantifier": "for every sequence of candidate paths (costs, sort orders)", "why_tests_cant": "all histories of additions and evictions", "anchors": ["postbound/opt/dynprog.py: standard_add_path, PostgresDynProg._sorting_subsumes"]}
{"id": "C36", "title": "Cardinalities are ordered consistently", "statement": "For cardinalities, <, <=, >, >= form a total order on valid values with infinity above every finite value: exactly one of a<b, a==b, a>b holds, a>b iff b<a, and comparisons never raise.", "quantifier": "for every pair of cardinalities (finite, infinite) and plain numbers", "why_tests_cant": "all pairs; the asymmetry only shows for infinity", "anchors": ["postbound/_core.py: Cardinality.__lt__, Cardinality.__le__, Cardinality.__gt__, Cardinality.__ge__, Cardinality.__eq__"]}
{"id": "C37", "title": "Unknown cardinalities are contagious, arithmetic is exact otherwise", "statement": "Arithmetic with an unknown (NaN) cardinality is unknown, with an infinite one infinite; on finite cardinalities + - * agree with integer arithmetic, and equal cardinalities have equal hashes.", "quantifier": "for every pair of cardinalities", "why_tests_cant": "all values", "anchors": ["postbound/_core.py: Cardinality.__add__, __sub__, __mul__, __truediv__, __hash__"]}
{"id": "C38", "title": "Queues behave like bounded FIFO queues", "statement": "util.Queue returns the elements in insertion order, each exactly once; util.SizedQueue never holds more than its capacity and always holds the most recently appended elements in order.", "quantifier": "for every sequence of operations and every element value", "why_tests_cant": "all histories, all values (including falsy ones)", "anchors": ["postbound/util/collections.py: Queue, SizedQueue"]}
{"id": "C39", "title": "A bounded integer never leaves its range", "statement": "Whatever arithmetic and assignment operations are applied to a BoundedInt, its value stays between the minimum and maximum.", "quantifier": "for every range and every sequence of operations", "why_tests_cant": "all histories", "anchors": ["postbound/util/num.py: BoundedInt"]}
{"id": "C40", "title": "Atomic integers do not lose updates", "statement": "If several threads concurrently apply increments to an AtomicInt, the final value is the start value plus the sum of all increments, for every thread interleaving, and every operation eventually finishes.", "quantifier": "for every number of threads, every list of operations per thread and every interleaving", "why_tests_cant": "all schedules", "anchors": ["postbound/util/num.py: AtomicInt"]}
{"id": "C41", "title": "Versions are totally ordered", "statement": "Version comparison is a total order (reflexive, antisymmetric, transitive, total) that agrees with component-wise comparison, a proper prefix being smaller; comparing with a string, number or list is the same as comparing with the version built from it.", "quantifier": "for every pair/triple of versions", "why_tests_cant": "all lengths and components", "anchors": ["postbound/util/misc.py: Version"]}
{"id": "C42", "title": "powerset and pairs enumerate every combination exactly once", "statement": "util.powerset(xs) yields every sub-collection of xs exactly once, in order of increasing size; util.pairs(xs) yields every unordered pair of positions exactly once; sliding_window yields every window of the given size exactly once.", "quantifier": "for every input list", "why_tests_cant": "exponentially many results for all input sizes", "anchors": ["postbound/util/collections.py: powerset, pairs, sliding_window"]}
{"id": "C43", "title": "Dependency graphs hand out dependencies first", "statement": "Iterating over a DependencyGraph yields every registered task exactly once and every task only after all tasks it depends on.", "quantifier": "for every acyclic dependency graph", "why_tests_cant": "all graphs", "anchors": ["postbound/util/misc.py: DependencyGraph"]}
{"id": "C44", "title": "Dictionary helpers respect dictionary semantics", "statement": "dicts.merge keeps all keys and resolves conflicts with the given updater (default: second dictionary), intersection/difference keep exactly the common/missing keys with the values of the first dictionary, hash_dict gives equal values to equal dictionaries, and inverting a multi-dictionary maps each value back to exactly its keys.", "quantifier": "for every pair of dictionaries", "why_tests_cant": "all key/value/orders", "anchors": ["postbound/util/dicts.py: merge, intersection, difference, hash_dict, invert_multi"]}
{"id": "C45", "title": "Combined pre-checks accept exactly what all their parts accept", "statement": "A compound pre-check accepts a query (database system) if and only if every one of the merged checks accepts it, and reports the failure reasons of all failing checks; merging checks never drops one.", "quantifier": "for every list of checks and every query / database", "why_tests_cant": "all combinations", "anchors": ["postbound/validation.py: CompoundCheck, merge_checks, PreCheckResult.merge"]}
{"id": "C46", "title": "A pipeline only optimizes with validated components", "statement": "In the multi-stage, textbook and integrated pipelines, optimize_query is only ever executed with components whose database support check succeeded after they were installed: changing a component requires a new build() before the next optimization.", "quantifier": "for every sequence of setup/build/optimize calls", "why_tests_cant": "all call histories", "anchors": ["postbound/_pipelines.py: MultiStageOptimizationPipeline, TextBookOptimizationPipeline, IntegratedOptimizationPipeline, IncrementalOptimizationPipeline"]}
{"id": "C47", "title": "A benchmark reports one row per query and repetition", "statement": "Executing a workload with error_action 'log' produces exactly one result row for every query and workload/per-query repetition, in execution order with strictly increasing execution index, no matter which optimizations and executions succeed, fail or time out; failures are reported as such and do not influence other rows.", "quantifier": "for every workload, every repetition count and every schedule of success/failure/timeout outcomes", "why_tests_cant": "exponentially many outcome schedules", "anchors": ["postbound/bench.py: execute_workload, _exec_ctl_loop, _workload_ctl_loop, _ResultSample, _ExecutionResults"]}
{"id": "C48", "title": "Ignoring benchmark errors does not corrupt the remaining results", "statement": "With error_action 'ignore', queries that fail are skipped and all other queries are still reported exactly once and with their own results.", "quantifier": "for every workload and every schedule of outcomes", "why_tests_cant": "exponentially many outcome schedules", "anchors": ["postbound/bench.py: execute_workload, _workload_ctl_loop, _ResultSample"]}
{"id": "C49", "title": "Workload operations follow set algebra and keep labels and queries together", "statement": "first/last/filter_by/with_labels/pick_random/& /- return sub-workloads with unchanged label-query pairs, | and + contain all labels of both, shuffle permutes the entries, last(n) has min(n, len) entries, label_of(q) is a label whose query is q, and entries() always agrees with item access.", "quantifier": "for every workload, argument and random choice", "why_tests_cant": "all histories", "anchors": ["postbound/workloads.py: Workload"]}
{"id": "C50", "title": "Reading a workload keeps file names and queries together", "statement": "Reading a directory of query files yields a workload in which each label is bound to the query of its own file, for every error handling policy; files that cannot be parsed are absent.", "quantifier": "for every list of files and every subset of unparsable files", "why_tests_cant": "all failure subsets", "anchors": ["postbound/workloads.py: Workload.read, read_workload"]}
{"id": "C51", "title": "The query cache is transparent", "statement": "On an unchanging database, execute_query returns the same result with and without cache, for every sequence of queries and every per-call or global cache switch, and a cached result survives being written to and read from disk.", "quantifier": "for every sequence of calls with any cache flags", "why_tests_cant": "all call histories", "anchors": ["postbound/postgres.py: PostgresInterface.execute_query", "postbound/db/_db.py: Database._inflate_query_cache, Database._set_cache_enabled, simplify_result_set"]}
{"id": "C52", "title": "The timeout executor reports the right outcome for every worker behaviour", "statement": "For every order of events of the worker process (connect, prepare, finish, result, error at any point), the timeout executor returns the result if the query finished in time, raises TimeoutError only if it did not, re-raises the worker's error otherwise, cancels the backend of every query that did not finish, and always returns, even if the worker process dies.", "quantifier": "for every worker event trace, every timing and every crash point", "why_tests_cant": "all schedules and crash points", "anchors": ["postbound/postgres.py: TimeoutQueryExecutor.execute_query, _timeout_worker_ctl, _timeout_worker_prep, _timeout_worker_run_query, _timeout_worker_await_result, _timeout_query_worker"]}
{"id": "C53", "title": "Parallel query execution pairs every query with its own result", "statement": "After draining the parallel query executor, result_set() maps every queued query to its own result and the callback was invoked with each query and its result, for every completion order.", "quantifier": "for every list of queries and every completion order", "why_tests_cant": "all schedules", "anchors": ["postbound/postgres.py: ParallelQueryExecutor.queue_query, ParallelQueryExecutor.drain_queue, ParallelQueryExecutor.result_set"]}
{"id": "C54", "title": "Configurations contain what was put into them", "statement": "PostgresConfiguration.add / update / remove change exactly the named parameter, whether the setting is given by name or as a PostgresSetting object, and the rendered text contains exactly one SET statement per parameter with its current value.", "quantifier": "for every sequence of changes", "why_tests_cant": "all histories", "anchors": ["postbound/postgres.py: PostgresConfiguration, PostgresSetting"]}
{"id": "C55", "title": "The parser's schema cache never answers for the wrong schema", "statement": "After any sequence of (re-)initialisations and lookups, the column lookup cache answers as a direct lookup in the current schema would.", "quantifier": "for every sequence of schema switches and lookups", "why_tests_cant": "all histories", "anchors": ["postbound/parser.py: SchemaCache"]}
{"id": "C56", "title": "Random graph walks visit every node exactly once", "statement": "util.networkx.nx_random_walk over a connected graph yields each node exactly once, each (but the start) adjacent to a previously yielded node, for all random choices; the breadth-first traversal yields each node of a connected graph exactly once.", "quantifier": "for every connected graph and all random choices", "why_tests_cant": "all seeds and graphs", "anchors": ["postbound/util/nx.py: nx_random_walk, nx_bfs_tree, nx_frontier_walk"]}
{"id": "C57", "title": "Removing a predicate removes exactly that condition", "statement": "transform.remove_predicate(p, x) leaves no occurrence of x, returns p unchanged if x does not occur in it, and, when x is only a conjunct of p, adding x back as a conjunct restores the truth value of p on every row.", "quantifier": "for every predicate tree p, every predicate x and every row, three-valued logic", "why_tests_cant": "The hierarchy is simplified recursively; tests only see a few shapes, not every nesting.", "anchors": ["postbound/transform.py:789-830"]}
{"id": "C58", "title": "Table references: equality, hashing and derived references", "statement": "Equality of table and column references is an equivalence that agrees with the hash and ignores letter case and the virtual flag; the order on references is a strict weak order; drop_alias, with_alias, make_virtual and update change exactly the attributes they are asked to change.", "quantifier": "for every reference (name, alias, schema, virtual flag)", "why_tests_cant": "all combinations of attributes and all strings", "anchors": ["postbound/_core.py: TableReference, ColumnReference"]}
{"id": "C59", "title": "A predicate is a join iff it relates columns of two tables", "statement": "is_join() of a comparison is true iff columns of at least two different tables occur in its sides outside of subqueries; BETWEEN and IN predicates are joins iff one of the comparisons they abbreviate is; NOT, AND and OR iff one of their children is.", "quantifier": "for all predicates", "why_tests_cant": "Expressions nest arbitrarily; the column collection behind the classification silently skips some positions, which tests over simple comparisons never exercise.", "anchors": ["postbound/qal/_qal.py BinaryPredicate.is_join", "postbound/qal/_qal.py BetweenPredicate.is_join", "postbound/qal/_qal.py InPredicate.is_join", "postbound/qal/_qal.py CompoundPredicate.is_join"]}
{"id": "C60", "title": "SimpleFilter.wrap_all returns the views of exactly the wrappable predicates", "statement": "SimpleFilter.wrap_all(predicates) never raises; it returns, in order, the simplified view of each predicate for which can_wrap() is true and skips the others.", "quantifier": "for all sequences of predicates", "why_tests_cant": "The result must be right for every mixture of predicates, including constant conditions that hardly occur in benchmark queries.", "anchors": ["postbound/qal/_qal.py SimpleFilter.wrap_all", "postbound/qal/_qal.py SimpleFilter.can_wrap", "postbound/qal/_qal.py SimpleFilter.__init__"]}
{"id": "C61", "title": "Methods of LogicalJoinTree return logical join trees", "statement": "join_with and update_annotation of a LogicalJoinTree return a LogicalJoinTree: the result offers the annotation of estimated cardinalities like the tree it was derived from.", "quantifier": "for all logical join trees, partner trees and annotations", "why_tests_cant": "The class of the result is decided inside inherited methods; tests compare the shape of the tree only.", "anchors": ["postbound/_hints.py LogicalJoinTree", "postbound/_hints.py JoinTree.join_with", "postbound/_hints.py JoinTree.update_annotation"]}
{"id": "C62", "title": "Equality of scan and join assignments is an equivalence that agrees with the hash", "statement": "== on ScanOperatorAssignment, JoinOperatorAssignment and DirectionalJoinOperatorAssignment is reflexive, symmetric and transitive, holds exactly if operator, tables, direction and workers agree, and equal assignments have equal hashes; the constructors reject joins of fewer than two tables.", "quantifier": "for all assignments", "why_tests_cant": "The default number of workers is NaN, which is not equal to itself; a test over assignments with explicit workers never notices.", "anchors": ["postbound/_hints.py ScanOperatorAssignment", "postbound/_hints.py JoinOperatorAssignment", "postbound/_hints.py DirectionalJoinOperatorAssignment"]}
{"id": "C63", "title": "Integrating worker hints sets the workers of every hinted operator", "statement": "PhysicalOperatorAssignment.integrate_workers_from(params) returns an assignment in which every scan and join with a worker hint has these workers and keeps its operator and direction, and nothing else differs; with fail_on_missing it raises exactly if a hint has no matching operator.", "quantifier": "for all assignments and worker hints", "why_tests_cant": "Hints on single tables take a different lookup path than hints on joins; all combinations matter.", "anchors": ["postbound/_hints.py PhysicalOperatorAssignment.integrate_workers_from"]}
{"id": "C64", "title": "Operator assignments survive JSON", "statement": "Reading the JSON form of a PhysicalOperatorAssignment yields an assignment equal to the original, with the same operators, workers and directions.", "quantifier": "for all operator assignments", "why_tests_cant": "All combinations of scans, joins, directions and workers.", "anchors": ["postbound/_hints.py PhysicalOperatorAssignment.__json__", "postbound/opt/_helpers.py read_operator_assignment_json"]}
{"id": "C65", "title": "Histograms read from PostgreSQL are well-formed", "statement": "The histogram that PostgresStatisticsInterface builds from pg_stats has ascending bounds made up of the histogram bounds and the most common values, its lower bound is not above any of them, and its frequencies do not exceed the rows of the table.", "quantifier": "for all histogram bounds, most common values and row counts", "why_tests_cant": "Depends on the relative order of bounds and common values and on zero occurring in the column; needs all interleavings.", "anchors": ["postbound/postgres.py PostgresStatisticsInterface._retrieve_histogram_from_stats"]}
{"id": "C66", "title": "The exhaustive join order enumeration is complete", "statement": "The exhaustive enumeration produces every join tree of the requested structure (bushy, left-deep or right-deep) that contains each table exactly once and has no cross product, each of them once; a join graph that is not connected is rejected with a ValueError.", "quantifier": "for every connected join graph and every tree structure", "why_tests_cant": "all graphs; the number of trees is exponential, and a missing tree goes unnoticed unless all are known", "anchors": ["postbound/opt/enumeration.py: _enumerate_join_graph, ExhaustiveJoinOrderEnumerator.all_join_orders_for, _all_linear_join_orders"]}
{"id": "C67", "title": "The join pre-checks accept exactly the queries with the checked joins", "statement": "EquiJoinPreCheck accepts a query if and only if all its join predicates are equality comparisons between exactly two columns (plain columns unless nesting is allowed, combined by AND if conjunctions are allowed). InnerJoinPreCheck accepts a query if and only if its FROM clause, including its subqueries, contains inner joins only.", "quantifier": "for every list of join predicates and every FROM clause", "why_tests_cant": "All nestings of predicates and table sources; the check has to be right in both directions.", "anchors": ["postbound/validation.py: EquiJoinPreCheck, InnerJoinPreCheck"]}
{"id": "C68", "title": "A pipeline runs exactly the queries its components support", "statement": "After build(), an optimization pipeline optimizes a query if and only if the pre-checks of all its current components (and its support check) accept the query; otherwise it raises an error.", "quantifier": "for every sequence of setup/build/optimize calls, every kind of query and all pre-checks", "why_tests_cant": "Depends on the history of setup calls and on the kind of query; all call sequences.", "anchors": ["postbound/_pipelines.py: IntegratedOptimizationPipeline, TextBookOptimizationPipeline, MultiStageOptimizationPipeline, IncrementalOptimizationPipeline", "postbound/validation.py: PreCheckResult.ensure_all_passed"]}
{"id": "C69", "title": "Progressive output and callbacks agree with the returned benchmark result", "statement": "With error_action 'log', the rows that execute_workload() writes progressively to the output file are exactly the rows it returns, in the same order, and exec_callback is invoked exactly once for each execution that finished or timed out, in order, with that execution's result.", "quantifier": "for every workload, every repetition count and every schedule of success/failure/timeout outcomes", "why_tests_cant": "exponentially many outcome schedules", "anchors": ["postbound/bench.py: execute_workload, _exec_ctl_loop, _workload_ctl_loop, _ResultSample.write_progressive/last_result/last_successful"]}
{"id": "C70", "title": "Recursively read workloads label queries by their directory", "statement": "read_workload(recurse_subdirectories=True) yields every query file below the root directory exactly once, labelled by the given prefix, the names of the subdirectories and the file name.", "quantifier": "for every directory tree and every prefix", "why_tests_cant": "unbounded trees; collisions depend on names in different directories", "anchors": ["postbound/workloads.py: read_workload"]}
{"id": "C71", "title": "Wrapping queries into a workload keeps all of them", "statement": "wrap_workload()/generate_workload() without labels number the given queries 1, 2, ... in order and keep every one of them.", "quantifier": "for every list of queries, including repeated ones", "why_tests_cant": "all lists; equality of queries", "anchors": ["postbound/workloads.py: wrap_workload, generate_workload"]}
{"id": "C72", "title": "Result simplification only removes what the shape of the result determines", "statement": "simplify_result_set turns a result set of one row and one column into its value, of one column into the list of its values, of one row into that row, and leaves every other result set alone. Two different result sets of tuples never simplify to the same Python object.", "quantifier": "for all result sets of equally long rows", "why_tests_cant": "all shapes and all values, including arrays", "anchors": ["postbound/db/_db.py: simplify_result_set"]}
{"id": "C73", "title": "Marking a table as joined has a well-defined effect", "statement": "JoinGraph.mark_joined() succeeds for every table of the join graph, and the resulting index information does not depend on the iteration order of Python sets.", "quantifier": "for every query, every sequence of marked tables and every iteration order", "why_tests_cant": "set iteration order varies between runs (hash randomisation); all join graphs", "anchors": ["postbound/opt/_joingraph.py: JoinGraph.mark_joined, JoinGraph.is_pk_fk_join"]}
{"id": "C74", "title": "UES frequency maintenance stays sound", "statement": "After trigger_frequency_update for a join of an intermediate result with a new table, the attribute frequency of every column of the intermediate result still bounds how often a single value of the column can occur in the new intermediate result, so that the next bound of the estimator is again an upper bound. Only columns whose frequency can grow are changed, and columns that are not part of the join condition grow by the smallest frequency of the new table's join columns.", "quantifier": "for all relations, join conditions and all correct frequencies before the update", "why_tests_cant": "must hold for all databases and all join sequences; the violation only shows for queries whose tables carry several join columns", "anchors": ["postbound/opt/ues.py: StatsContainer.trigger_frequency_update, MaxFrequencyStats"]}
{"id": "C75", "title": "TONIC learns every join of a plan and recommends for every join of a join order", "statement": "QEPSynopsis.integrate_costs adds, for every join of a plan, the join's operator and cost to the QEP-S node that stands for the tables joined so far (in the order of the plan) and changes no other node; QEPSynopsis.recommend_operators on the same join order gives, for every join whose node has learned several operators, the cheapest of them for exactly the tables of this join.", "quantifier": "for all plans and join orders and all QEP-S states", "why_tests_cant": "all plan shapes and histories", "anchors": ["postbound/opt/tonic.py: QEPsNode.integrate_costs, QEPsNode.recommend_operators, _iterate_query_plan"]}
{"id": "C76", "title": "TONIC detects operators without costs", "statement": "QEPSynopsis.detect_unknown_costs returns, for every join of the join order, those allowed operators for which the corresponding QEP-S node has no cost yet.", "quantifier": "for all join orders, allowed operators and QEP-S states", "why_tests_cant": "all shapes", "anchors": ["postbound/opt/tonic.py: QEPsNode.detect_unknown_costs, _tables_in_qeps_path"]}
{"id": "C77", "title": "A QEP-S can be stored and loaded", "statement": "Loading a QEP-S from the JSON representation of another one yields a QEP-S with the same nodes and costs.", "quantifier": "for every QEP-S", "why_tests_cant": "all states", "anchors": ["postbound/opt/tonic.py: QEPsNode.__json__, _load_qeps_from_json"]}
{"id": "C78", "title": "A sort key is found by each of its columns", "statement": "A sort key made for a column (or an equivalence class of columns) is compatible with exactly these columns: `column in key` and `key.is_compatible_with(column)` hold for its members, and a path whose first sort key contains a column is recognised as sorted by that column. Compatible keys order the same rows alike, compatibility is an equivalence, merging two keys of the same direction yields the union of the classes and is refused otherwise, and equal keys are interchangeable.", "quantifier": "for every sort key, column and set of rows", "why_tests_cant": "all equivalence classes, directions and row sequences", "anchors": ["postbound/_qep.py: SortKey.is_compatible_with, SortKey.merge_with, SortKey.__contains__, SortKey.of", "postbound/opt/dynprog.py: PostgresDynProg._is_sorted_by"]}
{"id": "C79", "title": "Special query transformations touch only their clause", "statement": "transform.as_explain(query, e) yields a query whose EXPLAIN clause is e and whose other clauses are those of the query, so that the last of several as_explain calls decides; as_star_query and as_count_star_query replace only the SELECT clause; drop_hints removes only the hint clause, and with preparatory_only it keeps the query hints while the preparatory statements disappear; a query without hints comes out unchanged.", "quantifier": "for every query, select or set query, and every combination of clauses", "why_tests_cant": "all combinations of optional clauses, subclasses of clauses and nested set operations", "anchors": ["postbound/transform.py: as_explain, as_star_query, as_count_star_query, drop_hints"]}
{"id": "C80", "title": "Equality and hash values of clauses and queries", "statement": "Comparing two clauses, table sources or queries with == never fails, is reflexive and symmetric; objects that compare equal have equal hash values, so that sets and dictionaries (workloads, query caches) treat them as one, and agree in all their attributes.", "quantifier": "for all clauses, table sources, select and set queries with arbitrary nesting, and every hash function on the underlying tuples", "why_tests_cant": "pairs of equal but differently constructed objects; arbitrary nesting and hash functions", "anchors": ["postbound/qal/_qal.py: SqlQuery.__eq__, SqlQuery.__init__, SetQuery.__eq__, Limit.__eq__, Explain.__eq__, WithQuery.__eq__, SubqueryTableSource.__eq__, ExceptClause.__eq__, IntersectClause.__eq__"]}
{"id": "C81", "title": "Query plan traversal", "statement": "QueryPlan.iternodes yields exactly the nodes reachable through children (root last), iteration yields exactly all nodes including those of subplans, find_all_nodes is the matching part of the iteration, plan_depth is the length of the longest root-to-leaf path, tables() contains exactly the mentioned tables, lookup returns a node joining exactly the given tables or None if there is none, and find_first_node returns a matching node whenever the plan has one.", "quantifier": "all query plans, predicates and table sets", "why_tests_cant": "Plans form an unbounded recursive type with subplans in arbitrary positions; tests use a handful of PostgreSQL plans.", "anchors": ["postbound/_qep.py:1360-1366", "postbound/_qep.py:1392-1548", "postbound/_qep.py:1948-1953"]}
{"id": "C82", "title": "Shapes of query plans", "statement": "is_linear, is_bushy, is_left_deep, is_right_deep and is_zigzag hold of exactly the plans of that shape: at no join both inputs contain joins / some do / inner inputs contain no joins / outer inputs contain no joins / linear with joins on both sides.", "quantifier": "all query plans", "why_tests_cant": "The shape is a statement about all joins of an unbounded tree; tests look at small plans whose shape is visible at the root.", "anchors": ["postbound/_qep.py:1276-1358"]}
{"id": "C83", "title": "Canonical query plans", "statement": "canonical() returns a plan that consists only of scans and joins, with the same join order, whose canonical form is itself, and it is defined for every plan of an optimizer.", "quantifier": "all query plans", "why_tests_cant": "Requires reasoning over all placements of auxiliary nodes.", "anchors": ["postbound/_qep.py:1793-1839"]}
{"id": "C84", "title": "Equality of query plans", "statement": "Equality of query plans is an equivalence relation, equal plans have equal hash values, and equal plans scan the same base tables in the same join order.", "quantifier": "all pairs and triples of query plans", "why_tests_cant": "Equivalence and hash consistency quantify over pairs and triples of an infinite type.", "anchors": ["postbound/_qep.py:1955-1964"]}
{"id": "C85", "title": "Derived query plans", "statement": "parallelize, with_estimates, with_actual_card and scale_cardinality return plans that are equal to the original one and differ from it only in the documented numbers (workers, estimates, cardinalities); in particular with_actual_card uses the actual cardinality of every node as the estimate and scaling affects subplans only if it is recursive.", "quantifier": "all query plans, cardinalities, costs and factors", "why_tests_cant": "What is kept has to be checked for every field of every node of an arbitrary tree.", "anchors": ["postbound/_qep.py:1598-1791"]}
{"id": "C86", "title": "C_out and q-error of query plans", "statement": "cout is the sum of the actual cardinalities of all counted nodes, qerror is (max(estimate, actual)+1)/(min(estimate, actual)+1), hence at least 1 and equal to 1 exactly for correct estimates; both are NaN for plans without measurements.", "quantifier": "all analyzed query plans", "why_tests_cant": "The sum runs over an arbitrary tree and the arithmetic rounds; tests check a few numbers.", "anchors": ["postbound/_qep.py:1550-1596"]}
{"id": "C87", "title": "Exploding query plans", "statement": "jointree_from_plan returns the join order of the plan annotated with the requested (estimated or actual) cardinality of each scan and join; operators_from_plan assigns to every scan and join of the plan its own operator (and its workers if requested); parameters_from_plan contains the cardinality and the workers of every intermediate; explode_query_plan combines the three for the same kind of cardinality.", "quantifier": "all query plans and cardinality sources", "why_tests_cant": "Collisions between nodes with the same tables only show up for particular nestings of index lookups and joins.", "anchors": ["postbound/_hints.py:1766-1872", "postbound/opt/_helpers.py:669-690"]}
{"id": "C88", "title": "Query plans from join trees", "statement": "to_query_plan returns a plan with the join order of the tree, the assigned (or else the default) operators and the given cardinalities; update_plan replaces operators and parameters of a plan.", "quantifier": "all join trees, operator assignments and plan parameters", "why_tests_cant": "Requires all tree shapes and combinations of optional arguments.", "anchors": ["postbound/opt/_helpers.py:170-252", "postbound/opt/_helpers.py:309-527"]}
{"id": "C89", "title": "JSON form of query plans", "statement": "Reading the JSON form of a query plan gives the plan back.", "quantifier": "all query plans with arbitrary parameters, estimates, measures, sort keys, lookup keys and subplans", "why_tests_cant": "Round trips must hold for every nesting and every combination of optional fields.", "anchors": ["postbound/_qep.py:1889-1898", "postbound/opt/_helpers.py:530-627"]}
{"id": "C90", "title": "Attributes of query plans", "statement": "`key in plan` tells for attribute names whether plan[key] succeeds, for tables and collections of tables whether the plan contains them; plan[key] finds every parameter, estimate and measure.", "quantifier": "all plans and keys", "why_tests_cant": "The keys are arbitrary texts or collections.", "anchors": ["postbound/_qep.py:1925-1946"]}
{"id": "C91", "title": "Relational algebra means the same as the query", "statement": "The relational algebra tree that parse_relalg creates for a query produces the result of the query (up to the order of rows) on every database.", "quantifier": "all queries without subqueries, all databases, all interpretations of functions and operators, all orders in which Python visits sets", "why_tests_cant": "The result must agree on all databases and for all iteration orders of hash-based sets.", "anchors": ["postbound/relalg.py:3356-3411", "postbound/relalg.py:3526-3740", "postbound/relalg.py:4266-4284"]}
{"id": "C92", "title": "Queries that have a relational algebra form", "statement": "parse_relalg succeeds for every valid query.", "quantifier": "all queries and all orders in which Python visits sets", "why_tests_cant": "Failures depend on the combination of tables in a predicate and on set iteration order.", "anchors": ["postbound/relalg.py:3059-3125", "postbound/relalg.py:3356-3411", "postbound/relalg.py:3931-4050"]}
{"id": "C93", "title": "Expressions are available in relational algebra trees", "statement": "In a tree created by parse_relalg, each operator only works on columns, computed values and aggregates that its inputs provide; mappings compute all intermediate values, groupings all aggregates.", "quantifier": "all queries and set iteration orders", "why_tests_cant": "Missing mappings only matter for particular nestings of expressions and clauses, and nothing executes the trees.", "anchors": ["postbound/relalg.py:3128-3156", "postbound/relalg.py:3557-3666", "postbound/relalg.py:4052-4122", "postbound/relalg.py:4191-4252"]}
{"id": "C94", "title": "Relational algebra of set operations", "statement": "For UNION, UNION ALL, INTERSECT and EXCEPT, the tree produces the set operation applied to the results of the two queries.", "quantifier": "all combinations of set operations over queries, all databases", "why_tests_cant": "Interference between the two sides depends on their tables.", "anchors": ["postbound/relalg.py:3420-3468"]}
{"id": "C95", "title": "Modified copies of relational algebra trees", "statement": "mutate() on a node creates a copy of the whole tree in which exactly that node has the new attributes; all other nodes keep their attributes and positions. A copy without changes equals the original.", "quantifier": "all trees, all nodes in them, all changes of attributes, all orders in which Python visits the leaves", "why_tests_cant": "Failures depend on equal nodes in other places and tables that occur twice.", "anchors": ["postbound/relalg.py:229-281", "postbound/relalg.py:2523-2716"]}
{"id": "C96", "title": "Equality, hash values and leaves of relational algebra nodes", "statement": "Node equality is an equivalence relation, equal nodes have the same meaning and the same hash value, also after mutate(); leaf() returns the leaf below a linear tree.", "quantifier": "all trees", "why_tests_cant": "Stale hash values only matter for later lookups in sets, and only for nodes above a changed one.", "anchors": ["postbound/relalg.py:139-149", "postbound/relalg.py:317-396", "postbound/relalg.py:433-434"]}
{"id": "C97", "title": "Binding columns to tables", "statement": "parse_query binds each column reference and each t.* to the table that it stands for by the scoping rules of SQL (CTEs, subqueries, joins, correlated subqueries, ORDER BY on output columns), and knows the output columns of CTEs and subqueries.", "quantifier": "all queries (arbitrarily nested), all catalogs", "why_tests_cant": "Errors need particular combinations of equal names in different scopes.", "anchors": ["postbound/parser.py:204-518", "postbound/parser.py:549-641", "postbound/parser.py:1199-1301", "postbound/parser.py:1330-1392", "postbound/parser.py:1431-1661", "postbound/parser.py:1783-1838", "postbound/parser.py:1900-2100"]}
{"id": "C98", "title": "The parser's column cache", "statement": "The cache of column lookups never changes how a query is bound: the result is the same as without cache.", "quantifier": "all queries, all catalogs, also within surrounding queries", "why_tests_cant": "A stale entry needs a lookup in a join condition followed by another table with that column.", "anchors": ["postbound/parser.py:375-438", "postbound/parser.py:456-502"]}
{"id": "C99", "title": "Intermediates of a cardinality estimator", "statement": "estimate_cardinalities asks for an estimate of each non-empty set of tables that is connected by join predicates (of each set at all with allow_cross_products) exactly once, and the resulting PlanParameterization has exactly the estimates that are not NaN. With a join order it has those of the nodes of the join order.", "quantifier": "all queries, all estimators, all join orders, all orders in which Python visits sets", "why_tests_cant": "The number of intermediates is exponential; missing ones only show in the plan that is chosen.", "anchors": ["postbound/_stages.py:688-760"]}
{"id": "C100", "title": "Precise cardinalities", "statement": "PreciseCardinalities returns the number of tuples in the join of the requested tables with the filters of the query, for the current contents of the database; results are only reused if the cache is enabled.", "quantifier": "all queries, all database contents, all sequences of estimates, data changes and cache resets", "why_tests_cant": "Needs a database whose contents change between estimates.", "anchors": ["postbound/opt/_cardinalities.py:20-76", "postbound/transform.py:313-481", "postbound/transform.py:697-717"]}
{"id": "C101", "title": "Pre-computed cardinalities", "statement": "PreComputedCardinalities returns the stored cardinality for a query and a set of tables; if there is none, the default, or the answer of the live database, or an error. Saved answers of the live database are found later, also after reading the file again.", "quantifier": "all files, all sequences of lookups", "why_tests_cant": "The interplay of saving, looking up again and reloading is not visible in single lookups.", "anchors": ["postbound/opt/_cardinalities.py:79-303"]}
{"id": "C102", "title": "Distorted cardinalities", "statement": "CardinalityDistortion multiplies valid estimates with the factor (fixed) or stays between the estimate and the estimate times the factor (random); unknown estimates stay unknown, and a factor of 1 changes nothing.", "quantifier": "all estimates, all factors, all random values", "why_tests_cant": "Rounding errors depend on the magnitude of estimates and factors.", "anchors": ["postbound/opt/_cardinalities.py:306-366"]}
{"id": "C103", "title": "Comparing query plans", "statement": "compare_query_plans reports exactly the differences of two plans: different table sets, swapped join inputs, and different estimates, actual cardinalities, costs and operators of corresponding nodes. Identical plans have no differences. Auxiliary nodes are rejected.", "quantifier": "all plans of scans and joins", "why_tests_cant": "The pairs of plans are unbounded; a comparison of the wrong children only shows for certain shapes.", "anchors": ["postbound/opt/_analysis.py:461-673"]}
{"id": "C104", "title": "Join depth", "statement": "join_depth maps each table of a join tree to the step at which it is joined: one more than the depth of everything in the intermediate result it is joined with.", "quantifier": "all join trees", "why_tests_cant": "Depths depend on the nesting of the tree.", "anchors": ["postbound/opt/_analysis.py:345-458"]}
{"id": "C105", "title": "Similarity of join trees", "statement": "The similarity scores are in [0, 1] and do not depend on the order of the two trees. The bottom-up score is 1 exactly for trees that differ at most in the order of join inputs.", "quantifier": "all pairs of join trees, all values of gamma", "why_tests_cant": "A quantification over all pairs of trees.", "anchors": ["postbound/opt/_analysis.py:241-342", "postbound/util/stats.py:18-20"]}
{"id": "C106", "title": "Upper bound on the number of plans", "statement": "catalan_number computes the Catalan numbers, and possible_plans_bound is an upper bound on the number of plans over the tables and operators.", "quantifier": "all numbers of tables and operators", "why_tests_cant": "The numbers exceed what can be enumerated; float rounding only shows beyond 2^53.", "anchors": ["postbound/opt/_analysis.py:30-67", "postbound/util/stats.py:13-15"]}
{"id": "C107", "title": "Cardinality of star queries", "statement": "star_query_cardinality returns the number of tuples in the join of the (filtered) fact table with the (filtered) dimension tables.", "quantifier": "all contents of the tables, all numbers of dimensions", "why_tests_cant": "Depends on the contents of a database.", "anchors": ["postbound/opt/_analysis.py:130-238"]}
{"id": "C108", "title": "Renaming a table", "statement": "rename_table replaces every reference to the old table by the new one (in columns, stars, FROM items, subqueries and common table expressions), optionally prefixes the names of its columns, and changes nothing else. Afterwards the old table is not mentioned any more.", "quantifier": "all queries, tables and column sets", "why_tests_cant": "Renaming has to reach every position of arbitrarily nested queries; tests cover a few positions.", "anchors": ["postbound/transform.py:1335-1420", "postbound/transform.py:1789-1924", "postbound/transform.py:1927-2339", "postbound/transform.py:2361-2416"]}
{"id": "C109", "title": "Merging tables", "statement": "merge_tables replaces all references to any of the given tables by the target table. The FROM clause contains the target once and all tables that are not merged. The order in which the tables are visited does not matter.", "quantifier": "all queries, sets of tables and targets", "why_tests_cant": "Sets are visited in an order that differs between runs.", "anchors": ["postbound/transform.py:2419-2447"]}
{"id": "C110", "title": "Training specifications", "statement": "A training specification satisfies another one iff it has all of its features; the violations are exactly the missing features. Satisfying is reflexive and transitive. Specifications are equal iff they satisfy each other; equal specifications have the same hash and can be used in place of each other. provides holds iff all given features are contained.", "quantifier": "all feature lists, with duplicates and in any order", "why_tests_cant": "Statements about all sets of features and about transitivity.", "anchors": ["postbound/train/_train.py:46-213"]}
{"id": "C111", "title": "Training data", "statement": "conform_to accepts exactly the specifications that the data satisfies and keeps the values of the requested features. as_df returns a data frame whose columns are the requested features with their values. merge_with returns all samples of both data sets with their values for all features. Missing features raise a ValueError.", "quantifier": "all data frames, feature mappings and specifications", "why_tests_cant": "The mapping between features and columns is the identity in typical tests.", "anchors": ["postbound/train/_train.py:217-460"]}
{"id": "C112", "title": "Training data repositories", "statement": "retrieve('all') returns exactly the registered data sets that satisfy the specification, in the order of registration; 'first' returns the first of them, conformed to the specification; 'merge' returns all samples of all of them, conformed to the specification. None is returned iff no data set satisfies the specification.", "quantifier": "all repositories and specifications", "why_tests_cant": "Depends on the order and overlap of the features of all registered data sets.", "anchors": ["postbound/train/_train.py:463-504", "postbound/train/_train.py:296-309"]}
{"id": "C113", "title": "Training of pipelines", "statement": "A stage class that can be instantiated and that overrides a fit method also overrides the methods that tell whether it has been fitted. Training a pipeline fits exactly those stages that need it and that have not been fitted yet, each once, and reports the metrics of each. Afterwards everything is fitted and training again does nothing. If there is no data for a stage that has to be trained, a ValueError is raised.", "quantifier": "all pipelines, stage objects (also shared ones) and training states", "why_tests_cant": "All combinations of overridden methods and training states.", "anchors": ["postbound/_pipelines.py:179-302", "postbound/_stages.py:20-153", "postbound/_stages.py:187-346"]}
{"id": "C114", "title": "PostgreSQL-style enumerator finds a plan", "statement": "PostgresDynProg.generate_execution_plan returns a plan over exactly the tables of the query, each read once, without cross products, for every query whose tables are connected by join predicates and that has a plan with finite cost; it fails for all other queries.", "quantifier": "all join graphs, schemas, cost models, cardinality estimators, allowed operators and settings", "why_tests_cant": "The search space grows exponentially and depends on the join graph, the settings and infinite costs of intermediates.", "anchors": ["postbound/opt/dynprog.py:662-705", "postbound/opt/dynprog.py:791-932", "postbound/opt/dynprog.py:1181-1240"]}
{"id": "C115", "title": "PostgreSQL-style enumerator is optimal", "statement": "The plan that PostgresDynProg returns is the cheapest of all plans (all join orders, join directions, scans, memoization, materialization and parallelization) that can be built from the allowed operators, for cost models in which cheaper inputs do not make an operator more expensive.", "quantifier": "all queries and all cost models", "why_tests_cant": "Needs a comparison with all plans of all queries.", "anchors": ["postbound/opt/dynprog.py:725-789", "postbound/opt/dynprog.py:832-932", "postbound/opt/dynprog.py:1053-1240"]}
{"id": "C116", "title": "Operators of the PostgreSQL-style enumerator", "statement": "The plan uses only the allowed scan and join operators and considers all of them; memoize and materialize nodes only occur below nested-loop joins and if they are enabled. No parallel subplan is executed below another one. Empty tables and arbitrary join predicates can be handled. With the cost model of PostgreSQL the cheapest of the final candidates is returned.", "quantifier": "all queries, settings and cost models", "why_tests_cant": "Depends on the combination of operators, worker numbers, predicates and costs.", "anchors": ["postbound/opt/dynprog.py:612-660", "postbound/opt/dynprog.py:681-695", "postbound/opt/dynprog.py:952-1051", "postbound/opt/dynprog.py:1223-1258", "postbound/opt/dynprog.py:1655-1670", "postbound/opt/dynprog.py:1721-1752"]}
{"id": "C117", "title": "Tables of a query", "statement": "query.tables() contains a table if and only if the table occurs somewhere in the query (in any clause, table source, join condition, CTE or subquery), and contains nothing but table references.", "quantifier": "all queries: any nesting of subqueries, CTEs, joins, VALUES lists, table functions and set operations", "why_tests_cant": "Depends on the place at which the table is mentioned; queries nest arbitrarily.", "anchors": ["postbound/qal/_qal.py:6125-6900", "postbound/qal/_qal.py:8700-8729", "postbound/qal/_qal.py:9682-9694"]}
{"id": "C118", "title": "Columns of a query", "statement": "query.columns() and query.itercolumns() contain a column if and only if the column occurs somewhere in the query; both agree.", "quantifier": "all queries", "why_tests_cant": "Depends on the place at which the column is mentioned; queries nest arbitrarily.", "anchors": ["postbound/qal/_qal.py:5549-5552", "postbound/qal/_qal.py:8770-8782", "postbound/qal/_qal.py:9696-9708", "postbound/qal/_qal.py:9934-9946"]}
{"id": "C119", "title": "Subqueries of a query", "statement": "query.subqueries() returns exactly the outermost subqueries of a query, no matter in which clause they occur.", "quantifier": "all queries", "why_tests_cant": "Depends on the kinds of clauses and table sources and their combination.", "anchors": ["postbound/qal/_qal.py:8059-8199", "postbound/qal/_qal.py:8906-8917", "postbound/qal/_qal.py:9763-9774"]}
{"id": "C120", "title": "Bound and unbound tables", "statement": "bound_tables() returns the tables that are read by the FROM clauses of a query, unbound_tables() those that have to be provided by an outer query, both are disjoint and together form tables(); is_dependent() holds if and only if a column of the query refers to a table that the query does not provide itself.", "quantifier": "all queries", "why_tests_cant": "Scoping depends on the nesting of subqueries, CTEs, derived tables and lateral references.", "anchors": ["postbound/qal/_qal.py:8202-8262", "postbound/qal/_qal.py:8954-9032", "postbound/qal/_qal.py:9819-9874"]}
{"id": "C121", "title": "Predicates of a query", "statement": "query.predicates() is equivalent to the conjunction of all conditions of the WHERE clause, the join conditions, the derived tables and the CTEs and can be computed for all queries.", "quantifier": "all queries and all truth values of the single conditions", "why_tests_cant": "The number and nesting of the conditions is unbounded.", "anchors": ["postbound/qal/_qal.py:6884-6900", "postbound/qal/_qal.py:6988-6996", "postbound/qal/_qal.py:8803-8833", "postbound/qal/_qal.py:9755-9761"]}
{"id": "C122", "title": "Names of result columns", "statement": "query.output_columns() contains one name per result column: the alias or the name of the column, for set operations the name on the left-hand side and else the one on the right-hand side, or column_1, column_2, ... for columns without a name. Different columns without a name have names that no other column has.", "quantifier": "all queries, all nestings of set operations", "why_tests_cant": "Depends on the names that the user chooses and on the nesting of set operations.", "anchors": ["postbound/qal/_qal.py:8731-8768", "postbound/qal/_qal.py:9710-9753"]}
{"id": "C123", "title": "Scalar queries", "statement": "query.is_scalar() implies that the query returns exactly one row with one column on every database.", "quantifier": "all queries and databases", "why_tests_cant": "Needs all databases.", "anchors": ["postbound/qal/_qal.py:9034-9054", "postbound/qal/_qal.py:9876-9890"]}
{"id": "C124", "title": "Text of explicit joins", "statement": "str() and format_quick() of an explicit join are valid SQL that a database system reads as the same join: the same tree of joins with the same join types and conditions. JoinTableSource keeps the join type and condition it is created with.", "quantifier": "all trees of joins of any shape and with all join types", "why_tests_cant": "Associativity and parentheses matter for nested trees of any depth only.", "anchors": ["postbound/qal/_qal.py:6672-6753", "postbound/qal/_qal.py:6917-6920", "postbound/qal/_formatter.py:336-428"]}
{"id": "C125", "title": "Text of set queries", "statement": "str() and format_quick() of a set query are valid SQL that a database system reads as the same query: the same tree of set operations with the same WITH, ORDER BY and LIMIT clauses at the same places.", "quantifier": "all trees of set operations, with and without EXPLAIN", "why_tests_cant": "Precedence, associativity and blanks matter for nested trees of any depth only.", "anchors": ["postbound/qal/_qal.py:7782-7786", "postbound/qal/_qal.py:7861-7864", "postbound/qal/_qal.py:7956-7959", "postbound/qal/_qal.py:8038-8056", "postbound/qal/_qal.py:9948-9970", "postbound/qal/_formatter.py:927-997"]}
{"id": "C126", "title": "Query plans of EXPLAIN output", "statement": "PostgresExplainNode.as_qep() gives a plan that mirrors the EXPLAIN output: one node for each node, with its operator, table, cost, measures and workers, outer input before inner input and further members after them, and subplans as subplans under their names. tables() are exactly the tables of the nodes. It fails exactly for unknown relationships between nodes.", "quantifier": "all trees of explain nodes of any size and shape", "why_tests_cant": "Nodes can be nested arbitrarily, with inputs and subplans at any place.", "anchors": ["postbound/postgres.py:3881-3905", "postbound/postgres.py:4053-4108", "postbound/postgres.py:4202-4328", "postbound/_qep.py:926-1031"]}
{"id": "C127", "title": "Row counts of EXPLAIN output", "statement": "The estimated cardinality of each node of as_qep() is the estimate of PostgreSQL times the number of processes that execute the node, the actual cardinality is the number of rows of all loops together (unknown for BitmapAnd and BitmapOr).", "quantifier": "all trees of explain nodes, numbers of rows, loops and workers", "why_tests_cant": "The number of processes depends on nodes arbitrarily far above.", "anchors": ["postbound/postgres.py:4110-4121", "postbound/postgres.py:4242-4328"]}
{"id": "C128", "title": "Equality and inputs of explain nodes", "statement": "Equality of explain nodes is an equivalence relation; equal nodes have the same hash value, the same tables and the same query plan. inner_outer_children() gives the inner and the outer input of a join.", "quantifier": "all explain nodes", "why_tests_cant": "Differences may be anywhere in the trees.", "anchors": ["postbound/postgres.py:4053-4108", "postbound/postgres.py:4180-4200", "postbound/postgres.py:4371-4381"]}
{"id": "C129", "title": "Binding of DuckDB scans", "statement": "A scan of a DuckDB plan is bound to a table of the query over the same relation. A relation that occurs once is always bound; one that occurs several times is bound to the occurrence whose filter fits the filter of the scan best, if there is a best one.", "quantifier": "all queries, filters and scan nodes", "why_tests_cant": "Filters are arbitrary texts and there can be any number of candidates.", "anchors": ["postbound/duckdb.py:458-505", "postbound/util/stats.py:18-21", "postbound/util/stats.py:40-43", "postbound/util/dicts.py:219-224"]}
{"id": "C130", "title": "Query plans of DuckDB", "statement": "parse_duckdb_plan() gives one node for each operator, in the same order: joins as joins, scans as scans of their base table, with estimated and actual cardinalities; the execution time of a node is the total of all operators below and including it.", "quantifier": "all JSON plans", "why_tests_cant": "Plans can be nested arbitrarily.", "anchors": ["postbound/duckdb.py:508-582"]}
{"id": "C131", "title": "Hints for DuckDB", "statement": "generate_hints() gives exactly one hint line for each part of the join order (of at least three tables), operator assignment and valid cardinality, statements for the system settings, no hint block if there is nothing to hint, and an error exactly for what DuckDB does not support or if both a plan and parts of it are given.", "quantifier": "all join orders, operator assignments and parameters", "why_tests_cant": "Assignments can have any number of entries in any combination.", "anchors": ["postbound/duckdb.py:658-731", "postbound/duckdb.py:738-787", "postbound/duckdb.py:806-919"]}
{"id": "C132", "title": "Query plans of MySQL", "statement": "The query plan of a MySQL EXPLAIN document joins the tables of each nested loop one after another, in the order of the document: every table is scanned with the operator of its access type and joined with the operator of its join buffer, with the costs and row counts of the document; operations such as grouping or ordering are nodes above; materialised subqueries are subplans. Tables are those of the query that have the name or alias of the document.", "quantifier": "all JSON documents, all queries", "why_tests_cant": "Documents can be nested arbitrarily and have any number of tables.", "anchors": ["postbound/mysql.py:648-666", "postbound/mysql.py:756-1212"]}
{"id": "C133", "title": "Hints for MySQL", "statement": "generate_hints() gives one hint line for each part of the join order and operator assignment and one statement for each global switch and setting, rejects what MySQL cannot express, and the join order hint determines the join order.", "quantifier": "all join orders, operator assignments and parameters", "why_tests_cant": "Assignments can have any number of entries in any combination.", "anchors": ["postbound/mysql.py:456-458", "postbound/mysql.py:508-641"]}
{"id": "C134", "title": "Configuration files of MySQL", "statement": "The connection of a configuration file has the value of every option of the file and the default value for all others; missing users, databases or sections are errors. Names of options are converted from camel case to snake case, different options to different names.", "quantifier": "all configuration files, all names", "why_tests_cant": "There are infinitely many names and any combination of options can be given.", "anchors": ["postbound/mysql.py:92-124", "postbound/mysql.py:675-703", "postbound/util/misc.py:21-26"]}
{"id": "C135", "title": "Filters and joins imply the WHERE clause", "statement": "A row combination that satisfies every predicate of filters() and joins() satisfies the WHERE clause, whatever its shape. Every reported join touches two different tables, no reported filter is a join, and a comparison that is reported as filter touches at most one table.", "quantifier": "for every predicate tree (AND/OR/NOT nesting of any depth over comparison, BETWEEN, IN and unary base predicates) and every assignment of SQL values (including NULL) to columns", "why_tests_cant": "predicate trees are unboundedly nested and equivalence is over all database contents with three-valued logic; tests only try a handful of flat conjunctions", "anchors": ["postbound/qal/_qal.py: QueryPredicates.filters, QueryPredicates.joins, _collect_filter_predicates, _collect_join_predicates, AbstractPredicate.is_join"]}
{"id": "C136", "title": "Equality of predicates", "statement": "Equality of predicates is an equivalence relation, and equal predicates have the same value in every row.", "quantifier": "for all predicates, hash functions, rows and semantics of operators (that do not depend on the order of IN lists)", "why_tests_cant": "quantifies over pairs of structurally different but equal objects and over hash functions", "anchors": ["postbound/qal/_qal.py: InPredicate.__eq__, InPredicate.__init__, SimpleFilter.__eq__, SimpleFilter.__hash__, SimpleJoin.__eq__, BinaryPredicate.__eq__, CompoundPredicate.__eq__"]}
{"id": "C137", "title": "Connectivity of tables", "statement": "joins_tables() of at least two tables is true if and only if the tables are connected by join predicates among themselves, whatever the iteration order; of a single table if and only if it occurs in the predicates. joins_between() is symmetric.", "quantifier": "for all lists of join predicates that have partners, all sets of tables", "why_tests_cant": "graphs and subsets of arbitrary size; iteration order of Python sets is arbitrary", "anchors": ["postbound/qal/_qal.py: QueryPredicates.joins_tables, QueryPredicates._join_tables_check"]}
{"id": "C138", "title": "Equivalence classes of columns", "statement": "Two columns are in the same equivalence class if and only if they are connected by equality joins; classes are disjoint. Adding the predicates of all classes states every equality between two columns of a class.", "quantifier": "for every conjunctive WHERE clause (any mix of filters, equi-joins, other joins) and every row", "why_tests_cant": "transitive closure over arbitrarily many columns, all rows, non-equi joins mixed in", "anchors": ["postbound/transform.py: add_ec_predicates", "postbound/qal/_qal.py: determine_join_equivalence_classes, generate_predicates_for_equivalence_classes"]}
{"id": "C139", "title": "Tables of query fragments", "statement": "The predicates of a query fragment only mention the requested tables.", "quantifier": "for every predicate tree, every subset of tables and every row", "why_tests_cant": "implication over all rows and all nestings", "anchors": ["postbound/transform.py: extract_query_fragment, _get_predicate_fragment"]}
{"id": "C140", "title": "Replacing and dropping clauses", "statement": "replace_clause() changes exactly the clauses for which there is a replacement of the same type, regardless of the order of the replacements; drop_clause() removes exactly the given clauses and refuses to remove SELECT or the set operation; build_query() of the clauses of a query that was built from clauses is that query; equality of queries is equality of their clauses; mixing clauses of plain and set queries is refused.", "quantifier": "for every combination of optional clauses", "why_tests_cant": "2^10 clause combinations times arbitrary clause contents", "anchors": ["postbound/qal/_qal.py: build_query, SqlQuery.clauses, SqlQuery.__eq__", "postbound/transform.py: add_clause, drop_clause, replace_clause"]}
{"id": "C141", "title": "Text of LIMIT clauses", "statement": "The text of a Limit clause with a forward direction asks for exactly the rows of limit and offset, in the standard and for PostgreSQL.", "quantifier": "for all limits, offsets, forward fetch directions and all result sets", "why_tests_cant": "boundary values of two optional integers, all result sizes", "anchors": ["postbound/qal/_formatter.py: _quick_format_limit", "postbound/postgres.py: PostgresLimitClause.__str__", "postbound/qal/_qal.py: Limit"]}
{"id": "C142", "title": "Quoting of identifiers", "statement": "Different names are never quoted alike, and a quoted name denotes the original name if and only if it contains no double quote.", "quantifier": "for every identifier string", "why_tests_cant": "all strings, including ones containing quotes and upper case letters", "anchors": ["postbound/_core.py: quote, normalize"]}
{"id": "C143", "title": "Plans of the dynamic programming enumerator are valid", "statement": "A plan of the dynamic programming enumerator contains every table of the query exactly once and no cross product; if the tables do not hang together then there is a KeyError. The cost of the plan does not depend on the iteration order of sets. The connectivity the enumerator uses is the one of the join predicates of the query.", "quantifier": "for every connected join graph", "why_tests_cant": "all graphs, all sizes", "anchors": ["postbound/opt/dynprog.py: DynamicProgrammingEnumerator"]}
{"id": "C144", "title": "UES bound of primary key/foreign key joins", "statement": "The UES bound of a primary key/foreign key join predicate is never smaller than the number of rows of the join, whether or not the key is unique.", "quantifier": "for every pair of relations (every multiset of join column values) and every pair of correct input bounds", "why_tests_cant": "must hold for every database; tests use one fixed database", "anchors": ["postbound/opt/ues.py: UESBoundEstimator, _estimate_n_m_join", "postbound/_core.py: Cardinality.__truediv__"]}
{"id": "C145", "title": "Random join orders are valid", "statement": "For connected join graphs, a drawn bushy join order contains every table exactly once without cross products, with a base table in a join with one of its partners; a drawn linear join order has in addition the requested shape.", "quantifier": "for all connected join graphs, all random choices, all base tables", "why_tests_cant": "all random seeds and all graphs", "anchors": ["postbound/opt/randomized.py: _sample_join_graph, RandomJoinOrderGenerator"]}
{"id": "C146", "title": "Merging operator assignments", "statement": "Merging two assignments keeps every entry of both, where the second one wins; lookups follow. Assignments fail only for joins of fewer than two tables; the global setting of an operator and the intermediate operators are those given last. Changes to a clone never affect the original, nor the other way around.", "quantifier": "for every sequence of assignments and every lookup", "why_tests_cant": "all histories", "anchors": ["postbound/_hints.py: PhysicalOperatorAssignment.set, add, get, merge_with, clone, __eq__"]}
{"id": "C147", "title": "Setters of plan parameters", "statement": "Adding a cardinality or worker hint changes exactly the entry of its tables, setting a system setting exactly that setting; it is required to give settings in exactly one way; drop_workers() removes the worker hints and nothing else.", "quantifier": "for all parameterizations, tables, values", "why_tests_cant": "all pairs", "anchors": ["postbound/_hints.py: PlanParameterization.merge_with"]}
{"id": "C148", "title": "pg_lab hints for operators", "statement": "Assignments of supported operators always have pg_lab hints; every operator hint belongs to an assigned operator with its own tables and there are as many as assignments; operators that pg_lab does not know make the generation fail.", "quantifier": "for every join tree and every operator assignment including parallel workers", "why_tests_cant": "all trees; the failure needs several parallel operators", "anchors": ["postbound/postgres.py: _walk_join_order, _generate_pglab_hints, _generate_pghintplan_hints"]}
{"id": "C149", "title": "Histogram estimates for smaller values", "statement": "Estimates for smaller-or-equal values never fail, lie between zero and the number of rows and never decrease as the value grows; beyond the bounds the estimates are exact in both directions.", "quantifier": "for every column (list of values), every number of bins and every probe value", "why_tests_cant": "all columns and probe values", "anchors": ["postbound/db/_db.py: Histogram.frequency_below, Histogram.frequency_above, _infer_histogram_bounds"]}
{"id": "C150", "title": "Kept paths and cheapest paths", "statement": "Only offered paths are kept; the cheapest path is a kept path of minimal cost, also among partial paths; if a sorting subsumes another then rows in the first order are in the second one.", "quantifier": "for every sequence of candidate paths (costs, sort orders)", "why_tests_cant": "all histories of additions and evictions", "anchors": ["postbound/opt/dynprog.py: standard_add_path, PostgresDynProg._sorting_subsumes"]}
{"id": "C151", "title": "Equality, hash values, division and remainders of cardinalities", "statement": "Two cardinalities are equal exactly if they are the same, also unknown and infinite ones; equality raises exactly for different cardinalities one of which is invalid; equal hash values occur for equal cardinalities only. Quotients are between all integers around the exact quotient; the remainder and divmod() are those of division with remainder; min() gives one of its arguments that is not larger than the other.", "quantifier": "for all cardinalities (quotients: below 2^53)", "why_tests_cant": "all values", "anchors": ["postbound/_core.py: Cardinality.__add__, __sub__, __mul__, __truediv__, __hash__"]}
{"id": "C152", "title": "Sized queues", "statement": "After any appends a SizedQueue holds the most recent elements in order, and no sequence of operations exceeds its capacity or raises.", "quantifier": "for every sequence of operations and every element value", "why_tests_cant": "all histories, all values (including falsy ones)", "anchors": ["postbound/util/collections.py: Queue, SizedQueue"]}
{"id": "C153", "title": "Concurrent use of atomic integers", "statement": "In every interleaving of threads that use increment, get, set and reset, each finished run has the outcome of some sequential execution that respects the order of each thread; in particular no increment is lost.", "quantifier": "for every number of threads, every list of operations per thread and every interleaving", "why_tests_cant": "all schedules", "anchors": ["postbound/util/num.py: AtomicInt"]}
{"id": "C154", "title": "Merging, intersecting and collecting dictionaries", "statement": "merge() prefers the second dictionary or combines values by the updater; intersection() and difference() keep exactly the entries whose key is (not) in the other dictionary; multi-dictionaries and aggregated dictionaries collect all values of each key in order; argmin() and argmax() return a key with smallest or largest value.", "quantifier": "for every pair of dictionaries", "why_tests_cant": "all key/value/orders", "anchors": ["postbound/util/dicts.py: merge, intersection, difference, hash_dict, invert_multi"]}
{"id": "C155", "title": "Compound pre-checks of queries", "statement": "A compound check accepts a query exactly if all its parts do, and reports the reasons of all failing parts.", "quantifier": "for every list of checks and every query / database", "why_tests_cant": "all combinations", "anchors": ["postbound/validation.py: CompoundCheck, merge_checks, PreCheckResult.merge"]}
{"id": "C156", "title": "Validated components of pipelines", "statement": "An incremental pipeline only runs with components that support its database system; textbook and multi-stage pipelines never run after a change until they are built again; a built integrated pipeline runs exactly the queries that its algorithm supports.", "quantifier": "for every sequence of setup/build/optimize calls", "why_tests_cant": "all call histories", "anchors": ["postbound/_pipelines.py: MultiStageOptimizationPipeline, TextBookOptimizationPipeline, IntegratedOptimizationPipeline, IncrementalOptimizationPipeline"]}
{"id": "C157", "title": "Selections and algebra of workloads", "statement": "However a workload was made, iteration, item access and labels agree. Filtering, selection by labels, union, difference, intersection, first() and random selections have exactly the entries that their description says, shuffling permutes the entries.", "quantifier": "for every workload, argument and random choice", "why_tests_cant": "all histories", "anchors": ["postbound/workloads.py: Workload"]}
{"id": "C158", "title": "Outcomes of the timeout executor", "statement": "A query that ends in time is answered by its result; TimeoutError is raised only if the query did not end in time and always if it ends too late, and then the backend is cancelled; a reported error is the first error of the worker and its backend is cancelled; results are never mixed up and the protocol errors never occur.", "quantifier": "for all timings and behaviours of the worker", "why_tests_cant": "all schedules and crash points", "anchors": ["postbound/postgres.py: TimeoutQueryExecutor.execute_query, _timeout_worker_ctl, _timeout_worker_prep, _timeout_worker_run_query, _timeout_worker_await_result, _timeout_query_worker"]}
{"id": "C159", "title": "Random walks and frontier walks", "statement": "A random walk visits every node exactly once and, over a connected graph, always moves to a neighbour of a visited node; the frontier walks are exactly the walks with this property.", "quantifier": "for every connected graph and all random choices", "why_tests_cant": "all seeds and graphs", "anchors": ["postbound/util/nx.py: nx_random_walk, nx_bfs_tree, nx_frontier_walk"]}
{"id": "C160", "title": "Removing a base predicate", "statement": "After removing a base predicate it does not occur any more; nothing changes if it did not occur; if it is a conjunct then adding it again gives the original condition.", "quantifier": "for every predicate tree p, every predicate x and every row, three-valued logic", "why_tests_cant": "The hierarchy is simplified recursively; tests only see a few shapes, not every nesting.", "anchors": ["postbound/transform.py:789-830"]}
{"id": "C161", "title": "Equality and order of references", "statement": "References are equal exactly if their names, aliases and schemas are equal up to letter case, exactly if their hash values agree; the orders of tables and columns are strict orders by identifiers; dropping the alias and making a reference virtual keep name and schema.", "quantifier": "for every reference (name, alias, schema, virtual flag)", "why_tests_cant": "all combinations of attributes and all strings", "anchors": ["postbound/_core.py: TableReference, ColumnReference"]}
{"id": "C162", "title": "Joins among abbreviated predicates", "statement": "BETWEEN is a join exactly if the two comparisons it stands for contain one, IN exactly if one of its comparisons is; negations, conjunctions and disjunctions are joins exactly if one of their parts is.", "quantifier": "for all predicates", "why_tests_cant": "Expressions nest arbitrarily; the column collection behind the classification silently skips some positions, which tests over simple comparisons never exercise.", "anchors": ["postbound/qal/_qal.py BinaryPredicate.is_join", "postbound/qal/_qal.py BetweenPredicate.is_join", "postbound/qal/_qal.py InPredicate.is_join", "postbound/qal/_qal.py CompoundPredicate.is_join"]}
{"id": "C163", "title": "Construction of join assignments", "statement": "Join assignments exist exactly for at least two tables; directional ones exactly for two non-empty sides with at least two tables, and contain the union of both sides.", "quantifier": "for all operators and sets of tables", "why_tests_cant": "The default number of workers is NaN, which is not equal to itself; a test over assignments with explicit workers never notices.", "anchors": ["postbound/_hints.py ScanOperatorAssignment", "postbound/_hints.py JoinOperatorAssignment", "postbound/_hints.py DirectionalJoinOperatorAssignment"]}
{"id": "C164", "title": "Exhaustive enumeration", "statement": "For connected join graphs and hash values without collisions, the exhaustive enumeration produces exactly the join orders without cross products, each of them once; disconnected join graphs are rejected.", "quantifier": "for every connected join graph and every tree structure", "why_tests_cant": "all graphs; the number of trees is exponential, and a missing tree goes unnoticed unless all are known", "anchors": ["postbound/opt/enumeration.py: _enumerate_join_graph, ExhaustiveJoinOrderEnumerator.all_join_orders_for, _all_linear_join_orders"]}
{"id": "C165", "title": "Equi-join check", "statement": "The equi-join check accepts exactly equality joins between columns, combined by AND if that is allowed; the inner join check never accepts another kind of join, and reports each explicit join.", "quantifier": "for every list of join predicates and every FROM clause", "why_tests_cant": "All nestings of predicates and table sources; the check has to be right in both directions.", "anchors": ["postbound/validation.py: EquiJoinPreCheck, InnerJoinPreCheck"]}
{"id": "C166", "title": "Shape of simplified results", "statement": "Simplifying a result set gives a single value for one row with one column, the row for one row, a list of values for one column, and otherwise the rows themselves.", "quantifier": "for all result sets of equally long rows", "why_tests_cant": "all shapes and all values, including arrays", "anchors": ["postbound/db/_db.py: simplify_result_set"]}
{"id": "C167", "title": "Merging and comparing sort keys", "statement": "Compatibility of sort keys is reflexive and symmetric; merging two keys of the same direction gives a key with the members of both, compatible with exactly the keys that one of them is compatible with; keys of different direction are not merged; equal keys are interchangeable.", "quantifier": "for all sort keys", "why_tests_cant": "all equivalence classes, directions and row sequences", "anchors": ["postbound/_qep.py: SortKey.is_compatible_with, SortKey.merge_with, SortKey.__contains__, SortKey.of", "postbound/opt/dynprog.py: PostgresDynProg._is_sorted_by"]}
{"id": "C168", "title": "EXPLAIN and hints of queries", "statement": "as_explain() sets the EXPLAIN clause and changes nothing else, the last one counts; drop_hints() changes nothing but the hint block, of which only preparatory statements may remain.", "quantifier": "for every query, select or set query, and every combination of clauses", "why_tests_cant": "all combinations of optional clauses, subclasses of clauses and nested set operations", "anchors": ["postbound/transform.py: as_explain, as_star_query, as_count_star_query, drop_hints"]}
{"id": "C169", "title": "Traversal of query plans", "statement": "iternodes() lists exactly the nodes reachable through children, as many as there are, with the root last; iteration lists exactly the nodes including subplans, with the root first; plan_depth() is the length of a longest path; tables() are exactly the mentioned tables.", "quantifier": "all query plans, predicates and table sets", "why_tests_cant": "Plans form an unbounded recursive type with subplans in arbitrary positions; tests use a handful of PostgreSQL plans.", "anchors": ["postbound/_qep.py:1360-1366", "postbound/_qep.py:1392-1548", "postbound/_qep.py:1948-1953"]}
{"id": "C170", "title": "Linearity of the topmost join", "statement": "is_bushy() is the negation of is_linear(); for a plan that starts with a join of two inputs, is_left_deep(), is_right_deep() and is_linear() say exactly which inputs contain no join.", "quantifier": "all query plans", "why_tests_cant": "The shape is a statement about all joins of an unbounded tree; tests look at small plans whose shape is visible at the root.", "anchors": ["postbound/_qep.py:1276-1358"]}
{"id": "C171", "title": "Equality and hash values of query plans", "statement": "Equality of query plans is an equivalence relation and equal plans have the same hash value; plans with actual cardinalities are equal to the original and have the measured cardinalities as estimates; a canonical form exists if every auxiliary node has one child.", "quantifier": "all pairs and triples of query plans", "why_tests_cant": "Equivalence and hash consistency quantify over pairs and triples of an infinite type.", "anchors": ["postbound/_qep.py:1955-1964"]}
{"id": "C172", "title": "Join trees, operators and parameters of query plans", "statement": "The join tree of a plan has its join order and the selected cardinalities, and exists exactly if the plan has a join order. The operator assignment and the parameters contain for each set of tables what the last node with these tables (from the root downwards) says. The assignment exists exactly if nodes without operator have one child and joins have two tables.", "quantifier": "all query plans and cardinality sources", "why_tests_cant": "Collisions between nodes with the same tables only show up for particular nestings of index lookups and joins.", "anchors": ["postbound/_hints.py:1766-1872", "postbound/opt/_helpers.py:669-690"]}
{"id": "C173", "title": "Reading attributes of query plans", "statement": "Membership of tables in a plan is membership in its tables; an attribute is looked up among parameters, estimates and measures in this order, and fails exactly if none has it.", "quantifier": "all plans and keys", "why_tests_cant": "The keys are arbitrary texts or collections.", "anchors": ["postbound/_qep.py:1925-1946"]}
{"id": "C174", "title": "Equality of relational algebra nodes", "statement": "Equality of relational algebra nodes is an equivalence relation; equal nodes work on the same tables and produce the same rows. A copy without changes is equal to the original. An ORDER BY clause is applied last.", "quantifier": "all trees", "why_tests_cant": "Stale hash values only matter for later lookups in sets, and only for nodes above a changed one.", "anchors": ["postbound/relalg.py:139-149", "postbound/relalg.py:317-396", "postbound/relalg.py:433-434"]}
{"id": "C175", "title": "Intermediates with cross products", "statement": "With cross products allowed, a cardinality estimator is asked for each set of tables exactly once; the parameterization contains exactly the known estimates; with a join order, those of its nodes.", "quantifier": "all queries, all estimators, all join orders, all orders in which Python visits sets", "why_tests_cant": "The number of intermediates is exponential; missing ones only show in the plan that is chosen.", "anchors": ["postbound/_stages.py:688-760"]}
{"id": "C176", "title": "Stored cardinalities", "statement": "A stored cardinality is returned for its query and tables whatever the fallback; otherwise the default or the answer of the database is returned, and nothing is stored unless wanted.", "quantifier": "for all tables of stored cardinalities without duplicates", "why_tests_cant": "The interplay of saving, looking up again and reloading is not visible in single lookups.", "anchors": ["postbound/opt/_cardinalities.py:79-303"]}
{"id": "C177", "title": "Bottom-up similarity", "statement": "The bottom-up similarity of join trees is symmetric, lies between 0 and 1, is undefined only if neither tree has joins, and is 1 exactly for trees that differ in the order of join inputs only.", "quantifier": "all pairs of join trees, all values of gamma", "why_tests_cant": "A quantification over all pairs of trees.", "anchors": ["postbound/opt/_analysis.py:241-342", "postbound/util/stats.py:18-20"]}
{"id": "C178", "title": "Conforming training data", "statement": "conform_to() works exactly if the requested features are there and keeps their values; missing features are refused by conform_to(), as_df() and merge_with(); from_df() names features like columns and keeps all rows.", "quantifier": "all data frames, feature mappings and specifications", "why_tests_cant": "The mapping between features and columns is the identity in typical tests.", "anchors": ["postbound/train/_train.py:217-460"]}
{"id": "C179", "title": "Retrieving training data", "statement": "retrieve_all() gives exactly the registered training data that have the features, in the order of registration; retrieve_first() gives the first of them, restricted to the features; nothing is retrieved exactly if none has the features.", "quantifier": "all repositories and specifications", "why_tests_cant": "Depends on the order and overlap of the features of all registered data sets.", "anchors": ["postbound/train/_train.py:463-504", "postbound/train/_train.py:296-309"]}
{"id": "C180", "title": "Training stages", "statement": "Training a pipeline trains exactly the stages that need it and have not been trained, once each, after which nothing is left to do; stages without samples are refused; classes that can be instantiated and fitted know whether they have been fitted.", "quantifier": "all pipelines, stage objects (also shared ones) and training states", "why_tests_cant": "All combinations of overridden methods and training states.", "anchors": ["postbound/_pipelines.py:179-302", "postbound/_stages.py:20-153", "postbound/_stages.py:187-346"]}
{"id": "C181", "title": "Plans of the PostgreSQL-style enumerator are valid", "statement": "A plan of the PostgreSQL-style enumerator reads every table of the query exactly once, contains no cross product, and uses only allowed operators; memoization and materialization occur below nested-loop joins only.", "quantifier": "all join graphs, schemas, cost models, cardinality estimators, allowed operators and settings", "why_tests_cant": "The search space grows exponentially and depends on the join graph, the settings and infinite costs of intermediates.", "anchors": ["postbound/opt/dynprog.py:662-705", "postbound/opt/dynprog.py:791-932", "postbound/opt/dynprog.py:1181-1240"]}
{"id": "C182", "title": "Tables and subqueries of a query are sound", "statement": "Every table of tables() is mentioned by the query, every query of subqueries() is a subquery, every column of columns() is found by itercolumns(); unbound tables are tables that are not bound.", "quantifier": "all queries: any nesting of subqueries, CTEs, joins, VALUES lists, table functions and set operations", "why_tests_cant": "Depends on the place at which the table is mentioned; queries nest arbitrarily.", "anchors": ["postbound/qal/_qal.py:6125-6900", "postbound/qal/_qal.py:8700-8729", "postbound/qal/_qal.py:9682-9694"]}
{"id": "C183", "title": "Predicates are the conjunction of all conditions", "statement": "The predicate of predicates() is satisfied exactly if all conditions of the query are: its WHERE clause, the conditions of its explicit joins and those of its common table expressions and derived tables.", "quantifier": "all queries and all truth values of the single conditions", "why_tests_cant": "The number and nesting of the conditions is unbounded.", "anchors": ["postbound/qal/_qal.py:6884-6900", "postbound/qal/_qal.py:6988-6996", "postbound/qal/_qal.py:8803-8833", "postbound/qal/_qal.py:9755-9761"]}
{"id": "C184", "title": "Quick format of set queries", "statement": "format_quick() of a set query is read as the same query, also with EXPLAIN.", "quantifier": "all trees of set operations, with and without EXPLAIN", "why_tests_cant": "Precedence, associativity and blanks matter for nested trees of any depth only.", "anchors": ["postbound/qal/_qal.py:7782-7786", "postbound/qal/_qal.py:7861-7864", "postbound/qal/_qal.py:7956-7959", "postbound/qal/_qal.py:8038-8056", "postbound/qal/_qal.py:9948-9970", "postbound/qal/_formatter.py:927-997"]}
{"id": "C185", "title": "When EXPLAIN output has a query plan", "statement": "as_qep() fails exactly if the relationship of some node is unknown, with ValueError or AssertionError only, and a plan never reads a table that the EXPLAIN output does not.", "quantifier": "all trees of explain nodes of any size and shape", "why_tests_cant": "Nodes can be nested arbitrarily, with inputs and subplans at any place.", "anchors": ["postbound/postgres.py:3881-3905", "postbound/postgres.py:4053-4108", "postbound/postgres.py:4202-4328", "postbound/_qep.py:926-1031"]}
{"id": "C186", "title": "Equality of explain nodes", "statement": "Equality of explain nodes is an equivalence relation, and equal nodes read the same tables. inner_outer_children() returns fewer than two children as they are and refuses more than two.", "quantifier": "all explain nodes", "why_tests_cant": "Differences may be anywhere in the trees.", "anchors": ["postbound/postgres.py:4053-4108", "postbound/postgres.py:4180-4200", "postbound/postgres.py:4371-4381"]}
{"id": "C187", "title": "Choice among several DuckDB scans", "statement": "Binding a scan never fails and only binds a table of the same relation; a relation that occurs several times is bound to a table exactly if its filter is clearly more similar than that of all others. Plans exist exactly if all wrapper operators have one child.", "quantifier": "all queries, filters and scan nodes", "why_tests_cant": "Filters are arbitrary texts and there can be any number of candidates.", "anchors": ["postbound/duckdb.py:458-505", "postbound/util/stats.py:18-21", "postbound/util/stats.py:40-43", "postbound/util/dicts.py:219-224"]}
{"id": "C188", "title": "When DuckDB hints exist", "statement": "Hints exist exactly if everything is supported; plans are hinted like the parts extracted from them and refused together with other parts.", "quantifier": "all join orders, operator assignments and parameters", "why_tests_cant": "Assignments can have any number of entries in any combination.", "anchors": ["postbound/duckdb.py:658-731", "postbound/duckdb.py:738-787", "postbound/duckdb.py:806-919"]}
{"id": "C189", "title": "When MySQL hints exist", "statement": "Hints are given exactly if all operators can be expressed and the last join of the join order has a base table as input; all operators that are said to be supported can be hinted. Every table of a MySQL plan belongs to the query and to an entry of the document.", "quantifier": "all join orders, operator assignments and parameters", "why_tests_cant": "Assignments can have any number of entries in any combination.", "anchors": ["postbound/mysql.py:456-458", "postbound/mysql.py:508-641"]}
{"id": "C190", "title": "Camel case and snake case", "statement": "camel_case2snake_case() lowers the first letter of each word and separates words by underscores; different capitalised names without underscores have different results. A configuration file is refused with ValueError exactly if its section, the user or the database is missing.", "quantifier": "all configuration files, all names", "why_tests_cant": "There are infinitely many names and any combination of options can be given.", "anchors": ["postbound/mysql.py:92-124", "postbound/mysql.py:675-703", "postbound/util/misc.py:21-26"]}
{"id": "C191", "title": "Exhaustive enumeration of operators and plans", "statement": "all_operator_assignments_for() enumerates every assignment of allowed operators to the tables (if scans are included) and joins (if joins are included) of a join order exactly once; all_plans_for() enumerates the plans of all join orders with all of their assignments.", "quantifier": "all queries, join orders and sets of operators", "why_tests_cant": "The number of assignments is exponential in the number of tables and all of them must occur once.", "anchors": ["postbound/opt/enumeration.py:209-322", "postbound/opt/enumeration.py:325-433"]}
{"id": "C192", "title": "Random selection of operators and plans", "statement": "A random assignment gives an allowed operator to exactly the tables and joins that are included, every such assignment can be drawn, duplicates can be eliminated, and a selection works with and without join order; random plans consist of a random join order and a random assignment.", "quantifier": "all join orders, sets of operators and random choices", "why_tests_cant": "Random choices cannot be enumerated.", "anchors": ["postbound/opt/randomized.py:323-434", "postbound/opt/randomized.py:437-531", "postbound/opt/randomized.py:534-651"]}
{"id": "C193", "title": "Native cost model", "statement": "The cost of a plan is the estimate of the database for the part of the query with the tables of the plan, hinted with the plan; index scans may be costed while counting, sorting as part of an ordered query, materialize and memoize nodes inside a join; errors of the database lead to infinite cost or an exception. Native plan parameters are those of the database.", "quantifier": "all queries and plans, all answers of the database", "why_tests_cant": "The database may answer anything.", "anchors": ["postbound/opt/native.py:57-405", "postbound/opt/native.py:491-518"]}
{"id": "C194", "title": "Random operators", "statement": "A random assignment gives an allowed operator to exactly the tables and joins that are included and to nothing else, whatever the random numbers; every such assignment can be drawn. If there is no allowed operator for an included join then there is an IndexError. Elimination of duplicates only gives assignments with a new hash value.", "quantifier": "all join orders without empty parts and without repeated tables, all sets of operators, all random choices", "why_tests_cant": "Random choices cannot be enumerated.", "anchors": ["postbound/opt/randomized.py:323-434"]}
{"id": "C195", "title": "Allowed operators", "statement": "The operators that are enumerated or drawn are those that are asked for and that the database supports, where an empty request means all operators. Materialize and memoize nodes that have all tables of the query are a ValueError for the native cost model.", "quantifier": "all sets of operators, all databases; all queries and plans", "why_tests_cant": "Any combination of operators can be requested.", "anchors": ["postbound/opt/enumeration.py:262-273", "postbound/opt/randomized.py:381-392", "postbound/opt/native.py:77-86"]}
{"id": "C196", "title": "pg_lab hints of entire plans", "statement": "The pg_lab hint block of a plan states the join order of the plan, one operator hint with the tables of the node for each node whose operator pg_lab knows, the actual or else estimated cardinality of each such node, and the number of workers of at most one node, at the hint of that node (or of the result for nodes above all joins).", "quantifier": "all query plans, all identifiers", "why_tests_cant": "Plans can have any shape and any combination of operators, workers and cardinalities.", "anchors": ["postbound/postgres.py:2460-2538"]}
{"id": "C197", "title": "Hint service of PostgreSQL", "statement": "generate_hints() hints a plan with pg_hint_plan like its join order, operators and parameters and with pg_lab as a whole; parts of a plan are hinted as given; giving a plan and parts of it is a ValueError, just as using an inactive backend; other backends cannot generate hints.", "quantifier": "all plans, join orders, operators and parameters, all backends", "why_tests_cant": "Any combination of parts can be given.", "anchors": ["postbound/postgres.py:2588-2659"]}
{"id": "C198", "title": "Join order, operators and cardinalities in pg_lab plan hints", "statement": "A plan has a pg_lab hint block if and only if it has a join order (otherwise there is an AssertionError), and the block states it in a way that different orders of the same tables have different texts; the operator and cardinality hints are exactly those of the nodes of the plan; at most one hint has workers, and their number is the one of a node of the plan.", "quantifier": "all query plans, identifiers that are single words", "why_tests_cant": "Plans can have any shape and any combination of operators, workers and cardinalities.", "anchors": ["postbound/postgres.py:2460-2538"]}
{"id": "C199", "title": "Keys and indexes of a schema", "statement": "is_primary_key() holds exactly for the columns of the primary key of their table, has_secondary_index() exactly for columns with another index (for the generic implementation: columns of unique constraints and foreign keys), has_index() for both, and indexes_on() names exactly these; primary_key_column() gives the only column of the primary key, None without primary key and ValueError for composite keys.", "quantifier": "all catalogs, tables and columns, any order of the rows from the server", "why_tests_cant": "A schema can declare any combination of constraints and indexes with any names.", "anchors": ["postbound/db/_db.py:956-1337", "postbound/postgres.py:1402-1485"]}
{"id": "C200", "title": "Foreign keys of a schema", "statement": "foreign_keys_on() gives exactly the columns to which foreign keys of the column refer; the columns of composite keys correspond by position.", "quantifier": "all catalogs and columns, all systems", "why_tests_cant": "A schema can declare any combination of constraints with any names.", "anchors": ["postbound/db/_db.py:1158-1221", "postbound/postgres.py:1487-1516", "postbound/mysql.py:345-361", "postbound/duckdb.py:336-382"]}
{"id": "C201", "title": "Graph of a schema", "statement": "as_graph() has the tables that are no views and the tables that are referenced by foreign keys as nodes, and an edge from one table to another exactly if a column of the former refers to one of the latter, labelled with exactly these references.", "quantifier": "all schemas, any order of columns", "why_tests_cant": "Schemas can have any number of tables and references.", "anchors": ["postbound/db/_db.py:1446-1480"]}
{"id": "C202", "title": "Join equivalence classes of a schema", "statement": "join_equivalence_classes() are the connected components of the columns under foreign keys: two columns are in one class exactly if they are connected by foreign keys of the tables, classes are disjoint and not empty, columns without foreign keys are in none; join_equivalence_keys() maps each column of a class to this class and has no other keys.", "quantifier": "all schemas", "why_tests_cant": "Chains of foreign keys can be arbitrarily long.", "anchors": ["postbound/db/_db.py:1482-1527"]}
{"id": "C203", "title": "Looking up columns, tables and entries of a schema", "statement": "lookup_column() gives the first of the candidate tables that has a column of the given name, whether it is given as text or as column, else None or, if a match is expected, ValueError; tables() of PostgreSQL gives the tables of the given schema, system tables only if asked for; schema[\"table\"] and schema[\"table.column\"] give the table and the column, and raise KeyError for unknown ones.", "quantifier": "all schemas, candidates and names", "why_tests_cant": "Any number of candidates; answers depend on earlier calls.", "anchors": ["postbound/db/_db.py:911-954", "postbound/db/_db.py:1535-1579", "postbound/postgres.py:1352-1400", "postbound/mysql.py:284-303"]}
{"id": "C204", "title": "Indexes of PostgreSQL by name", "statement": "PostgreSQL: indexes_on() gives exactly the names of the indexes that have the column; indexed_column() gives None exactly if there is no such index and a column of the index otherwise; is_primary_key() and has_secondary_index() never hold for the same column (given the same result set).", "quantifier": "all catalogs, any order of the rows from the server", "why_tests_cant": "A schema can declare any combination of indexes.", "anchors": ["postbound/postgres.py:1402-1485"]}
{"id": "C205", "title": "Declared keys are found", "statement": "Generic schema: every column of a primary key is reported by is_primary_key() and has_index(), every column of a unique constraint or foreign key by has_secondary_index() and has_index(), and indexes_on() has the name of each of these constraints, whatever other constraints there are.", "quantifier": "all catalogs and columns", "why_tests_cant": "A schema can declare any combination of constraints with any names.", "anchors": ["postbound/db/_db.py:956-1337"]}
{"id": "C206", "title": "Foreign keys are not lost", "statement": "MySQL: foreign_keys_on() gives exactly the referenced columns, also for composite keys; PostgreSQL: all referenced columns are among those given by foreign_keys_on().", "quantifier": "all catalogs and columns", "why_tests_cant": "A schema can declare any combination of constraints with any names.", "anchors": ["postbound/postgres.py:1487-1516", "postbound/mysql.py:345-361"]}
{"id": "C207", "title": "Lookups of columns by name", "statement": "MySQL: lookup_column() gives the first candidate with the column, else None or ValueError; PostgreSQL: it gives a candidate that has the column (possibly in lower case), and one is given whenever some candidate has it.", "quantifier": "all schemas, candidates and names", "why_tests_cant": "Any number of candidates.", "anchors": ["postbound/postgres.py:1374-1400", "postbound/mysql.py:284-303"]}
{"id": "C208", "title": "Join orders of the UES optimizer", "statement": "A join order of UESJoinOrderOptimizer joins each table of the query exactly once; if the join graph is connected, each join evaluates a join predicate between its inputs (without eager primary key joins); for star queries it is left-deep.", "quantifier": "all queries, indexes, estimates, policies and orders of sets", "why_tests_cant": "The number of tables and the shape of the join graph are unbounded; the choices depend on estimates and on the order of sets.", "anchors": ["postbound/opt/ues.py:1037-1477", "postbound/opt/_joingraph.py:462-535"]}
{"id": "C209", "title": "The UES optimizer finds a join order", "statement": "optimize_join_order() gives a join order for each query with at least two tables, provided the estimators and the policy answer with numbers.", "quantifier": "all queries, indexes, estimates, policies and orders of sets", "why_tests_cant": "The number of tables and the shape of the join graph are unbounded; the choices depend on estimates and on the order of sets.", "anchors": ["postbound/opt/ues.py:1037-1477"]}
{"id": "C210", "title": "Choices of the UES optimizer", "statement": "Star queries are joined greedily: each join has the lowest estimate of the joins between joined and other tables; of two tables the larger one is the outer one; n:m queries start with a table with the lowest bound (the lowest of its base estimate and the estimates of its primary key joins) of the tables with n:m joins; each following n:m join has the lowest estimate of the available ones. Joins are annotated with these estimates.", "quantifier": "all queries, indexes, estimates and orders of sets", "why_tests_cant": "The number of tables and the shape of the join graph are unbounded; the choices depend on estimates and on the order of sets.", "anchors": ["postbound/opt/ues.py:1106-1433"]}
{"id": "C211", "title": "Cross products of the UES optimizer", "statement": "The connected components of a query are optimized on their own and joined by cross products with the product of their bounds as annotation, the smaller ones first.", "quantifier": "all queries with more than one component", "why_tests_cant": "The number of tables and the shape of the join graph are unbounded; the choices depend on estimates and on the order of sets.", "anchors": ["postbound/opt/ues.py:1055-1074"]}
{"id": "C212", "title": "Tables of the join orders of the UES optimizer", "statement": "A join order of UESJoinOrderOptimizer has exactly the tables of the query; for connected queries each join evaluates a join predicate between its inputs; for connected queries with only primary key joins it is left-deep and has each table once.", "quantifier": "all queries, indexes, estimates, policies and orders of sets", "why_tests_cant": "The number of tables and the shape of the join graph are unbounded; the choices depend on estimates and on the order of sets.", "anchors": ["postbound/opt/ues.py:1037-1477"]}
{"id": "C213", "title": "Components of the UES optimizer", "statement": "The join order of a query that is not connected is a chain of cross products of join orders without cross products, one for each component and with exactly its tables, annotated with the products.", "quantifier": "all queries with more than one component", "why_tests_cant": "The number of tables and the shape of the join graph are unbounded; the choices depend on estimates and on the order of sets.", "anchors": ["postbound/opt/ues.py:1055-1074"]}
{"id": "C214", "title": "Tables of generated queries", "statement": "A query of generate_query() has at least one table, each at most once, only tables of the schema that are not ignored (and not internal ones of PostgreSQL), at least min_tables and, for a positive limit, at most max_tables of them; it is a COUNT(*) query iff count_star is set.", "quantifier": "all schemas, databases, arguments and random choices", "why_tests_cant": "Schemas, limits and random choices are unbounded; a test only sees the queries that happen to be drawn.", "anchors": ["postbound/experiments/querygen.py:150-333"]}
{"id": "C215", "title": "Predicates of generated queries", "statement": "Each predicate in the WHERE clause of a generated query is an equality over a foreign key between two of its tables, or compares a column of one of its tables (not a key without filter_key_columns, numeric with numeric_filters) with one of the values of the column; any two tables of the query with a foreign key are joined.", "quantifier": "all schemas, databases, arguments and random choices", "why_tests_cant": "Schemas, limits and random choices are unbounded; a test only sees the queries that happen to be drawn.", "anchors": ["postbound/experiments/querygen.py:29-147", "postbound/experiments/querygen.py:264-333"]}
{"id": "C216", "title": "Generated queries are connected", "statement": "The join predicates of a generated query connect all its tables.", "quantifier": "all schemas, databases, arguments and random choices", "why_tests_cant": "Schemas, limits and random choices are unbounded; a test only sees the queries that happen to be drawn.", "anchors": ["postbound/experiments/querygen.py:29-76", "postbound/experiments/querygen.py:256-296"]}
{"id": "C217", "title": "Progress of the query generator", "statement": "If there are enough tables and columns for the limits, the next query is generated.", "quantifier": "all schemas, databases, arguments and random choices", "why_tests_cant": "Schemas, limits and random choices are unbounded; a test only sees the queries that happen to be drawn.", "anchors": ["postbound/experiments/querygen.py:237-333"]}
{"id": "C218", "title": "Number of filters of generated queries", "statement": "A generated query has at least min_filters and at most max_filters filters, all on different columns.", "quantifier": "all schemas, databases, arguments and random choices", "why_tests_cant": "Schemas, limits and random choices are unbounded; a test only sees the queries that happen to be drawn.", "anchors": ["postbound/experiments/querygen.py:286-330"]}
{"id": "C219", "title": "No superfluous filters in generated queries", "statement": "A generated query never filters a column twice, and for a positive limit it has at most max_filters filters.", "quantifier": "all schemas, databases, arguments and random choices", "why_tests_cant": "Schemas, limits and random choices are unbounded; a test only sees the queries that happen to be drawn.", "anchors": ["postbound/experiments/querygen.py:286-330"]}
{"id": "C220", "title": "Tables of query fragments (entire queries)", "statement": "extract_query_fragment() returns None if and only if a wanted table does not occur in the query; otherwise tables() of the fragment are exactly the wanted tables and those of the CTEs that belong to wanted tables.", "quantifier": "all queries, wanted tables, projections and orders of sets", "why_tests_cant": "Queries nest to any depth and the tables can be chosen in any way; a test only sees single queries and subsets.", "anchors": ["postbound/transform.py:313-481"]}
{"id": "C221", "title": "Clauses of query fragments", "statement": "SELECT, GROUP BY and ORDER BY of a fragment consist of exactly those expressions of the query that only read wanted tables, in the same order; all conjuncts of WHERE that only read wanted tables are kept; a DISTINCT specifier is kept.", "quantifier": "all queries, wanted tables, projections and orders of sets", "why_tests_cant": "Queries nest to any depth and the tables can be chosen in any way; a test only sees single queries and subsets.", "anchors": ["postbound/transform.py:313-481"]}
{"id": "C222", "title": "FROM clause of query fragments", "statement": "The FROM clause of a fragment consists of exactly the wanted tables, once each, all of which are in the FROM clause of the query.", "quantifier": "all queries, wanted tables, projections and orders of sets", "why_tests_cant": "Queries nest to any depth and the tables can be chosen in any way; a test only sees single queries and subsets.", "anchors": ["postbound/transform.py:430-439"]}
{"id": "C223", "title": "Fragments of set queries", "statement": "The fragment of a set query is the set query of the fragments of both sides with the requested projection.", "quantifier": "all queries, wanted tables, projections and orders of sets", "why_tests_cant": "Queries nest to any depth and the tables can be chosen in any way; a test only sees single queries and subsets.", "anchors": ["postbound/transform.py:389-403"]}
{"id": "C224", "title": "CTEs of query fragments", "statement": "If all virtual tables of a query are defined by its CTEs, the same holds for its fragments.", "quantifier": "all queries, wanted tables, projections and orders of sets", "why_tests_cant": "Queries nest to any depth and the tables can be chosen in any way; a test only sees single queries and subsets.", "anchors": ["postbound/transform.py:364-377"]}
{"id": "C225", "title": "Fragments of implicit queries exist", "statement": "extract_query_fragment() raises no exception for implicit queries, at least one wanted table and a known projection.", "quantifier": "all queries, wanted tables, projections and orders of sets", "why_tests_cant": "Queries nest to any depth and the tables can be chosen in any way; a test only sees single queries and subsets.", "anchors": ["postbound/transform.py:241-292", "postbound/transform.py:313-481"]}
{"id": "C226", "title": "Query fragments: what holds without exception", "statement": "There is no fragment iff a wanted table is not in the query. With the projections star and count_star, tables() of the fragment are the wanted tables and those of the CTEs of wanted tables. GROUP BY and ORDER BY keep exactly the expressions that only read wanted tables, in order; WHERE keeps all conjuncts that only read wanted tables; a CTE is kept iff its table is wanted.", "quantifier": "all queries, wanted tables, projections and orders of sets", "why_tests_cant": "Queries nest to any depth and the tables can be chosen in any way; a test only sees single queries and subsets.", "anchors": ["postbound/transform.py:241-292", "postbound/transform.py:313-481"]}
{"id": "C227", "title": "UES subqueries", "statement": "The UES branching policy asks for a subquery if and only if at least two tables are joined already and one of the joined columns pairs is a primary key/foreign key join whose foreign key table has an upper bound below its base table size.", "quantifier": "all join graphs, statistics and predicates", "why_tests_cant": "Bounds, keys and join states combine freely.", "anchors": ["postbound/opt/ues.py:905-953"]}
{"id": "C228", "title": "Values of list predicates", "statement": "choose_predicate_values() of a CEB list predicate always succeeds and selects one of its options (without the weight column, if there is one); the values of other predicates stay as they are.", "quantifier": "all templates, databases and random numbers", "why_tests_cant": "Templates, candidate values and random numbers are unlimited; a test only sees single draws.", "anchors": ["postbound/experiments/ceb.py:205-243", "postbound/experiments/ceb.py:349-384"]}
{"id": "C229", "title": "Dependent CEB predicates", "statement": "In a generated query the value of each SQL predicate is one of the results of its candidate query under the values that the query has for the predicates it depends on.", "quantifier": "all templates, databases and random numbers", "why_tests_cant": "Templates, candidate values and random numbers are unlimited; a test only sees single draws.", "anchors": ["postbound/experiments/ceb.py:315-347", "postbound/experiments/ceb.py:602-621"]}
{"id": "C230", "title": "CEB IN predicates", "statement": "An IN predicate is replaced by a list of at least min_samples and at most max_samples distinct candidate values, for uniform and weighted sampling, with and without weight column.", "quantifier": "all templates, databases and random numbers", "why_tests_cant": "Templates, candidate values and random numbers are unlimited; a test only sees single draws.", "anchors": ["postbound/experiments/ceb.py:386-456"]}
{"id": "C231", "title": "CEB values as SQL literals", "statement": "A value is inserted into the query as the SQL literal of the value (numbers as they are, text quoted, with wildcards for LIKE and ILIKE).", "quantifier": "all templates, databases and random numbers", "why_tests_cant": "Templates, candidate values and random numbers are unlimited; a test only sees single draws.", "anchors": ["postbound/experiments/ceb.py:646-663"]}
{"id": "C232", "title": "Placeholders of CEB queries", "statement": "In a generated query every placeholder of a registered predicate is replaced by the text of its selected value for the column and comparison it was registered with; everything else is as in the template.", "quantifier": "all templates, databases and random numbers", "why_tests_cant": "Templates, candidate values and random numbers are unlimited; a test only sees single draws.", "anchors": ["postbound/experiments/ceb.py:581-621"]}
{"id": "C233", "title": "Registering CEB predicates", "statement": "Predicates are registered iff neither their name nor one of their placeholders is in use; afterwards each placeholder belongs to the predicate that provides it; a rejected predicate leaves the template unchanged.", "quantifier": "all templates, databases and random numbers", "why_tests_cant": "Templates, candidate values and random numbers are unlimited; a test only sees single draws.", "anchors": ["postbound/experiments/ceb.py:533-556"]}
{"id": "C234", "title": "CEB target columns", "statement": "A target column with table name belongs to the table of that name or alias, a target column without table is looked up among the tables without alias.", "quantifier": "all templates, databases and random numbers", "why_tests_cant": "Templates, candidate values and random numbers are unlimited; a test only sees single draws.", "anchors": ["postbound/experiments/ceb.py:519-521", "postbound/experiments/ceb.py:628-644"]}
{"id": "C235", "title": "CEB workloads", "statement": "A generated workload has exactly the requested number of queries for each template, labelled label-1, label-2, ..., and no query twice; otherwise a SamplingError is raised.", "quantifier": "all templates, databases and random numbers", "why_tests_cant": "Templates, candidate values and random numbers are unlimited; a test only sees single draws.", "anchors": ["postbound/experiments/ceb.py:721-796"]}
{"id": "C236", "title": "CEB: what holds without exception", "statement": "Predicates are accepted iff neither name nor placeholders are in use, and each placeholder belongs to exactly the predicate that provides it. No query occurs twice in a workload; templates with different labels contribute at most the requested number of queries, labelled label-1 to label-k.", "quantifier": "all templates, databases and random numbers", "why_tests_cant": "Templates, candidate values and random numbers are unlimited; a test only sees single draws.", "anchors": ["postbound/experiments/ceb.py:533-556", "postbound/experiments/ceb.py:721-796"]}
{"id": "C237", "title": "Replacing expressions", "statement": "replace_expressions() applies the replacement exactly once to each expression of a query (including those in CTEs, subqueries in FROM and set operations), keeps their order and leaves everything else unchanged.", "quantifier": "all queries and replacements", "why_tests_cant": "Queries nest without limit and replacements are arbitrary functions.", "anchors": ["postbound/transform.py:960-1233"]}
{"id": "C238", "title": "Replacing nothing, replacing twice", "statement": "Replacing each expression by itself gives back the query, replacing twice equals one replacement with the composed function, and a replacement can be undone (queries with named VALUES lists, replacements that leave subqueries as a whole alone).", "quantifier": "all queries and replacements", "why_tests_cant": "Queries nest without limit and replacements are arbitrary functions.", "anchors": ["postbound/transform.py:960-1233"]}
{"id": "C239", "title": "Replacing a predicate", "statement": "After replace_predicate() the query filters as if the old predicate had the truth value of the new one, and the old predicate is gone unless it is part of the new one.", "quantifier": "all predicates and all interpretations of AND, OR and NOT", "why_tests_cant": "Predicates nest without limit.", "anchors": ["postbound/transform.py:1236-1333"]}
{"id": "C240", "title": "Replacing a predicate by an equivalent one", "statement": "Replacing a predicate by an equivalent one keeps the meaning of WHERE and HAVING, replacing one that does not occur keeps the query, and no other clause is added, removed or changed.", "quantifier": "all predicates, queries and interpretations of AND, OR and NOT", "why_tests_cant": "Predicates nest without limit.", "anchors": ["postbound/transform.py:1236-1333"]}
{"id": "C241", "title": "Moving tables into a subquery keeps the result", "statement": "move_into_subquery() returns a query with the same result (as a bag of rows) on every database.", "quantifier": "all queries, sets of tables, databases and interpretations of functions and comparisons (with NULL)", "why_tests_cant": "Neither the queries nor the databases are bounded.", "anchors": ["postbound/transform.py:519-638", "postbound/transform.py:483-497"]}
{"id": "C242", "title": "The query with a subquery", "statement": "The new query has the untouched table sources and one subquery over exactly the given tables that exports each used column of them once; elsewhere these columns are taken from the subquery, and the tables of the new query are those of the old one and the subquery.", "quantifier": "all queries and sets of tables", "why_tests_cant": "Queries have any number of tables and columns.", "anchors": ["postbound/transform.py:519-638", "postbound/qal/_qal.py:6836-6900,7035-7054"]}
{"id": "C243", "title": "Subqueries that cannot be created", "statement": "Queries without FROM, with virtual tables, fewer than two tables or equally named columns of the moved tables are rejected; if tables are moved none of this is the case and at least one of their columns is used.", "quantifier": "all queries and sets of tables", "why_tests_cant": "Queries have any number of tables and columns.", "anchors": ["postbound/transform.py:553-583"]}
{"id": "C244", "title": "Formatting only changes the layout", "statement": "format_quick(query) consists of the same tokens as str(query): blanks and newlines only separate words, so a database system reads the same query.", "quantifier": "all queries with arbitrarily nested subqueries, CTEs, CASE expressions and predicates", "why_tests_cant": "Queries are nested arbitrarily deep and clauses have any length.", "anchors": ["postbound/qal/_formatter.py:66-159,162-333,354-371,455-622,625-924,1033-1138"]}
{"id": "C245", "title": "The experiment log lists every benchmark", "statement": "After any number of benchmarks were started, completed or failed, the experiment log is one JSON document which lists all of them in the order of their start, each with its own queries and outcome.", "quantifier": "all histories of benchmark runs", "why_tests_cant": "The log is rewritten by every run, and older runs of any number stay in it.", "anchors": ["postbound/bench.py:370-458"]}
{"id": "C246", "title": "Query preparation changes only what was asked for", "statement": "Before a benchmark executes a query, QueryPreparation replaces only the SELECT and EXPLAIN clauses as configured. Prewarming (not for EXPLAIN) and the preparatory statements in order are the only other things sent to the database, and afterwards the query is executed exactly once without the cache. Errors become part of the result.", "quantifier": "all queries, all combinations of options and deprecated flags, all databases", "why_tests_cant": "The combinations of options with query shapes and reactions of the database are unbounded.", "anchors": ["postbound/bench.py:149-317,530-567", "postbound/transform.py:672-717,749-786"]}
{"id": "C247", "title": "Random removal deletes the requested number of rows", "statement": "WorkloadShifter.remove_random deletes n_rows rows (or the given share, rounded) of the given table, chosen at random, and no other row of the database. Invalid counts and tables without a single primary key column are refused.", "quantifier": "all databases, tables, row counts and random choices", "why_tests_cant": "Which rows are deleted depends on the data, the names of columns and the random choice.", "anchors": ["postbound/postgres.py:4550-4605,4924-4996", "postbound/db/_db.py:1013-1066"]}
{"id": "C248", "title": "Ordered removal deletes the first rows of the order", "statement": "WorkloadShifter.remove_ordered deletes the requested number of rows of the given table with the smallest (or largest) values of a column, with NULLs at the requested end (by default as largest values) and ties decided by the primary key. No other row is deleted.", "quantifier": "all databases, tables, columns, row counts and directions", "why_tests_cant": "The order depends on arbitrary data with NULLs and ties.", "anchors": ["postbound/postgres.py:4607-4697,4924-4996"]}
{"id": "C249", "title": "Marked rows can be stored and removed later", "statement": "generate_marker_table marks the given share of the rows of a table. The marks survive export and import into another database, and remove_marked deletes exactly the rows with marked values there.", "quantifier": "all databases, tables, percentages and samples", "why_tests_cant": "The sample and the data are arbitrary.", "anchors": ["postbound/postgres.py:4699-4923"]}
{"id": "C250", "title": "Removing marked rows deletes exactly these", "statement": "For any contents of a marker table, remove_marked deletes exactly the rows of the target table whose column has a marked value; NULLs are never deleted and other tables keep their rows.", "quantifier": "all databases and marker tables", "why_tests_cant": "The data are arbitrary.", "anchors": ["postbound/postgres.py:4877-4923"]}
{"id": "C251", "title": "Connecting never loses a registered database", "statement": "connect() reuses the database registered under the name unless refresh is requested. A new connection is registered under its own key (a numbered name if the name is taken), so that no registered database is replaced; private connections are not registered.", "quantifier": "all histories of connections with any names and options", "why_tests_cant": "The free number depends on all former connections.", "anchors": ["postbound/db/_db.py:3238-3349", "postbound/postgres.py:2953-2975,3021-3172", "postbound/duckdb.py:922-970", "postbound/mysql.py:705-731"]}
{"id": "C252", "title": "Connection parameters arrive at the server unchanged", "statement": "The parameters of a TOML/JSON/INI/YAML configuration file, or of the environment, are exactly those that libpq reads from the connect string that connect() builds.", "quantifier": "all parameter names and values", "why_tests_cant": "Values such as passwords contain arbitrary characters.", "anchors": ["postbound/postgres.py:2978-3018,3115-3155"]}
{"id": "C253", "title": "The connection pool and the source of a connection are unambiguous", "statement": "After any history of Postgres connections the keys of the pool and the databases in it are distinct and every non-private database can be retrieved; current_database() succeeds exactly for a single database; explicit connect strings win over configuration files, these over the default file and this over the environment.", "quantifier": "all histories of connections, all sources", "why_tests_cant": "Histories are unbounded.", "anchors": ["postbound/db/_db.py:3238-3349", "postbound/postgres.py:3021-3172"]}
{"id": "C254", "title": "The join graph annotates tables with their filters and edges with their joins", "statement": "join_graph() has the tables of the predicates as nodes, each annotated with the conjunction of its filters, and an edge between two tables exactly if some join predicate relates them, annotated with the join predicate between them.", "quantifier": "all filters and joins of a query, in any iteration order", "why_tests_cant": "The annotation of an edge depends on the iteration order of a set.", "anchors": ["postbound/qal/_qal.py:4411-4453,4484-4513"]}
{"id": "C255", "title": "Merging aliases in a join graph joins the base tables", "statement": "join_graph(merge_aliases=True) has one node per base table, which lists the aliases of the table and their filters, and edges between the base tables whose aliases are joined.", "quantifier": "all predicates and all assignments of aliases to tables", "why_tests_cant": "Self joins and repeated tables combine without bound.", "anchors": ["postbound/qal/_qal.py:4455-4481", "postbound/_core.py:1106-1118"]}
{"id": "C256", "title": "All strategies of joins_between agree", "statement": "joins_between() with the strategies 'legacy', 'graph' and 'map' returns predicates with the same meaning.", "quantifier": "all join predicates and all collections of tables", "why_tests_cant": "Differences show only for particular shapes of join predicates.", "anchors": ["postbound/qal/_qal.py:4556-4619,4807-4937", "postbound/qal/_qal.py:2251-2270"]}
{"id": "C257", "title": "Simplified joins show the two columns of an equi-join", "statement": "SimpleJoin.can_wrap(p) tells whether SimpleJoin.wrap(p) succeeds. A view gives access to the two joined columns, reports the join partners of its predicate, and names the opposite side as the partner of each side.", "quantifier": "all predicates", "why_tests_cant": "Expressions nest without bound.", "anchors": ["postbound/qal/_qal.py:3944-4175,3634-3657"]}
{"id": "C258", "title": "Wrapping joins keeps exactly the simple equi-joins", "statement": "SimpleJoin.wrap succeeds exactly for equality predicates that join and have (casted) columns on both sides; wrap_all keeps these in order; the partner of one side is the other side, in a different table. A join graph exists exactly if no join refuses to tell its partners and all partner columns are bound.", "quantifier": "all predicates and lists of predicates", "why_tests_cant": "Expressions nest without bound.", "anchors": ["postbound/qal/_qal.py:3944-4175", "postbound/qal/_qal.py:4411-4453"]}
{"id": "C259", "title": "ast() shows the structure of a plan", "statement": "The text of QueryPlan.ast() has one line per node of the plan in preorder, indented by the depth, and determines the operators, base tables and nesting of the plan.", "quantifier": "all plans whose operator and table names contain no newline", "why_tests_cant": "Plans nest without bound; that a text is unambiguous is a statement about all pairs of plans.", "anchors": ["postbound/_qep.py:1882-1884", "postbound/_qep.py:2082-2093"]}
{"id": "C260", "title": "inspect() and explain() show a plan unambiguously", "statement": "The text of QueryPlan.inspect() determines the nesting of the plan, the header of each node and the metadata that is shown for it.", "quantifier": "all plans and all field lists, if no printed value contains a newline", "why_tests_cant": "Unambiguity is a statement about all pairs of plans.", "anchors": ["postbound/_qep.py:1841-1862", "postbound/_qep.py:1980-2079"]}
{"id": "C261", "title": "inspect() shows every node with the requested fields", "statement": "inspect(fields) succeeds exactly if every node, including those of subplans, has all fields, and raises the error of one of the accesses otherwise. Each node then has a header line, directly followed by its metadata or its fields, each field once in the order of the request.", "quantifier": "all plans with subplans and all lists of fields", "why_tests_cant": "Plans and subplans nest without bound.", "anchors": ["postbound/_qep.py:1841-1862", "postbound/_qep.py:2030-2079"]}
{"id": "C262", "title": "plan_summary() counts the physical operators", "statement": "plan_summary()['phys_ops'] maps exactly the operators of the plan to the number of their nodes.", "quantifier": "all plans", "why_tests_cant": "Plans nest without bound.", "anchors": ["postbound/_qep.py:1864-1880", "postbound/_qep.py:1418-1420"]}
{"id": "C263", "title": "The comments of a query become its hints", "statement": "parse_query() collects exactly the comments of the query text, in their order, as the hints of the query, and the SET commands in front of it as preparatory statements.", "quantifier": "all query texts", "why_tests_cant": "Comments can appear anywhere and look-alikes of comments can be part of literals.", "anchors": ["postbound/parser.py:2136-2194"]}
{"id": "C264", "title": "SET commands in front of a query are kept", "statement": "Each SET command in front of a query becomes a preparatory statement that assigns the same value to the same variable, and the query itself is the only further statement.", "quantifier": "all lists of statements", "why_tests_cant": "Values range over all constants and lists of constants.", "anchors": ["postbound/parser.py:2102-2133", "postbound/parser.py:2316-2319"]}
{"id": "C265", "title": "LIMIT and OFFSET keep their meaning when parsed", "statement": "The Limit clause of a parsed query selects the same rows as the LIMIT, OFFSET and FETCH clauses of the query text.", "quantifier": "all constant limits and offsets and all query texts", "why_tests_cant": "Zero, ALL and unusual spellings are special cases.", "anchors": ["postbound/parser.py:1841-1896", "postbound/qal/_qal.py:7575-7586"]}
{"id": "C266", "title": "Emulated statistics describe the table", "statement": "With emulated statistics and without a cache, total_rows, distinct_values, min_max, most_common_values and histogram describe the current contents of the referenced table.", "quantifier": "all contents of tables, all columns and tables", "why_tests_cant": "NULLs, ties and tables of the same name in several schemas are combinations that samples miss.", "anchors": ["postbound/db/_db.py:2085-2125", "postbound/db/_db.py:2201-2245", "postbound/db/_db.py:2297-2340", "postbound/db/_db.py:2342-2393", "postbound/db/_db.py:2665-2869", "postbound/db/_db.py:1619-1628", "postbound/db/_db.py:1735-1755"]}
{"id": "C267", "title": "The k most common values lead the list of all of them", "statement": "most_common_values(column, k=k) returns the first k entries of the list of all values by their frequency.", "quantifier": "all contents of tables and all k", "why_tests_cant": "Only ties at the cut distinguish a right from a wrong order.", "anchors": ["postbound/db/_db.py:2797-2833", "postbound/db/_db.py:1685-1755"]}
{"id": "C268", "title": "A disabled cache is neither read nor written", "statement": "With cache_enabled=False a statistic is computed from the current contents and the cache stays as it is; with a cache an answer agrees with the contents as long as they do not change; the argument of the call has priority over the configuration.", "quantifier": "all states of the cache and all contents", "why_tests_cant": "An outdated cache shows only for changed contents.", "anchors": ["postbound/db/_db.py:1965-2083", "postbound/db/_db.py:2871-2995"]}
{"id": "C269", "title": "The source of statistics is as requested", "statement": "The emulated argument of a call, or else the configuration of the interface, decides whether statistics are computed from the data or taken from the catalog.", "quantifier": "all requests and configurations", "why_tests_cant": "Each of the five statistics dispatches on its own.", "anchors": ["postbound/db/_db.py:2085-2393"]}
{"id": "C270", "title": "Statistics of the Postgres catalog", "statement": "With the statistics of the Postgres catalog, row counts are the counts of the catalog, and numbers of distinct values are the absolute or relative numbers of the catalog.", "quantifier": "all contents of the catalog", "why_tests_cant": "The encodings of unknown and relative numbers are rare values.", "anchors": ["postbound/postgres.py:1862-1952"]}
{"id": "C271", "title": "Updating statistics analyzes the requested columns", "statement": "update_statistics() sends one ANALYZE for exactly the requested columns, which the server accepts. With perfect_n_distinct the statistics of these columns contain the true numbers of distinct values afterwards.", "quantifier": "all schemas, selections of columns and tables, and states of the server", "why_tests_cant": "The effect depends on the order of statements and on all selections of columns.", "anchors": ["postbound/postgres.py:1758-1860", "postbound/util/dicts.py:157-165"]}
{"id": "C272", "title": "Prewarming and cooling down cover the right relations", "statement": "prewarm_tables() and cooldown_tables() touch exactly the base tables and chosen indexes of the given tables, each once.", "quantifier": "all lists of tables, indexes and options", "why_tests_cant": "Virtual tables, self joins and empty selections are special cases of lists of any length.", "anchors": ["postbound/postgres.py:938-1086", "postbound/postgres.py:1269-1295"]}
{"id": "C273", "title": "A batch file is a workload of its lines", "statement": "read_batch_workload() yields a workload with one query per line that contains a query, labelled with consecutive numbers from 1 on.", "quantifier": "all files of lines", "why_tests_cant": "Blank lines and repeated queries at any place of files of any length.", "anchors": ["postbound/workloads.py:767-798", "postbound/workloads.py:878-921"]}
{"id": "C274", "title": "A CSV file is a workload of its rows", "statement": "read_csv_workload() binds the label of each row, or its number, to the query of the row.", "quantifier": "all tables of queries and labels", "why_tests_cant": "Repeated queries at any place of tables of any length.", "anchors": ["postbound/workloads.py:801-875"]}
{"id": "C275", "title": "Predefined workloads can be loaded", "statement": "fetch_workload() loads all queries of the named workload, from the local disk or by a download, and an access succeeds whenever the network works, independent of the outcome of earlier accesses.", "quantifier": "all disks, states of the network and sequences of accesses", "why_tests_cant": "The failure needs a particular history of network failures.", "anchors": ["postbound/workloads.py:55-81", "postbound/workloads.py:924-1172"]}
{"id": "C276", "title": "Dates and timestamps survive the exchange with Postgres", "statement": "Dates and timestamps of the Postgres server, including infinity, are read in their order, and values that are read and sent back, or sent and read back, are unchanged.", "quantifier": "all dates and timestamps of server and client", "why_tests_cant": "Only the extreme values differ.", "anchors": ["postbound/postgres.py:525-627", "postbound/postgres.py:1207-1221"]}
{"id": "C277", "title": "Exploring operator costs covers the combinations", "statement": "explore_costs() evaluates each combination of allowed join operators exactly once if there are at most max_combinations of them, and otherwise at most that many different ones.", "quantifier": "all join orders, sets of operators and random choices", "why_tests_cant": "The number of combinations grows exponentially with the joins.", "anchors": ["postbound/opt/tonic.py:1165-1267", "postbound/opt/tonic.py:1391-1457", "postbound/_hints.py:1446-1455"]}
{"id": "C278", "title": "Visitors of relational algebra get the visited node", "statement": "accept_visitor() of each relational algebra node calls the visitor's method for its kind of node with the node itself.", "quantifier": "all kinds of nodes and all nodes", "why_tests_cant": "Each class has its own method.", "anchors": ["postbound/relalg.py:215-230", "postbound/relalg.py:727-728", "postbound/relalg.py:838-839", "postbound/relalg.py:950-951"]}
{"id": "C279", "title": "The base table of a filter is the one table it restricts", "statement": "The relational algebra parser attaches a filter predicate to the single table of the query that the predicate refers to, directly or from within subqueries, and rejects all other predicates.", "quantifier": "all predicates and expressions", "why_tests_cant": "Expressions nest arbitrarily, with constants and subqueries at any place.", "anchors": ["postbound/relalg.py:2959-3124"]}
{"id": "C280", "title": "ANALYZE covers exactly the requested columns", "statement": "Whenever update_statistics() succeeds, it has sent exactly one ANALYZE, and the columns listed in it are exactly the requested ones: the given columns, or all columns of the given tables, or all columns of all tables that are no views.", "quantifier": "all schemas, columns, tables and options", "why_tests_cant": "Selections of any size, with several references to one table.", "anchors": ["postbound/postgres.py:1758-1860"]}
{"id": "C281", "title": "Prewarming touches the meant relations once", "statement": "prewarm_tables() reads exactly the base tables and chosen indexes of the given tables, each once, sends nothing if there are none, and raises without the extension.", "quantifier": "all lists of tables, indexes and options", "why_tests_cant": "Virtual tables, self joins and empty selections are special cases of lists of any length.", "anchors": ["postbound/postgres.py:938-1011"]}
{"id": "C282", "title": "Cached statistics agree with the data", "statement": "As long as the cache agrees with the data, every statistic has the value it has without a cache and keeps the cache in agreement; whether a query uses the cache is decided by the argument, then the configuration of the statistics, then the database.", "quantifier": "all statistics, states of the cache and configurations", "why_tests_cant": "Caches build up over sequences of any calls.", "anchors": ["postbound/db/_db.py:2665-2995"]}
{"id": "C283", "title": "Predefined workloads are found by their names", "statement": "fetch_workload() loads the workload that belongs to each of the nine known names, and raises ValueError for all others, without touching the disk.", "quantifier": "all names, disks and states of the network", "why_tests_cant": "There are infinitely many names.", "anchors": ["postbound/workloads.py:1150-1172"]}
{"id": "C284", "title": "A base table that is found is the only outer table", "statement": "Whenever the visitor for base tables finds a table in a predicate or expression without window functions, the expression refers to that table and to no other one outside of subqueries; if it finds none, there is none.", "quantifier": "all predicates and expressions", "why_tests_cant": "Expressions nest arbitrarily.", "anchors": ["postbound/relalg.py:2977-3113"]}
{"id": "C285", "title": "Moved tables are only used in the subquery", "statement": "When move_into_subquery() succeeds, the new query consists of the remaining FROM items and the subquery, the subquery selects exactly the used columns of the moved tables, each once and with distinct names, and no column of a moved table is used outside of the subquery.", "quantifier": "all queries and sets of moved tables", "why_tests_cant": "Queries of any size.", "anchors": ["postbound/transform.py:519-638"]}
{"id": "C286", "title": "Replacing a base predicate keeps the meaning of the rest", "statement": "The predicate after a replacement has the truth value of the predicate before it, where the replaced base predicate is given the truth value of its replacement.", "quantifier": "all predicates, all interpretations of base predicates and connectives", "why_tests_cant": "Predicates nest arbitrarily.", "anchors": ["postbound/transform.py:1236-1333"]}
{"id": "C287", "title": "Applying a configuration changes exactly the given settings", "statement": "apply_configuration() sets each setting of the configuration that can be changed at runtime to its value and leaves all other settings of the server as they were; if the server refuses a setting, nothing is changed.", "quantifier": "all servers, configurations, names and values", "why_tests_cant": "Depends on the names and on special characters in the values.", "anchors": ["postbound/postgres.py:1125-1153", "postbound/postgres.py:84-250"]}
{"id": "C288", "title": "Settings can be saved and restored", "statement": "Applying the configuration that current_configuration(runtime_changeable_only=True) returned earlier gives all settings that can be changed at runtime the values they had then.", "quantifier": "all servers and all changes in between", "why_tests_cant": "Only specific settings are concerned.", "anchors": ["postbound/postgres.py:1088-1153", "postbound/postgres.py:216-250"]}
{"id": "C289", "title": "The current configuration shows all settings of interest", "statement": "current_configuration() contains exactly the settings of the listed categories with the values of the server.", "quantifier": "all servers", "why_tests_cant": "Only specific settings are concerned.", "anchors": ["postbound/postgres.py:84-193", "postbound/postgres.py:1088-1123"]}
{"id": "C290", "title": "Extensions are recognized by their libraries", "statement": "has_extension() holds for a shared object exactly if the server has a library of this name open, and for other extensions exactly if they are installed.", "quantifier": "all names and all open files", "why_tests_cant": "Library names can end in each other.", "anchors": ["postbound/postgres.py:1155-1203"]}
{"id": "C291", "title": "The planner settings of the server are taken over", "statement": "After infer_settings() the enumerator may use exactly the operators that are enabled in the server, with its number of workers.", "quantifier": "all values of all settings", "why_tests_cant": "There are 2^10 combinations of the settings.", "anchors": ["postbound/opt/dynprog.py:629-660", "postbound/postgres.py:504-511"]}
{"id": "C292", "title": "Values become the documented expressions", "statement": "as_expression() keeps expressions, turns columns into column expressions, queries into subqueries, '*' into a star and every other immutable value into a literal; it fails (with a TypeError) exactly for values that cannot be hashed.", "quantifier": "all values, arbitrarily nested", "why_tests_cant": "Tests cover few kinds of values.", "anchors": ["postbound/qal/_qal.py:1865-1896", "postbound/qal/_qal.py:219-246"]}
{"id": "C293", "title": "Operators can be given by their SQL spelling", "statement": "as_predicate() with an operator given as text (in any capitalization, including != and ==) builds the same predicate as with the operator itself; other texts are rejected with a ValueError.", "quantifier": "all texts, columns and arguments", "why_tests_cant": "There are infinitely many texts.", "anchors": ["postbound/qal/_qal.py:34-58", "postbound/qal/_qal.py:3497-3554"]}
{"id": "C294", "title": "Comparisons take exactly one operand", "statement": "For operators other than BETWEEN and IN, as_predicate() compares the column with its single argument; any other number of arguments is a ValueError.", "quantifier": "all operators, columns and argument lists", "why_tests_cant": "Any number and kind of arguments can be passed.", "anchors": ["postbound/qal/_qal.py:3497-3554"]}
{"id": "C295", "title": "BETWEEN takes two values or a pair", "statement": "as_predicate() for BETWEEN accepts exactly two values (further ones are ignored) or one pair of values and uses them as lower and upper bound, in this order.", "quantifier": "all columns and argument lists", "why_tests_cant": "Any number and kind of arguments can be passed.", "anchors": ["postbound/qal/_qal.py:3497-3554", "postbound/qal/_qal.py:2667-2684"]}
{"id": "C296", "title": "IN takes values and nested iterables of values", "statement": "as_predicate() for IN builds a predicate with all values that are contained in the arguments, at any level of nesting, in their order; without any values it raises a ValueError.", "quantifier": "all columns and argument lists, any nesting", "why_tests_cant": "Nesting is unbounded.", "anchors": ["postbound/qal/_qal.py:3497-3554", "postbound/util/collections.py:40-52", "postbound/qal/_qal.py:2855-2863"]}
{"id": "C297", "title": "Required tables are the tables a predicate depends on", "statement": "required_tables() of a predicate contains exactly the tables whose columns are used outside of subqueries and the tables that its subqueries use without providing them.", "quantifier": "all predicates and expressions", "why_tests_cant": "Expressions can be nested in any way.", "anchors": ["postbound/qal/_qal.py:1949-2048", "postbound/qal/_qal.py:2367-2397"]}
{"id": "C298", "title": "Output names belong to the columns they rename", "statement": "output_names() of a SELECT clause maps an alias to a column exactly if the last projection with this alias is that column; projections that are not 1:1 are ignored.", "quantifier": "all SELECT clauses", "why_tests_cant": "Projections can be arbitrary expressions.", "anchors": ["postbound/qal/_qal.py:6057-6084"]}
{"id": "C299", "title": "Literals for MySQL keep their values", "statement": "The text that format_query() of the MySQL hint service writes for a literal is read by MySQL as the value of the literal, with and without the mode ANSI_QUOTES.", "quantifier": "all literals and both modes", "why_tests_cant": "Strings can contain any characters.", "anchors": ["postbound/mysql.py:474-483", "postbound/mysql.py:500-501", "postbound/mysql.py:626-638", "postbound/qal/_qal.py:288-296"]}
{"id": "C300", "title": "EXPLAIN clauses for MySQL", "statement": "format_query() of the MySQL hint service writes EXPLAIN clauses in the syntax of MySQL.", "quantifier": "all EXPLAIN clauses with any format", "why_tests_cant": "The format can be any text.", "anchors": ["postbound/mysql.py:461-471", "postbound/mysql.py:626-638", "postbound/qal/_qal.py:5292-5301"]}
{"id": "C301", "title": "Queries with casts can be formatted for MySQL", "statement": "format_query() of the MySQL hint service succeeds for all expressions, including casts.", "quantifier": "all expressions", "why_tests_cant": "Expressions can be nested in any way.", "anchors": ["postbound/mysql.py:486-505", "postbound/mysql.py:626-638", "postbound/qal/_formatter.py:651-717"]}
{"id": "C302", "title": "Statements sent to MySQL", "statement": "Executing a query or requesting its plan sends the preparatory statements first and once, followed by the query (for a plan: its EXPLAIN in JSON format, without an EXPLAIN clause of its own) with the hint block directly after SELECT.", "quantifier": "all queries with any hint blocks, preparatory statements and EXPLAIN clauses, all texts", "why_tests_cant": "Any combination of clauses can be given.", "anchors": ["postbound/mysql.py:166-199", "postbound/mysql.py:253-277", "postbound/mysql.py:648-659", "postbound/qal/_qal.py:8037-8056"]}
{"id": "C303", "title": "Plans of Postgres for queries", "statement": "PostgresOptimizer.query_plan() gives the plan that the server uses for the query after its preparatory statements.", "quantifier": "all queries with any preparatory statements and hint blocks, all servers and settings", "why_tests_cant": "Any settings can be prepared.", "anchors": ["postbound/postgres.py:694-773", "postbound/postgres.py:2847-2857"]}
{"id": "C304", "title": "Estimates are those of the plan", "statement": "cardinality_estimate() and cost_estimate() of the Postgres optimizer give the rows and the cost of the plan from query_plan(), have the same effects on the settings, and fail in the same way.", "quantifier": "all queries, all servers and settings", "why_tests_cant": "Servers can give any plan.", "anchors": ["postbound/postgres.py:2902-2920", "postbound/postgres.py:2847-2857"]}
{"id": "C305", "title": "Analyzing a plan", "statement": "analyze_plan() applies the preparatory statements, executes the query under the resulting settings, and returns its plan, or None exactly after a timeout; other errors are passed on.", "quantifier": "all queries, preparatory statements, servers and settings", "why_tests_cant": "A server can fail in many ways and settings can overwrite each other.", "anchors": ["postbound/postgres.py:2870-2883", "postbound/postgres.py:694-773", "postbound/postgres.py:630-635"]}
{"id": "C306", "title": "Raw and simplified plans", "statement": "PostgresOptimizer.parse_plan() gives the same plan for the raw result set, for the simplified result set and for the document itself; whatever it accepts contains the plan, and documents without a plan are refused.", "quantifier": "all plan documents and all values", "why_tests_cant": "Results can be nested in any way.", "anchors": ["postbound/postgres.py:2885-2900", "postbound/postgres.py:4435-4442", "postbound/db/_db.py:257-286"]}
{"id": "C307", "title": "Enabling operators of Postgres", "statement": "configure_operator() sets the setting of the given operator, and no other, to on or off.", "quantifier": "all operators and settings", "why_tests_cant": "The settings of a server can be in any state.", "anchors": ["postbound/postgres.py:2922-2942", "postbound/postgres.py:2058-2069", "postbound/postgres.py:900-901"]}
{"id": "C308", "title": "Hinting backend of Postgres", "statement": "Without a choice of the user, the hinting backend is one that can be used on the server (switched on, or loaded in a version without the switch), and hinting is inactive exactly if no backend can be used.", "quantifier": "all servers, platforms, processes and open files", "why_tests_cant": "Tests see only the installed servers.", "anchors": ["postbound/postgres.py:2682-2812"]}
{"id": "C309", "title": "Base tables of predicates are used in them", "statement": "The base table that relational algebra assigns to a predicate is used by the predicate outside of its subqueries, or the predicate uses no other table there; joins and predicates without tables have none. For predicates without window functions, the lookup finds the only table.", "quantifier": "all predicates with any nesting and subqueries", "why_tests_cant": "Predicates can be nested in any way.", "anchors": ["postbound/relalg.py:2977-3124"]}
{"id": "C310", "title": "Configurations read from Postgres", "statement": "current_configuration() gives the current value of each setting that is known to be relevant (only those that can be changed at runtime if asked to), each under its own name, and nothing else.", "quantifier": "all servers and values of settings", "why_tests_cant": "Servers can have any settings and values.", "anchors": ["postbound/postgres.py:1088-1123", "postbound/postgres.py:84-249"]}
{"id": "C311", "title": "Refused settings of Postgres", "statement": "apply_configuration() raises an error if the server refuses one of the settings that can be changed at runtime.", "quantifier": "all servers and configurations with plain names and values", "why_tests_cant": "Servers can refuse any value.", "anchors": ["postbound/postgres.py:1117-1153"]}
{"id": "C312", "title": "JSON representation of objects", "statement": "to_json() writes each object as its JSON representation: what __json__ returns for objects that have it, the value of enums, the elements of collections and the fields of dataclasses; it raises a TypeError exactly if there is none (unsupported objects or keys of dictionaries).", "quantifier": "all objects with any nesting", "why_tests_cant": "Objects can be nested in any way.", "anchors": ["postbound/util/jsonize.py:34-77"]}
{"id": "C313", "title": "Plan parameters in JSON", "statement": "A PlanParameterization that is written with to_json() and read with read_plan_params_json() has the same cardinalities and workers.", "quantifier": "all plan parameters", "why_tests_cant": "There are arbitrarily many sets of tables.", "anchors": ["postbound/_hints.py:866-870", "postbound/opt/_helpers.py:144-167", "postbound/util/jsonize.py:34-77"]}
{"id": "C314", "title": "Nested table sequences in JSON", "statement": "parse_nested_table_sequence() reads a nested table sequence from its JSON encoding; anything but lists and tables is refused with a TypeError.", "quantifier": "all nested table sequences", "why_tests_cant": "Sequences can be nested in any way.", "anchors": ["postbound/opt/_helpers.py:280-305", "postbound/_core.py:889-895"]}
{"id": "C315", "title": "Hashable containers", "statement": "make_hashable() converts lists to tuples, sets to frozensets and dictionaries to hashable dictionaries at all levels and leaves everything else alone; for containers of hashable objects the result can be hashed; a second call changes nothing.", "quantifier": "all nested containers", "why_tests_cant": "Containers can be nested in any way.", "anchors": ["postbound/util/collections.py:322-354", "postbound/util/dicts.py:139-154", "postbound/util/dicts.py:232-241"]}
{"id": "C316", "title": "Equal containers have equal hash values", "statement": "The results of make_hashable() for equal containers have the same hash value.", "quantifier": "all nested containers, all hash functions of the elements", "why_tests_cant": "Hash values depend on the order of insertion and iteration.", "anchors": ["postbound/util/collections.py:322-354", "postbound/util/dicts.py:139-154", "postbound/util/dicts.py:232-241"]}
{"id": "C317", "title": "Schema for binding columns", "statement": "parse_query() binds unqualified columns with no schema if bind_columns is disabled (by the parameter or by auto_bind_columns), with the given schema if there is one, and otherwise with the schema of the first database in the pool; it warns exactly if the schema must come from a pool that does not have exactly one database.", "quantifier": "all combinations of parameters and all pools", "why_tests_cant": "There are arbitrarily many pools.", "anchors": ["postbound/parser.py:2284-2311"]}
{"id": "C318", "title": "Options of EXPLAIN", "statement": "For EXPLAIN queries, parse_query() reports ANALYZE and the output format as given by the options (the last one counts; without options no ANALYZE and the format TEXT); unknown options raise a ParserError.", "quantifier": "all lists of options", "why_tests_cant": "There are arbitrarily many lists of options.", "anchors": ["postbound/parser.py:1981-2015"]}
{"id": "C319", "title": "Accepted queries", "statement": "parse_query() accepts exactly texts with one SELECT statement (possibly with EXPLAIN) besides SET commands; set queries are accepted only if accept_set_query is set; empty texts raise a ParserError and everything else a ValueError; hints are provided only if include_hints is set.", "quantifier": "all texts and parameters", "why_tests_cant": "There are arbitrarily many lists of statements.", "anchors": ["postbound/parser.py:2281-2283", "postbound/parser.py:2313-2341"]}
{"id": "C320", "title": "Containment and equality of relations", "statement": "A RelOptInfo contains a table, set of tables or other RelOptInfo exactly if it has all of their tables; two RelOptInfo objects are equal exactly if they have the same tables.", "quantifier": "all relations and items", "why_tests_cant": "There are arbitrarily many sets of tables.", "anchors": ["postbound/opt/dynprog.py:480-492"]}
{"id": "C321", "title": "Stages as complete algorithms", "statement": "as_complete_algorithm() uses the given stage for each interface that it implements and nothing else, describes it by this stage, and uses the given database or else the only one of the pool; it raises a ValueError exactly if the object is not a stage or there is no such database.", "quantifier": "all stages, databases and pools", "why_tests_cant": "There are arbitrarily many pools; stages can implement several interfaces.", "anchors": ["postbound/_stages.py:973-1047", "postbound/_stages.py:1050-1085"]}
{"id": "C322", "title": "Format and unknown options of EXPLAIN", "statement": "For EXPLAIN queries without unknown options, parse_query() reports the output format of the last FORMAT option (TEXT without any), whatever the other options are; with unknown options it raises a ParserError.", "quantifier": "all lists of options", "why_tests_cant": "There are arbitrarily many lists of options.", "anchors": ["postbound/parser.py:1981-2015"]}
{"id": "C323", "title": "Refused queries", "statement": "parse_query() raises a ParserError for empty texts and a ValueError if there is not exactly one statement besides SET commands or it is not a SELECT statement; what it returns always comes from the only statement, with the clause of its EXPLAIN.", "quantifier": "all texts and lists of statements", "why_tests_cant": "There are arbitrarily many lists of statements.", "anchors": ["postbound/parser.py:2281-2283", "postbound/parser.py:2313-2341"]}
{"id": "C324", "title": "Relations only contain items with their tables", "statement": "If a RelOptInfo contains an item, it has all tables of the item; two RelOptInfo objects are equal exactly if they have the same tables.", "quantifier": "all relations and items", "why_tests_cant": "There are arbitrarily many sets of tables.", "anchors": ["postbound/opt/dynprog.py:480-492"]}
{"id": "C325", "title": "Warnings for binding columns", "statement": "parse_query() warns exactly if columns should be bound, no schema is given and the pool does not have exactly one database.", "quantifier": "all combinations of parameters and all pools", "why_tests_cant": "There are arbitrarily many pools.", "anchors": ["postbound/parser.py:2284-2311"]}
{"id": "C326", "title": "Entries of a frozendict", "statement": "Once a frozendict has been created, no operation changes its entries; operations that are meant to change them raise a TypeError.", "quantifier": "all entries and operations", "why_tests_cant": "There are arbitrarily many entries and operations.", "anchors": ["postbound/util/dicts.py:305-338"]}
{"id": "C327", "title": "Creation of a frozendict", "statement": "A frozendict has the last value that was supplied for each key, and nothing else; the union with other entries is a new frozendict with the last values of both.", "quantifier": "all lists of entries", "why_tests_cant": "There are arbitrarily many entries.", "anchors": ["postbound/util/dicts.py:318-325"]}
{"id": "C328", "title": "Copies of a frozendict", "statement": "copy() of a frozendict provides a frozendict with the same entries.", "quantifier": "all lists of entries", "why_tests_cant": "There are arbitrarily many entries.", "anchors": ["postbound/util/dicts.py:318-335"]}
{"id": "C329", "title": "Data frames in files", "statement": "write_df() writes the JSON representation of complex objects and keeps all other entries of the data frame, in the format that belongs to the extension of the file.", "quantifier": "all data frames and extensions", "why_tests_cant": "There are arbitrarily many data frames.", "anchors": ["postbound/util/_df.py:37-75"]}
{"id": "C330", "title": "Data frames after writing", "statement": "write_df() does not change the data frame that is passed to it.", "quantifier": "all data frames and extensions", "why_tests_cant": "There are arbitrarily many data frames.", "anchors": ["postbound/util/_df.py:37-75"]}
{"id": "C331", "title": "Export of results", "statement": "prepare_export() provides a data frame in which complex objects are replaced by their JSON representation and all other entries are kept; it fails only if an object has no such representation.", "quantifier": "all data frames", "why_tests_cant": "There are arbitrarily many data frames.", "anchors": ["postbound/bench.py:1236-1274"]}
{"id": "C332", "title": "Supported file formats", "statement": "read_df() and write_df() use the same format for each extension, in upper and lower case; exactly the listed extensions are supported and others raise a ValueError.", "quantifier": "all extensions, all data frames whose objects have a JSON representation", "why_tests_cant": "There are arbitrarily many extensions.", "anchors": ["postbound/util/_df.py:12-34", "postbound/util/_df.py:37-75"]}
{"id": "C333", "title": "Running commands", "statement": "run_cmd() runs the command with all arguments in the requested directory and leaves the current directory unchanged; the result is true exactly if the exit code is 0, and raise_if_error() raises exactly otherwise.", "quantifier": "all commands, arguments, directories and results", "why_tests_cant": "There are arbitrarily many commands.", "anchors": ["postbound/util/proc.py:46-54", "postbound/util/proc.py:63-107"]}
{"id": "C334", "title": "Score matrices", "statement": "score_matrix() provides a square matrix with one row per element whose entry (i, j) is the score of elements i and j.", "quantifier": "all lists of elements and scoring functions", "why_tests_cant": "There are arbitrarily many elements.", "anchors": ["postbound/util/stats.py:26-37"]}
{"id": "C335", "title": "Operations of a frozendict that are refused", "statement": "Assignments, deletions, update() with entries, clear(), pop() and popitem() of a frozendict raise a TypeError; setdefault() succeeds exactly for keys that exist.", "quantifier": "all entries and operations", "why_tests_cant": "There are arbitrarily many entries and operations.", "anchors": ["postbound/util/dicts.py:305-338"]}
{"id": "C336", "title": "Current directory after running commands", "statement": "run_cmd() changes the current directory exactly if the command could not be started (or was interrupted) in another existing directory.", "quantifier": "all commands, arguments and directories", "why_tests_cant": "There are arbitrarily many commands.", "anchors": ["postbound/util/proc.py:63-107"]}
{"id": "C337", "title": "Drawing of trees", "statement": "The graph of plot_tree() has one node for each node of the tree, with its label, and one edge for each pair of a node and its child.", "quantifier": "all trees, all identifiers of nodes", "why_tests_cant": "There are arbitrarily many trees.", "anchors": ["postbound/vis/trees.py:13-105"]}
{"id": "C338", "title": "Drawing of query plans", "statement": "plot_query_plan() shows all nodes of a plan, including those of subplans; with skip_intermediates it shows the root and exactly the nodes that are not auxiliary.", "quantifier": "all query plans", "why_tests_cant": "There are arbitrarily many plans.", "anchors": ["postbound/vis/optimizer.py:356-371"]}
{"id": "C339", "title": "Comparison of texts", "statement": "text_diff() shows all lines of both texts next to each other; the lines of the first text are padded to the length of the longest one.", "quantifier": "all texts and separators", "why_tests_cant": "There are arbitrarily many texts.", "anchors": ["postbound/opt/_analysis.py:98-127"]}
{"id": "C340", "title": "Presets", "statement": "presets.fetch() finds the settings for \"ues\" and \"native\" in upper and lower case and raises a ValueError for other keys.", "quantifier": "all keys", "why_tests_cant": "There are arbitrarily many keys.", "anchors": ["postbound/opt/presets.py:117-155"]}
{"id": "C341", "title": "Timeouts of DuckDB", "statement": "execute_with_timeout() of DuckDB returns None exactly if the query takes longer than the timeout; execute_query() with a timeout then raises a TimeoutError, and the last runtime is infinite.", "quantifier": "all queries and timeouts, all ways in which execute() reacts to an interrupt", "why_tests_cant": "There are arbitrarily many durations and timeouts.", "anchors": ["postbound/duckdb.py:119-122", "postbound/duckdb.py:138-163", "postbound/duckdb.py:230-234"]}
{"id": "C342", "title": "Nodes and edges that are added for trees", "statement": "plot_tree() adds as many nodes as the tree has, and one edge less; the nodes are those of the tree with their labels, and the edges those between nodes and their children.", "quantifier": "all trees, all identifiers of nodes", "why_tests_cant": "There are arbitrarily many trees.", "anchors": ["postbound/vis/trees.py:13-105"]}
{"id": "C343", "title": "Results of DuckDB within the timeout", "statement": "Queries that take at most as long as the timeout have their results, errors and runtimes.", "quantifier": "all queries and timeouts", "why_tests_cant": "There are arbitrarily many durations and timeouts.", "anchors": ["postbound/duckdb.py:119-122", "postbound/duckdb.py:138-163", "postbound/duckdb.py:230-234"]}
{"id": "C344", "title": "Messages to custom loggers of benchmarks", "statement": "A custom logger receives exactly one message per query and repetition of the workload, in the order of execution and with the number of the repetition, starting at 1.", "quantifier": "all workloads, numbers of repetitions and outcomes of the optimization", "why_tests_cant": "There are arbitrarily many workloads and repetitions.", "anchors": ["postbound/bench.py:569-624", "postbound/bench.py:960-1004", "postbound/bench.py:1212-1231"]}
{"id": "C345", "title": "Progress bars of benchmarks", "statement": "After a benchmark, the progress bars of workload repetitions, queries and query repetitions are all complete.", "quantifier": "all workloads and numbers of repetitions", "why_tests_cant": "There are arbitrarily many workloads and repetitions.", "anchors": ["postbound/bench.py:569-624", "postbound/bench.py:960-1004", "postbound/bench.py:1212-1231"]}
{"id": "C346", "title": "Loggers", "statement": "A logger of make_logger() prints its prefix followed by all arguments if it is enabled, and nothing if it is disabled.", "quantifier": "all prefixes, arguments and settings", "why_tests_cant": "There are arbitrarily many arguments.", "anchors": ["postbound/util/logging.py:26-78"]}
{"id": "C347", "title": "Copies of the standard output", "statement": "After tee_stdout(), each message that is printed goes to the console and is appended once to each target file, also for nested calls with different files.", "quantifier": "all messages, files and nestings", "why_tests_cant": "There are arbitrarily many nestings and messages.", "anchors": ["postbound/util/logging.py:122-138"]}
{"id": "C348", "title": "Workloads in files", "statement": "persist_workload() stores each query, followed by a line break, in the file that is named by its label, and leaves the other files as they are.", "quantifier": "all workloads with texts as labels, all contents of the directory", "why_tests_cant": "There are arbitrarily many workloads.", "anchors": ["postbound/experiments/ceb.py:848-863"]}
{"id": "C349", "title": "Progress bars before benchmarks are finished", "statement": "When the last query of a repetition is done and before the next repetition starts, the bar of queries is complete and the bar of workload repetitions shows the number of repetitions before this one.", "quantifier": "all workloads and numbers of repetitions", "why_tests_cant": "There are arbitrarily many workloads and repetitions.", "anchors": ["postbound/bench.py:569-624", "postbound/bench.py:960-1004", "postbound/bench.py:1212-1231"]}
{"id": "C350", "title": "Possible joins of a table", "statement": "available_join_paths_for(t) gives exactly the joins of t that are possible: all joins for a fresh graph, and otherwise those where exactly one of the tables is joined already. All paths start at t. Unknown tables raise a ValueError.", "quantifier": "all join graphs and states, all tables", "why_tests_cant": "There are arbitrarily many join graphs and states.", "anchors": ["postbound/opt/_joingraph.py:646-669", "postbound/opt/_joingraph.py:720-751"]}
{"id": "C351", "title": "State and indexes of tables in join graphs", "statement": "join_graph[t] tells whether t is free and gives the current index information of exactly those columns of t that are part of joins. Unknown tables raise a KeyError.", "quantifier": "all join graphs and states, all tables", "why_tests_cant": "There are arbitrarily many join graphs and states.", "anchors": ["postbound/opt/_joingraph.py:1114-1148"]}
{"id": "C352", "title": "Lookup of columns in the information about tables", "statement": "info[key] gives the information about the column with this name, in upper or lower case, or about this column; if the table does not have such a column, a KeyError is raised. All columns that are listed can be looked up.", "quantifier": "all tables, columns and keys", "why_tests_cant": "There are arbitrarily many tables and names.", "anchors": ["postbound/db/_db.py:726-747"]}
{"id": "C353", "title": "Labels of query plans", "statement": "The label of each node of a plan shows its operator and, for scans, its base table; it ends with the annotation of the node.", "quantifier": "all query plans and annotations", "why_tests_cant": "There are arbitrarily many plans.", "anchors": ["postbound/vis/optimizer.py:327-353"]}
{"id": "C354", "title": "Actual costs of plans", "statement": "actual_plan_cost() gives the costs of the plan with its actual cardinalities according to the given database, or to the database of the pool if none is given. Plans without actual cardinalities raise a ValueError.", "quantifier": "all queries, plans and databases", "why_tests_cant": "There are arbitrarily many plans.", "anchors": ["postbound/opt/_analysis.py:70-95"]}
{"id": "C355", "title": "Drawing of join graphs", "statement": "plot_join_graph() of a join graph shows one node per table with its name and annotation, which is blue exactly if the table is joined already, and one edge per join. An edge points from the foreign key to the primary key if the join has both with usable indexes, and has no direction otherwise.", "quantifier": "all join graphs and states, all annotations", "why_tests_cant": "There are arbitrarily many join graphs and states.", "anchors": ["postbound/vis/optimizer.py:105-128", "postbound/vis/optimizer.py:131-173"]}
{"id": "C356", "title": "Drawing of the joins of queries", "statement": "plot_join_graph() of a query shows one node per table of its join graph and one edge per join; with include_pk_fk_joins, edges point from foreign keys to primary keys.", "quantifier": "all queries and schemas, with and without include_pk_fk_joins", "why_tests_cant": "There are arbitrarily many queries.", "anchors": ["postbound/vis/optimizer.py:48-102"]}
{"id": "C357", "title": "Setup of annotations", "statement": "setup_annotations() gives a function that shows the requested annotations in their order, one per line. A ValueError is raised for unknown annotations and if there are none.", "quantifier": "all sequences of annotations and all tables", "why_tests_cant": "There are arbitrarily many sequences.", "anchors": ["postbound/vis/optimizer.py:294-324"]}
{"id": "C358", "title": "Escaped labels", "statement": "Labels that are escaped for drawings of relational algebra are read by HTML renderers as the original text; they do not have angle brackets.", "quantifier": "all texts", "why_tests_cant": "There are arbitrarily many texts.", "anchors": ["postbound/vis/optimizer.py:448-458"]}
{"id": "C359", "title": "No angle brackets in escaped labels", "statement": "Escaped labels for drawings of relational algebra never have angle brackets.", "quantifier": "all texts", "why_tests_cant": "There are arbitrarily many texts.", "anchors": ["postbound/vis/optimizer.py:448-458"]}
{"id": "C360", "title": "Grids of plots", "statement": "make_grid_plot() uses the smallest number of rows with enough space, draws each label in its own cell in reading order, and switches off exactly the cells without a label.", "quantifier": "all numbers of labels and of columns", "why_tests_cant": "There are arbitrarily many sizes.", "anchors": ["postbound/vis/plots.py:15-44"]}
{"id": "C361", "title": "Distances of layouts", "statement": "kamada_kawai_layout() uses symmetric distances for all pairs of elements; the distance is the score of the two elements in the order of the input.", "quantifier": "all sequences of different elements, all scores", "why_tests_cant": "There are arbitrarily many sequences.", "anchors": ["postbound/vis/fdl.py:33-51"]}
{"id": "C362", "title": "Edges of layouts", "statement": "fruchterman_reingold_layout() connects each pair of elements, and each element with itself, by exactly one edge, with the score of the elements in the order of the input.", "quantifier": "all sequences of elements, all scores", "why_tests_cant": "There are arbitrarily many sequences.", "anchors": ["postbound/vis/fdl.py:54-68"]}
{"id": "C363", "title": "Mappings of expressions", "statement": "_generate_expression_mapping_dict() maps each set of arguments to exactly those expressions that have these arguments; each expression occurs once, and there are no empty entries.", "quantifier": "all sequences of expressions", "why_tests_cant": "There are arbitrarily many expressions.", "anchors": ["postbound/relalg.py:2754-2810"]}
{"id": "C364", "title": "Walks over graphs", "statement": "nodes() of a walk gives its start and the nodes of its path in order; expand() adds one node at its end, which is the new final node; the length is the number of nodes; walks are equal exactly if they have the same start and the same path.", "quantifier": "all walks", "why_tests_cant": "There are arbitrarily many walks.", "anchors": ["postbound/util/nx.py:190-295"]}
{"id": "C365", "title": "Hash values of walks", "statement": "All walks can be hashed, and equal walks have equal hash values.", "quantifier": "all walks", "why_tests_cant": "There are arbitrarily many walks.", "anchors": ["postbound/util/nx.py:281-289"]}
{"id": "C366", "title": "Estimates of wrapped cardinality estimators", "statement": "estimate_for() asks the estimator while it is initialized for the query of the last setup, and estimate_total_rows() while it is initialized for the query of the whole table; this also holds for estimates after estimate_total_rows().", "quantifier": "all sequences of setups and estimates", "why_tests_cant": "There are arbitrarily many sequences of calls.", "anchors": ["postbound/opt/ues.py:550-589"]}
{"id": "C367", "title": "Lifecycle of wrapped cardinality estimators", "statement": "Between two initializations of a wrapped estimator there is always a cleanup.", "quantifier": "all sequences of setups and estimates", "why_tests_cant": "There are arbitrarily many sequences of calls.", "anchors": ["postbound/opt/ues.py:550-589"]}
{"id": "C368", "title": "Casts to different types", "statement": "Parsing casts to different types gives casts with different target types.", "quantifier": "all names of types, with and without schemas", "why_tests_cant": "There are arbitrarily many types, since users can define their own.", "anchors": ["postbound/parser.py:727-761"]}
{"id": "C369", "title": "Formats of types", "statement": "The parser accepts exactly the types with one name, or with a schema and a name; built-in types get their standard names, all other types keep their name, and names with more parts are parser errors.", "quantifier": "all lists of names", "why_tests_cant": "There are arbitrarily many names.", "anchors": ["postbound/parser.py:727-761"]}
{"id": "C370", "title": "Operators are not confused", "statement": "A parsed operator has the text of the operator in the query (with <> for !=), and is a mathematical operator exactly for + - * / % ||; all operators that are not supported, and operators with a schema, are parser errors.", "quantifier": "all names of operators", "why_tests_cant": "Users can define arbitrarily many operators.", "anchors": ["postbound/parser.py:677-724"]}
{"id": "C371", "title": "Values of parsed CASE expressions", "statement": "If the parts of a CASE expression are parsed to expressions with the same values, the parsed CASE expression has the same value as the original one, for both forms of CASE. Parsing succeeds exactly if there is a case and all parts can be parsed, and all conditions are predicates.", "quantifier": "all CASE expressions, parsers of parts and values", "why_tests_cant": "There are arbitrarily many cases and data values.", "anchors": ["postbound/parser.py:764-808", "postbound/parser.py:1667-1695", "postbound/qal/_qal.py:1470-1530"]}
{"id": "C372", "title": "Normalized filters of QEP-S nodes", "statement": "Normalizing the filter of a QEP-S node removes the aliases of exactly the tables of the node and changes nothing else; it fails exactly if the filter uses a table of the node that is virtual.", "quantifier": "all predicates and sets of tables", "why_tests_cant": "There are arbitrarily many predicates and tables.", "anchors": ["postbound/opt/tonic.py:146-175", "postbound/_core.py:823-839"]}
{"id": "C373", "title": "Filters up to aliases", "statement": "Two filters over the tables of their nodes have the same normalized form exactly if they only differ in aliases of the same tables.", "quantifier": "all predicates and sets of tables", "why_tests_cant": "There are arbitrarily many predicates and tables.", "anchors": ["postbound/opt/tonic.py:146-175"]}
