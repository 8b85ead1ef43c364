{
 "C01": {
  "note": "Split into filters and joins is exact in 3VL for every predicate without mixed disjunctions; mixed disjunctions are refuted; reported joins touch two tables; BETWEEN/IN filters over two tables refuted."
 },
 "C02": {
  "note": "Exact for every tree except nested conjunctions that repeat one single OR/NOT (refuted there: meaning changes / TypeError)."
 },
 "C03": {
  "note": "True in three-valued logic for all predicates without a conjunction directly below NOT, with the reading proved unique; refuted for negated conjunctions: NOT (a AND b) prints NOT a AND b. Base predicates are atoms of the text."
 },
 "C04": {
  "note": "True, for every arithmetic with associative + * ||, of the expressions whose unbracketed inner operators bind tight enough (faithful), with the reading proved unique; refuted for all other expressions of two operators (a - (b - c), (a + b) * c, a % (b * c), ...), for signs of sums and for double minus signs, which start a comment. Names, calls, casts and the like are atoms of the text."
 },
 "C05": {
  "note": "Soundness for all expressions; completeness for expressions without the shapes that lose columns (covered), refuted for bare columns in CASE, PARTITION BY and for arithmetic over sequences."
 },
 "C06": {
  "note": "Reflexivity and symmetry for all predicates; equal => equal hash without IN; refuted for IN (tuple hash against set equality) and for the SimpleFilter/SimpleJoin views."
 },
 "C07": {
  "note": "Same meaning without casts when the column comes first or the operator is symmetric; refuted for 5 < R.a and for dropped casts."
 },
 "C08": {
  "note": "Symmetry for all maps; exactness for joins over exactly two tables; refuted for joins over three tables."
 },
 "C09": {
  "note": "Decides connectivity for every iteration order for two or more tables; single tables without predicates are answered False (refuted literal reading)."
 },
 "C10": {
  "note": "Right on tables occurring in predicates; refuted for FROM tables without predicates, empty predicates and contains_cross_product()."
 },
 "C100": {
  "note": "Counting is proved for fragments without GROUP BY, HAVING and ORDER BY; refuted for these clauses, which are kept in the count query. The cache answers are proved to be current if the cache is reset after each change of the data, and to have been right at some time in any case; refuted: enable_cache=False does not disable the cache."
 },
 "C101": {
  "note": "Lookup, default and live answers are proved. Refuted: error_on_missing_card has no effect; saved answers are not found again in the same session (text instead of set), so rows are added repeatedly and later reported as ambiguous; a file that had rows before cannot be read after saving. Proved: a new file to which each result is added once."
 },
 "C102": {
  "note": "Proved for estimates and products below 2^53 (the bounds are the integers around the exact product). Refuted: factor 1 changes 2^53+1 and turns infinite estimates into unknown ones."
 },
 "C103": {
  "note": "Proved: plans over different tables give exactly one entry; auxiliary nodes are rejected; if the inputs of all corresponding joins are swapped (and for scans), exactly the differences are reported. Refuted: every plan with a join is reported to differ from itself (the outer input of the left plan is compared with the inner input of the right one); an estimate only one plan has raises StateError; a cost only the right plan has is not reported."
 },
 "C104": {
  "note": "Refuted for every tree with a join: join_depth raises TypeError because the check for joins is inverted. Proved for empty trees and scans."
 },
 "C105": {
  "note": "Bottom-up score: range, symmetry, division by zero exactly without any join, and the characterisation of score 1 are proved. Top-down score: defined, symmetric and non-negative for all trees without empty parts; the range [0, 1] is refuted for every tree with a join compared to itself when gamma >= 1 (default 1.1). Scores are exact rationals in the model."
 },
 "C106": {
  "note": "catalan_number is proved exact for Catalan numbers below 2^53 and refuted at n = 31 (float division). possible_plans_bound is refuted: 0 for a single table, 180 for three tables with the default operators although 432 left-deep plans exist."
 },
 "C107": {
  "note": "Proved for unique keys, any number of dimensions and any order of the groups, except for a fact table with exactly one row after filtering, for which TypeError is raised (refuted, the single result row is unwrapped). Not modelled: building the SQL texts."
 },
 "C108": {
  "note": "Positive for queries without the unsupported parts listed in ok_q (RTab_spec.v): the result is the substitution. Refuted otherwise: every query with ORDER BY or a set operation is rejected, dictionaries of renamings unbind the columns and may drop FROM items, DISTINCT ON is not renamed, FILTER is dropped, quantified expressions are rebuilt with exchanged arguments, FROM subqueries that use columns of the table are rejected, tables in explicit joins cannot keep their alias."
 },
 "C109": {
  "note": "Positive for queries whose FROM clauses are comma separated (also in subqueries). Refuted for explicit joins."
 },
 "C11": {
  "note": "Classes = connected components proved; WHERE equivalence for column equi-joins; refuted for other joins."
 },
 "C110": {
  "note": "All parts proved for all feature lists."
 },
 "C111": {
  "note": "conform_to, from_df and the error cases are proved. as_df is proved for features stored in columns of the same name; in general it renames in the wrong direction (feature to column), so the columns are not called like the features (refuted). merge_with is proved for data sets with the same column names; otherwise values become NaN (refuted)."
 },
 "C112": {
  "note": "retrieve all/first and None proved in full; merge is proved when the later data sets have all features of the first one. Refuted: matching data sets raise a ValueError when the first one has further features, and a single match is not conformed."
 },
 "C113": {
  "note": "Proved for all pipelines, fit functions and states; refuted for metrics: stages with the same name overwrite each other's metrics."
 },
 "C114": {
  "note": "Soundness is proved outright. A plan is found if operators with finitely expensive inputs are finitely expensive, pages are known, NLJ or hash joins are allowed and predicates have no two pairs of join partners while merge joins are allowed; disconnected queries then raise an AssertionError. Refuted in general: a subset of the tables with only infinitely expensive plans makes the search fail although another join order has finite cost. The cost model of PostgreSQL itself (which prices whole plans with EXPLAIN) is not modelled."
 },
 "C115": {
  "note": "Proved for all join graphs: without index scans the plan is the cheapest one; with them it is within 1.01*1.01 of it. Refuted: exact optimality with index scans (fuzzy pruning), and optimality for cost models in which the benefit of parallel execution depends on the number of workers (partial paths are pruned without looking at it)."
 },
 "C116": {
  "note": "Operators and the choice of the cheapest final candidate (if no two candidates are equal as plans) are proved. Refuted: merge joins only gives no plan, parallel subplans below parallel plans, empty tables."
 },
 "C117": {
  "note": "Soundness is proved for all queries, completeness if nothing is mentioned only in the places that are skipped. Refuted for unaliased derived tables (None in the result), unaliased table functions, subqueries in join conditions, CTEs and ORDER BY of set queries and DISTINCT ON."
 },
 "C118": {
  "note": "columns() is contained in itercolumns() for all queries; both are exact if no VALUES CTE occurs and the skipped places mention nothing new. Refuted for ORDER BY of set queries, VALUES CTEs (a column reference within a column reference) and DISTINCT ON."
 },
 "C119": {
  "note": "Soundness is proved for all queries, completeness for queries without explicit joins and without subqueries in the skipped places. Refuted: every explicit join raises a TypeError; subqueries in table functions and in ORDER BY of set queries are missed."
 },
 "C12": {
  "note": "Tables always right; implication for NOT-free predicates whose disjunctions are kept or dropped as a whole; refuted otherwise."
 },
 "C120": {
  "note": "Disjointness is proved for all SELECT queries. The other claims hold for queries over database tables with subqueries in expressions, if no free table is also scanned inside. Refuted: explicit joins, VALUES and subqueries without FROM raise; derived tables make a query dependent; a table scanned in a subquery hides a free one; tables() is not the union."
 },
 "C121": {
  "note": "Whenever predicates() returns, its result is equivalent to the conjunction of all conditions; it returns exactly for queries with a FROM clause everywhere and without set operations. Refuted for queries without FROM clause and with a set operation in FROM."
 },
 "C122": {
  "note": "Proved for queries without star whose own names do not start with column_. Refuted for such names: the name of the left-hand side is lost, or two columns have the same name."
 },
 "C123": {
  "note": "Proved without HAVING, refuted with it. LIMIT and OFFSET are not modelled."
 },
 "C124": {
  "note": "Proved for joins whose CROSS JOINs have no (unparenthesised) join on the right. Refuted: CROSS JOIN with an outer join on its right is read as a different join with a different result by str() and in some cases by format_quick(); natural joins become cross joins; conditions of CROSS/NATURAL joins are lost by str() and make the text of format_quick() unreadable. The grammar of SQL is stated separately and proved unambiguous."
 },
 "C125": {
  "note": "format_quick() is proved for all set queries. str() is proved for trees without parentheses and ORDER BY/LIMIT; refuted for nested EXCEPT, UNION below INTERSECT, every set query with ORDER BY, LIMIT or EXPLAIN, and parts with ORDER BY, LIMIT or WITH."
 },
 "C126": {
  "note": "Proved for nodes with at most one subplan each (C126_mirrors_partial, C126_tables_partial); nothing is invented and failure is characterised for all trees. Refuted: of several subplans of a node only the last one is kept; the name of a subplan or CTE is passed under a wrong keyword and is never the target of the subplan."
 },
 "C127": {
  "note": "Proved unless an initial plan is below a node with workers; refuted there: it is executed once but scaled by the number of processes. Row counts are exact integers."
 },
 "C128": {
  "note": "Equality is an equivalence, equal nodes read the same tables, equal hash data implies equality. Refuted: equal nodes with different hash values (filters), equal nodes with different plans (roles of the children), a self join whose inner input is given twice."
 },
 "C129": {
  "note": "Soundness, unique relations and the choice by similarity (exact characterisation) are proved. Refuted: an unfiltered scan of a relation that occurs several times is never bound, even if only one occurrence has no filter. The factor 0.99 is exact; ASCII texts."
 },
 "C13": {
  "note": "Predicate-level theorem over opaque expressions (Trans_props) and expression-level theorem for all expressions without function FILTER; refuted: FILTER is dropped, and errors for array access, sequence arithmetic and simple CASE."
 },
 "C130": {
  "note": "The mirror is proved with operators for hash joins and sequential or index scans. Refuted: other joins (nested loop, merge, cross product) are not joins of the plan."
 },
 "C131": {
  "note": "Requests and lines correspond, errors are characterised. Refuted: parameters without any valid cardinality still give a block with an empty line; statements of system settings lack SET. The conversion of LIMIT is left out."
 },
 "C132": {
  "note": "Proved for documents whose nested loops consist of plain tables, with wrapper operations above and materialised subqueries at the tables; every scan of a plan comes from a table entry. Refuted: ambiguous names (the last table wins), the names of materialised tables (KeyError), several known operators in one object (only the first is read), subqueries in lists (AssertionError), costs of zero (dropped), tables of constants, and parse_plan with subqueries. JSON numbers and float arithmetic are parameters."
 },
 "C133": {
  "note": "Lines and requests correspond; errors are characterised; for left-deep trees the hint lists the tables one by one. Refuted: right-deep trees get the hint of another tree, bushy trees below the root and of plans are accepted, settings are lost without other hints, contradictory hints for joins that share tables, hints for operators that supports_hint() denies, quotes in settings."
 },
 "C134": {
  "note": "Proved for files without AutoCommit; that option is converted to auto_commit and always fails (C134_autocommit_refuted). Conversion of names: independent description, injective on capitalised names without underscores."
 },
 "C14": {
  "note": "Same row combinations for all inner-join trees with at least one condition (minus the C02 exception); refuted without any condition."
 },
 "C15": {
  "note": "Exact characterisation of when the predicate view raises; refuted in general."
 },
 "C16": {
  "note": "Round trip is the identity for queries whose class fits their FROM clause, which includes everything build_query produces; add/drop/replace are characterised slot by slot. Refuted: classes that do not fit are not preserved, a second set operation is silently ignored by add_clause, drop_clause matches exact classes only, replace_clause loses a FROM clause of another class."
 },
 "C17": {
  "note": "Limit.__str__ and the generic printing of FETCH are right for FIRST/NEXT and for PostgresLimitClause. Refuted: LIMIT 0 is dropped by the PostgreSQL clause (truth test on the number), the vanilla clause prints FETCH before OFFSET, and the directions PRIOR/LAST are printed as they are."
 },
 "C18": {
  "note": "True attribute by attribute for references without a schema. Refuted for every reference with a schema: the writer uses the key schema, the reader schemaname."
 },
 "C19": {
  "note": "Exact characterisation: a name is denoted by its quoted form iff it contains no double quote (assuming the lexer reserves only words from the library's list). Refuted for names with a double quote and for PostgreSQL words missing from the list (analyze, freeze, ...)."
 },
 "C191": {
  "note": "With scans and joins, the enumeration of operators is complete and free of duplicates for join orders without empty parts and repeated tables. Refuted otherwise: joins only gives nothing (a generator that returns a generator), scans only is a TypeError (missing argument), and plans are never enumerated since the operators are passed to to_query_plan by position."
 },
 "C192": {
  "note": "Drawing an assignment is sound and complete. Refuted: selection without a join order is an AttributeError, duplicate elimination never ends once all assignments were seen, and random plans are always a TypeError."
 },
 "C193": {
  "note": "Plain operators, index scans and sorting are costed as described. Refuted: the comparison that searches the materialize or memoize node never succeeds, so their cost is always infinite; native parameters are computed but not returned."
 },
 "C194": {
  "note": "Parts of C192 that hold without exception."
 },
 "C195": {
  "note": "Parts of C191 and C193 that hold without exception."
 },
 "C196": {
  "note": "Join order, operators and cardinalities are as described; a single parallel scan, join or top node gets its workers. Refuted: workers of auxiliary nodes such as Gather are given to the next operator in breadth first order, which may belong to another part of the plan; the hint of a scan whose filter mentions another table has that table, too."
 },
 "C197": {
  "note": "The generators for parts are those of C31; conversion of EXPLAIN and LIMIT is left out."
 },
 "C198": {
  "note": "Parts of C196 that hold without exception."
 },
 "C199": {
  "note": "Exact if the names of constraints are unique (generic) and if no primary key column is in another index (PostgreSQL). Refuted: a foreign key with the name of the primary key of another table makes the referenced column a primary key; PostgreSQL collects index columns in a dict whose last row wins, so primary key columns with another index lose one of the two, depending on the order of rows."
 },
 "C20": {
  "note": "Proved for every strict weak cost order, monotone cost model, set of scan operators and iteration order, relative to plans built from nested-loop, hash and sort-merge joins (DP_model: opt/dynprog.py 50-435; C20_setting ties the connectivity test to C09). Refuted for the full operator set: index nested-loop joins are allowed by default but never considered (documented in the class docstring)."
 },
 "C200": {
  "note": "MySQL is exact. PostgreSQL is exact for foreign keys of one column with unique names; refuted for composite keys and same-named constraints. The generic implementation takes the schema for the table and the table for the column, always. DuckDB misses composite keys."
 },
 "C201": {
  "note": "Exact whenever it can be computed; refuted: a single table with a composite primary key makes as_graph() fail with ValueError. The attributes of nodes are left out."
 },
 "C203": {
  "note": "MySQL is exact, PostgreSQL for up to five candidates and first calls of tables(). Refuted: the generic lookup_column (used by DuckDB) never finds a column given as text or without table; PostgreSQL makes a set of more than five candidates; its tables() ignores its arguments once tables are cached; schema[...] never finds columns, and never raises KeyError."
 },
 "C204": {
  "note": "Parts of C199 that hold without exception."
 },
 "C205": {
  "note": "Parts of C199 that hold without exception."
 },
 "C206": {
  "note": "Parts of C200 that hold without exception."
 },
 "C207": {
  "note": "Parts of C203 that hold without exception."
 },
 "C208": {
  "note": "Each table once: if no table is referenced by two tables, and for star queries. Refuted: a table that is referenced by two tables, one of which references the other, is joined twice (nx_bfs_tree marks tables only when they leave the queue)."
 },
 "C209": {
  "note": "Proved for connected queries in which each edge is an n:m join or compares only keys and no table of an n:m join is referenced. Refuted: a referenced table with an n:m join can lead to AssertionError (depending on the estimates), a predicate with keys and other columns to KeyError, a component of a single table to JoinOrderOptimizationError, two tables without join to AttributeError."
 },
 "C21": {
  "note": "Coverage, uniqueness and connectedness of the returned plan proved for every cost model. A plan is found for connected join graphs if every table can be scanned and one of the three considered join operators is allowed; with only IndexNestedLoopJoin allowed a ValueError is raised. A disconnected join graph gives a KeyError."
 },
 "C210": {
  "note": "Estimates are those of the state at the time of the choice; the bounds of the first table are those of the initial state (UES estimators)."
 },
 "C211": {
  "note": "Refuted: the result of sorted() is not used, so the components are joined in the order in which they are found."
 },
 "C212": {
  "note": "Parts of C208 that hold without exception."
 },
 "C213": {
  "note": "Part of C211 that holds without exception."
 },
 "C214": {
  "note": "Random choices are arbitrary. A limit of zero is treated like no limit (x or default)."
 },
 "C215": {
  "note": "Columns and tables are compared by identity; values are those of the SELECT DISTINCT query."
 },
 "C216": {
  "note": "Proved if the usable tables of the schema are connected. Refuted otherwise: the random walk jumps to another component, which gives a cross product, or ValueError if there is no foreign key at all."
 },
 "C217": {
  "note": "Proved for at least two tables, connected usable tables and more filterable columns in each table than min_filters. Refuted: with min_filters = max_filters no query is ever generated (line 295 compares with <=); a single table with a single filter is a ValueError (line 326 appends the join predicates instead of the filter)."
 },
 "C218": {
  "note": "The upper limit and different columns are proved without exception for positive limits (C219), the lower limit if at least two filters are wanted and each column has several values. Refuted: a single filter is lost and the join predicates are repeated instead; max_filters=0 is ignored; a column with a single falsy value is not filtered."
 },
 "C22": {
  "note": "Relations are lists of rows with NULLs; the estimator runs on the double-precision Cardinality model. Proved: PK/FK bounds are sound; n:m bounds are sound when the divisions are exact and otherwise fall short by at most the product of the frequencies; the minimum over a conjunction is sound. Refuted in general: Cardinality division rounds (14 rows, frequency 10 gives bound 10 for a join of 14 rows)."
 },
 "C220": {
  "note": "Proved if targets without columns read no table, and for star/count_star. Refuted: a target without columns is always kept, so (SELECT COUNT(*) FROM T) brings its tables along."
 },
 "C221": {
  "note": "GROUP BY, ORDER BY, CTEs and the conjuncts of WHERE are proved without exception; SELECT for a single wanted table. Refuted: with several wanted tables targets are only kept if they read all of them (line 409 tests equality instead of inclusion), if there are none the fragment selects *; DISTINCT ON becomes DISTINCT."
 },
 "C222": {
  "note": "Proved if all tables of the query are in its FROM clause. Refuted: wanted tables of subqueries become tables of FROM, i.e. cross products."
 },
 "C223": {
  "note": "Proved if both sides have all wanted tables and the projection is kept. Refuted: a wanted table that only one side has is an AttributeError; the projection is ignored for set queries."
 },
 "C224": {
  "note": "Proved if CTEs read no other CTEs. Refuted: a CTE that is only read by other CTEs is dropped."
 },
 "C225": {
  "note": "Proved for predicates without NOT. Refuted: NOT is a TypeError (its child is not a list)."
 },
 "C229": {
  "note": "Proved if candidate queries always have results, there are no IN predicates and the dependency graph hands out dependencies first. Refuted: a failed draw redraws the dependencies, but predicates that were drawn from their old values stay; with the order of DependencyGraph (C43) a predicate may be drawn before its dependencies (StateError)."
 },
 "C23": {
  "note": "Drawing is proved for all random choices: bushy (with and without a base table) and both linear shapes give complete, cross-product free trees and terminate. Refuted for eliminate_duplicates: the generator loops forever once all join orders have been drawn, so 'sampling always terminates' fails."
 },
 "C230": {
  "note": "Proved for weighted sampling without weight column. Refuted: uniform samples are tuples of tuples and run into an assertion (652-653), min_samples > 1 never passes the check because the length of the list around the tuple is compared (456), weight columns are always rejected (390)."
 },
 "C231": {
  "note": "Proved for comparisons and IN lists with values without quotes. Refuted: LIKE and ILIKE patterns are quoted twice (660-661), quotes inside of values are not doubled."
 },
 "C233": {
  "note": "The conditions and owners are proved for all templates (C236). Refuted: a predicate with a clashing placeholder stays registered under its name and earlier placeholders (547-554)."
 },
 "C234": {
  "note": "Proved for columns with table name. Refuted: the loop over the aliases unpacks their names (633), which fails unless they all have two letters."
 },
 "C235": {
  "note": "Uniqueness, labels and the upper bound are proved (C236), the exact number for templates with different labels that never repeat a query. Refuted: a duplicate in the very last try (one after the checked one, 777-785) silently ends the loop; templates with the same label overwrite each other's queries."
 },
 "C237": {
  "note": "Proved for replacements that keep subqueries as a whole and queries with plain predicates and named (virtual) VALUES lists. Refuted: DISTINCT ON expressions are kept (1162), a VALUES list without name raises AttributeError (1090), one with a named table gets a virtual table, SimpleFilter and SimpleJoin raise ValueError, replacements that handle subqueries are applied twice inside of subqueries in FROM or never terminate (1058-1062)."
 },
 "C239": {
  "note": "The meaning is proved for base predicates in place of which the new one is used. Refuted: replacing NOT a by a in NOT NOT a leaves NOT a, since the replacement is not repeated; the old predicate is gone if it is a base predicate."
 },
 "C24": {
  "note": "Proved for the bushy enumeration (soundness and absence of duplicates) and for the linear enumerator. The left-deep and right-deep options produce nothing (see C66)."
 },
 "C241": {
  "note": "Proved for FROM lists of distinct tables, moved tables of the query, a fresh subquery name, disjunctions that do not mix filters and joins, a subquery condition that only mentions moved tables and no moved predicate inside a disjunction or negation. Refuted without: a moved predicate is also deleted inside ORs, only the filter part of a mixed OR is moved, the subquery may refer to other tables, explicit joins of the moved tables are kept as well, other tables are added to the query."
 },
 "C242": {
  "note": "The shape is proved. Refuted: tables() of the new query contains table sources instead of tables, so moving tables again raises AttributeError."
 },
 "C243": {
  "note": ""
 },
 "C244": {
  "note": "Proved for the vanilla flavor without inlined hints for queries without newlines in literals, casts to array types, arithmetic or CASE as result of CASE, VALUES CTEs next to others or with [NOT] MATERIALIZED or RECURSIVE, and with at most one of LIMIT and OFFSET, which is not 0. Refuted without: literals in subqueries are changed, array types and MATERIALIZED get lost, LIMIT 0 is dropped. Joins in FROM and set queries are in C124 and C125."
 },
 "C245": {
  "note": "Proved for logs written by the benchmarks themselves, if no two runs have the same name and start time, timestamps are ISO dates (at least 19 characters) and a run ends at most once. Refuted without: the file is rewritten without truncating it, so after reformatting the log with more indentation it becomes unreadable and no further benchmark can start; two runs of the same name in the same second both get the outcome of either. JSON numbers are natural numbers in the model, non-ASCII characters are not escaped."
 },
 "C246": {
  "note": "Proved for documented option values and queries that are no set queries (or projection none), if prewarming and the preparatory statements succeed. Refuted without: set queries with a projection raise ValueError, an unknown output mode is ignored silently, and errors of the preparation are raised out of the benchmark instead of being recorded."
 },
 "C247": {
  "note": "Proved for tables of the default schema whose primary key is one column not named sample_id or _pb_rand_val. Refuted without: a table with primary key sample_id loses all rows, and for a table of another schema the rows of the table of the same name in the default schema are deleted. The SQL statements are modelled by their documented effect; no cascading deletes."
 },
 "C248": {
  "note": "Proved for tables of the default schema. Refuted without: for a column of a table in another schema the rows of the table of the same name in the default schema are deleted, and columns given as text cannot name a schema."
 },
 "C249": {
  "note": "Proved for percentages up to rounding to whole percents, and for export/import that name the target table. Refuted without: less than half a percent marks nothing, and importing by the name of the marker table only creates a column for a table None, so that removing the marked rows fails. The SQL statements are modelled by their documented effect."
 },
 "C25": {
  "note": "Proved for every query graph and every history of marks and clones, with the mutable state in a heap. Query predicates and schema information are parameters."
 },
 "C250": {
  "note": "See the theorem of C249."
 },
 "C251": {
  "note": "Proved for Postgres if the name is not taken by another system. Refuted without: DuckDB with refresh replaces the registered database of the same name, a name taken by another system is an AssertionError, and connecting to MySQL is always a TypeError (MysqlStatisticsInterface leaves an abstract method open). Servers accept all connections in the model."
 },
 "C252": {
  "note": "Proved for parameter names without blanks and equals signs and for values without single quotes and backslashes. Refuted without: values are not escaped, so a quote makes the string unreadable or changes other parameters, and backslashes get lost."
 },
 "C253": {
  "note": "See the theorems of C251 and C252."
 },
 "C254": {
  "note": "Proved: nodes, their filters, which tables are connected, and that the annotation is the last join predicate between the tables in iteration order. Refuted: with two join predicates between two tables the annotation misses one of them."
 },
 "C255": {
  "note": "Proved: the nodes of the base tables with their aliases and filters, when the graph exists, and that the edges connect the compared columns. Refuted: there are no edges between tables, columns become nodes, and a self join on the same column is a ValueError."
 },
 "C256": {
  "note": "Proved for joins of exactly two tables (legacy) and for collections of tables (legacy); the graph strategy is proved to find one of the join predicates iff there is one. Refuted: legacy finds joins of three tables which the default does not find; the graph strategy drops predicates."
 },
 "C257": {
  "note": "wrap, wrap_all and the partners are proved; can_wrap is right if it answers. Refuted: can_wrap raises a ValueError for function calls, and the join partners of a view are ordered differently from those of its predicate."
 },
 "C258": {
  "note": "See the theorems of C257 and C254."
 },
 "C259": {
  "note": "Proved: the lines are the preorder of the plan without its subplans, and the text determines this tree. Refuted for the whole plan: nodes of subplans are missing."
 },
 "C26": {
  "note": "Proved for all join trees without empty parts."
 },
 "C260": {
  "note": "Proved: the lines, and that the text determines the tree in which subplans are last children, hence the plan if there are no subplans. Refuted: a subplan cannot be told from a further child."
 },
 "C261": {
  "note": "The attribute access of a node is a parameter of the model that may raise."
 },
 "C262": {
  "note": "Proved for plans without subplans. Refuted: operators of subplans are not counted. The other entries of the summary are not modelled."
 },
 "C263": {
  "note": "Proved for line comments before everything else or directly after other comments, and block comments that are not nested, if nothing else in the text looks like a comment. Refuted: literals become hints or make the parser fail, later line comments are lost or errors, nested comments are cut."
 },
 "C264": {
  "note": "Proved for string values without quotes, and that only SET commands with a string as first value and one further statement are accepted. Refuted: numbers, lists of values, quotes."
 },
 "C265": {
  "note": "Proved for positive limits and all offsets, if the text contains one of the usual spellings. Refuted: LIMIT 0, LIMIT ALL, further blanks in FETCH FIRST."
 },
 "C266": {
  "note": "Proved for tables without a schema and, for lists of values and histograms, without NULLs. Refuted: the schema of a table is ignored, NULL as frequent as a value raises TypeError, NULL can become a bound of a histogram."
 },
 "C267": {
  "note": "Proved for the frequencies, and for the values if no tie crosses the cut. Refuted by ties: the query prefers smaller values, the list larger ones."
 },
 "C268": {
  "note": "Coherence and priority are proved unconditionally; the disabled cache for emulated row counts, distinct values, minima and maxima, and lists of values. Refuted: histograms read the row count from the cache, min_max of Postgres always stores its result."
 },
 "C269": {
  "note": "The five statistics and the catalogs of Postgres and DuckDB."
 },
 "C27": {
  "note": "Proved: linear trees are always recognised, and the answer is right for trees with at most four leaves. Refuted for larger trees: only the root is inspected, so a bushy join below the root is called linear."
 },
 "C270": {
  "note": "Proved for analysed tables in the search path. Refuted: never analysed tables have -1 rows, tables of other schemas raise AssertionError."
 },
 "C271": {
  "note": "The covered columns are proved unconditionally; that the server accepts the command for columns without repetitions. Refuted: a column given twice, and the true number of distinct values, which is set after ANALYZE and takes effect with the next update only."
 },
 "C272": {
  "note": "prewarm_tables is proved; cooldown_tables for base tables. Refuted: cooldown_tables includes virtual tables."
 },
 "C273": {
  "note": "Proved for files without blank lines and repeated queries. Refuted: each blank line makes the file unreadable, repeated queries are kept once."
 },
 "C274": {
  "note": "Proved for distinct queries and labels. Refuted: of two labels of one query the first is lost."
 },
 "C275": {
  "note": "Proved for a first download that works, with all later accesses, for queries on the disk, and for the names. Refuted: after one failed download all later accesses fail, since the empty directory stays."
 },
 "C276": {
  "note": "Proved: the order of loaded values, Python dates and timestamps that are sent and read back, dates other than the extreme ones that are read and sent back. Refuted: values before the range of Python cannot be read, the largest date becomes infinity, infinite timestamps become finite."
 },
 "C277": {
  "note": "Proved for the functions that enumerate and sample combinations. Refuted: explore_costs raises TypeError for all join orders with joins (sets as keys), and always without max_combinations."
 },
 "C278": {
  "note": "Proved for all nodes but unions, intersections and differences, which pass the visitor instead of the node."
 },
 "C279": {
  "note": "What the visitor finds is right for all predicates; the table is found if each operator refers to a table. Refuted: operators on constants only are rejected, tables inside of independent subqueries are accepted."
 },
 "C28": {
  "note": "Proved for plain trees over tables without a schema. Refuted otherwise (schema names and logical trees do not come back)."
 },
 "C287": {
  "note": "Refuted: recursive_worktable_factor is skipped because a comma is missing in the set of settings (postgres.py 177-179), and quotes in values are not escaped, so other settings can change. Proved for values without quotes and the settings known as changeable; refusals change nothing."
 },
 "C288": {
  "note": "Refuted for recursive_worktable_factor (missing comma). Proved for all settings in the set, for values without quotes that the server accepts as it shows them."
 },
 "C289": {
  "note": "Refuted: autovacuum and recursive_worktable_factor are listed but not reported (missing comma). Proved for all other listed settings."
 },
 "C29": {
  "note": "Proved for tables and sets of tables without overwriting, merging, independence of clones. Refuted: overwriting keeps scans and joins, a single table in an iterable is not found, equality ignores intermediates, the hash depends on the insertion order."
 },
 "C290": {
  "note": "Refuted: any open file ending with the name counts, e.g. pg_lab.so for the extension lab. Proved: the exact condition, and that open libraries and installed extensions are found."
 },
 "C291": {
  "note": "Proved for all values of the settings."
 },
 "C292": {
  "note": "Proved for None, integers, booleans, strings, expressions, columns, queries, tuples and lists."
 },
 "C293": {
  "note": "Proved for ASCII texts."
 },
 "C294": {
  "note": "Proved."
 },
 "C295": {
  "note": "Both documented forms work and nothing else is accepted, except for a single string: 'az' is taken apart into the bounds 'a' and 'z' (3541-3543)."
 },
 "C296": {
  "note": "Holds for values and iterables of values. Iterables within iterables are not flattened: lists lead to a TypeError, tuples become a single tuple literal."
 },
 "C297": {
  "note": "No table is reported that is not needed. Tables are missed if they are used only by the results of a CASE, the partitioning of a window function, the FILTER of an aggregate or R.*."
 },
 "C298": {
  "note": "Aliases of plain columns are reported correctly and every reported column occurs in a projection of that name. Any expression whose columns() is a single column is reported as well, e.g. MIN(R.a), or a CASE over two columns."
 },
 "C299": {
  "note": "Holds for numbers, for strings without backslashes and (without ANSI_QUOTES) without double quotes, and for NULL with ANSI_QUOTES. Without ANSI_QUOTES NULL is written as the string \"None\" and double quotes are not escaped, so that no string with one can be read back; backslashes are never escaped. Literals nested in other expressions keep the standard text, which is the text of the first case."
 },
 "C30": {
  "note": "Proved for cardinalities, workers and settings; refuted for the execution mode, which is always dropped."
 },
 "C300": {
  "note": "The query with the MySQL clause is discarded (629-630), so the standard text is used: correct without a format, but no valid EXPLAIN of MySQL for any format. The discarded clause itself would be right."
 },
 "C301": {
  "note": "All expressions but casts can be formatted (casts nested in functions can, too). A cast that is a SELECT target or an operand of a predicate raises a TypeError, as the prettifier rebuilds it with arguments that _MysqlCastExpression does not have."
 },
 "C302": {
  "note": "Holds without hint blocks. Hint blocks are sent in front of the statement, where MySQL does not read them, as str(query) is sent instead of the result of format_query(). Texts that start with another EXPLAIN get a second one."
 },
 "C303": {
  "note": "Proved for queries without preparatory statements (_partial). Refuted for all others: the SET commands are part of the text, their missing result is taken for the plan, and the call ends in an IndexError although the settings were changed (_refuted, for every query with preparatory statements)."
 },
 "C304": {
  "note": "For every server that answers EXPLAIN with one document: same settings, same result or failure as query_plan."
 },
 "C305": {
  "note": "Timeouts and other errors of the server are arbitrary; SET commands are assumed to succeed."
 },
 "C306": {
  "note": "All shapes, and the converse: anything accepted contains the document."
 },
 "C307": {
  "note": "Refuted for every operator: self._pg_instance.cursor is a method, so .execute ends in an AttributeError and no setting changes. Proved: each operator has a setting of its own (_partial)."
 },
 "C308": {
  "note": "Refuted: a backend is reported although hints are switched off, for remote servers without any backend, and for libraries with similar names. Proved for observable servers without switched-off hints and with proper names; for servers that cannot be observed, pg_hint_plan is assumed (C308_not_observable)."
 },
 "C309": {
  "note": "The parts of C279 that hold for all predicates."
 },
 "C31": {
  "note": "Modelled with real strings: operator tables, _walk_join_order, _generate_pglab_hints and _generate_pghintplan_hints. Proved: the block determines the join order if identifiers are single words and tables have different identifiers; every assigned operator gets its hint with its keyword, exactly its tables and its workers if at most one operator is parallel; no hint for anything else; generation succeeds for all supported operators and fails for index nested-loop joins. Refuted: identifiers with spaces give the same hint for different join orders (identifiers are written without quotes); with a second parallel operator the hint of the previous operator is repeated and its own is lost; pg_hint_plan is told to use an index-only scan for an assigned index scan. For less than two tables there is no join order hint."
 },
 "C310": {
  "note": "The parts of C289 that hold for all servers; the only name that is not a setting is the one with the missing comma, which no server shows."
 },
 "C311": {
  "note": "The part of C287 on refused values."
 },
 "C312": {
  "note": "Proved, in both directions, for all objects in which no dataclass with its own __json__ is nested in another dataclass (_partial). Refuted otherwise: dataclasses.asdict replaces the inner representation by the fields. None is returned as None instead of being encoded."
 },
 "C313": {
  "note": "Refuted for all parameters with at least one cardinality or worker: their keys are sets, which JSON does not support, and reading builds frozenset(table), a TypeError. Only empty parameters survive (_partial)."
 },
 "C314": {
  "note": "The tree, names and aliases are kept for all sequences (C314_names); schemas and virtual tables are lost (_refuted); exact for tables without either (_partial)."
 },
 "C315": {
  "note": "For all nested containers. The hash functions of atoms, tuples and frozensets are arbitrary."
 },
 "C316": {
  "note": "Refuted: the hash value of a HashableDict depends on the order of insertion, equal dictionaries with differently ordered keys never agree for collision-free hash functions. Proved for equal order, with sets iterated in any order (_partial)."
 },
 "C317": {
  "note": "Refuted: a given schema is used although bind_columns is False. Proved if no schema is given or binding is enabled."
 },
 "C318": {
  "note": "Refuted: EXPLAIN (ANALYZE false) is read as EXPLAIN ANALYZE, since the value of the option is ignored. Proved if ANALYZE is not switched off; see C322 for the rest."
 },
 "C319": {
  "note": "Refuted: the check for set queries looks at the text instead of the parsed query, so set queries are always accepted. Proved for other queries; see C323. Statements stand for what pglast returns after the SET commands (PHint_model.v)."
 },
 "C32": {
  "note": "frequency_below lies in [0, n_rows] and is monotone for both interpolations (C32_below_range, C32_below_monotone); equi-depth histograms: exact at bounds and short by at most one bucket (C32_below_bound_partial); exact beyond the bounds (C32_extremes). Refuted: the bound interpolation is no upper bound; frequency_above counts the wrong side (grows with v), approx-uni exceeds the rows or raises IndexError in the last bucket; _infer_histogram_bounds drops the rows behind the last full bucket and may make more bins than asked for. C32_infer_partial says what the inferred bounds do satisfy."
 },
 "C320": {
  "note": "Refuted: containment is that of proper subsets, so a relation does not contain itself and the relation of a single table does not contain this table. Proved for items that do not have all tables of the relation; see C324."
 },
 "C321": {
  "note": "Stages are given by the interfaces that they implement."
 },
 "C322": {
  "note": "Part of C318 that holds throughout."
 },
 "C323": {
  "note": "Part of C319 that holds throughout."
 },
 "C324": {
  "note": "Part of C320 that holds throughout."
 },
 "C325": {
  "note": "Part of C317 that holds throughout."
 },
 "C326": {
  "note": "Refuted: the operator |= works on the underlying dictionary and changes the entries. Proved for all other operations; see C335."
 },
 "C328": {
  "note": "Refuted: copy() fills a frozen copy, so it raises a TypeError unless there are no entries (which is the proved part)."
 },
 "C329": {
  "note": "Refuted: if a column has texts as well as missing values, the texts are written with quotes. Proved if complex objects are only together with missing values and other columns of type object only have texts. JSON texts are arbitrary functions (see C312)."
 },
 "C33": {
  "note": "All lists, all k >= 0."
 },
 "C330": {
  "note": "Refuted: columns are replaced in the data frame of the caller, even if nothing is written. Proved if there is nothing to convert."
 },
 "C331": {
  "note": "Refuted: only the first row decides, so complex objects are kept if it has a missing value. Proved if columns with complex objects start with one and only have missing values besides."
 },
 "C332": {
  "note": "pandas is not modelled, only the choice of the function."
 },
 "C333": {
  "note": "Refuted: if the command cannot be started (or subprocess.run raises for other reasons), the current directory stays changed; commands given as tuples or iterators raise a TypeError. Proved for texts and non-empty lists that can be run; see C336."
 },
 "C334": {
  "note": "Scores are integers."
 },
 "C335": {
  "note": "Part of C326 that holds throughout."
 },
 "C336": {
  "note": "Part of C333 that holds throughout."
 },
 "C337": {
  "note": "Refuted: nodes are identified by their hash value, so nodes that look the same become one. Proved if the identifiers of all nodes are different; see C342."
 },
 "C339": {
  "note": "Refuted: lines without a counterpart are lost, and an empty first text raises a ValueError. Proved for texts with the same number of lines."
 },
 "C34": {
  "note": "Costs are exact rationals (the code uses doubles, so sums are rounded there). A recommendation needs at least two operators with costs."
 },
 "C340": {
  "note": "Refuted: the documentation promises that case does not matter, but this only holds for \"ues\"."
 },
 "C341": {
  "note": "Refuted: if execute() raises an exception when it is interrupted (as DuckDB does), this is raised instead, and the runtime remains that of the query before. Proved if it returns normally; see C343."
 },
 "C342": {
  "note": "Part of C337 that holds throughout."
 },
 "C343": {
  "note": "Part of C341 that holds throughout."
 },
 "C344": {
  "note": "The shuffled order of each repetition and the outcome of the optimization are inputs."
 },
 "C345": {
  "note": "Partial: the final next_workload_iter() resets the bar of queries, so that it is empty after each benchmark (C345_bars_refuted). The bar of workload repetitions is complete, and the one of query repetitions if the last query was optimized."
 },
 "C346": {
  "note": "Partial: with pretty printing, the prefix is lost and calls without exactly one argument raise a TypeError (C346_log_refuted)."
 },
 "C347": {
  "note": "Partial: print() with flush=True raises an AttributeError, since the replacement of sys.stdout does not have flush() (C347_tee_refuted)."
 },
 "C348": {
  "note": "Labels are texts without path separators, as the type of the workload says."
 },
 "C349": {
  "note": "Companion of C345: the part that holds for all benchmarks."
 },
 "C35": {
  "note": "False as stated in three ways, each with a witness: a sorted path is discarded for a cheaper unsorted one; a new path may evict an old path and then be discarded itself; and the cost loss compounds without any bound over a history. Proved: retained paths were offered; the sort order test is sound (judged on row sequences); no loss at all when no two offered sort orders are strictly comparable; a single fuzz factor bounds the cost when paths have at most one sort key (hence the selected cheapest path is within 1%); fuzz^n in general. Costs are exact rationals instead of doubles."
 },
 "C350": {
  "note": "For graphs without edges from a table to itself, as they are built from pairs of different tables."
 },
 "C352": {
  "note": "Partial: the empty name raises a ValueError instead of a KeyError, also for the test of membership (C352_lookup_refuted). The listed columns are found if no two of them are equal (C352_keys)."
 },
 "C353": {
  "note": "Partial: for nodes with a subplan, the label of the root of the subplan replaces the operator and the base table (C353_label_refuted)."
 },
 "C354": {
  "note": "Partial: without a database, the pool itself is used as database and an AttributeError is raised (C354_cost_refuted)."
 },
 "C355": {
  "note": "For graphs with one edge per pair of different tables, as the constructor builds them. If both sides of a join are primary keys, the direction is one of the two."
 },
 "C356": {
  "note": "Partial: by default the class of graphs is used instead of an instance, so that drawing any query with joins raises a TypeError (C356_query_refuted). With include_pk_fk_joins the drawing is as documented; joins over several columns have no direction."
 },
 "C358": {
  "note": "Partial: ampersands are not escaped, so that the texts '&lt;' and '<' have the same label and labels like 'a & b' cannot be read (C358_escape_refuted)."
 },
 "C359": {
  "note": "Companion of C358: the part that holds for all texts."
 },
 "C36": {
  "note": "Proved for finite cardinalities and plain numbers, < for all values; refuted for > and >= with infinity."
 },
 "C360": {
  "note": "Partial: with fewer labels than columns, or with one column, the array of axes has fewer dimensions than expected and a TypeError is raised; without labels a ValueError (C360_grid_refuted). Otherwise the grid is as documented."
 },
 "C361": {
  "note": "For different elements; the coordinates that the graph library computes from the distances are not modelled."
 },
 "C362": {
  "note": "The coordinates that the graph library computes are not modelled."
 },
 "C363": {
  "note": "Expressions are opaque; frozensets are lists in a normal form."
 },
 "C365": {
  "note": "Partial: the data of edges are dictionaries, so that hashing a walk that used an edge raises a TypeError (C365_hash_refuted). Walks that only jump can be hashed."
 },
 "C367": {
  "note": "Partial: setup_for_query() initializes the estimator for the next query without a cleanup (C367_paired_refuted). With one setup, all calls are paired."
 },
 "C368": {
  "note": "Partial: the schema of a type is dropped, so that types with the same name in different schemas become the same type (C368_types_refuted), and the one-byte type \"char\" becomes char, as does bpchar (C368_char_refuted). Names that are not themselves standard names of other types are kept apart."
 },
 "C37": {
  "note": "Proved below 2^53 and for the remainder; refuted above 2^53, for some operations with infinity and for floor division, which rounds."
 },
 "C371": {
  "note": "The parser of the parts is an argument; the theorem on values assumes that it keeps values."
 },
 "C372": {
  "note": "Partial: assumes that tables() and the renaming of columns reach all columns of the predicate; C05 and C13 give the expressions for which they do not."
 },
 "C373": {
  "note": "Partial: assumes the same as C372."
 },
 "C38": {
  "note": "Queue.pop keeps falsy heads (refuted), FIFO proved for truthy elements; SizedQueue: most-recent-elements and capacity proved for append/pop, extend and constructor refuted."
 },
 "C39": {
  "note": "All operations that yield a BoundedInt; plain-int results are not modelled."
 },
 "C40": {
  "note": "Linearizability and no lost updates for all interleavings; unary plus deadlocks and reflected & adds (refuted)."
 },
 "C41": {
  "note": "Total lexicographic order on component lists."
 },
 "C42": {
  "note": "powerset, pairs, sliding_window fully proved."
 },
 "C43": {
  "note": "Dependencies-first and exactly-once are refuted; exactly once proved for acyclic graphs whose tasks are registered once."
 },
 "C44": {
  "note": "merge/intersection/difference/multi-dict/argmin/argmax proved; invert_multi and hash_dict refuted."
 },
 "C45": {
  "note": "Proved for queries and compound checks (acceptance and reasons). Refuted for database systems: CompoundCheck does not override check_supported_database_system, so it accepts every system. Refuted for merge_checks: equality only looks at class and name, so different custom checks (default name) or hint checks are collapsed; partial: correct if equal checks behave alike. PreCheckResult.merge drops a failure with an empty list of reasons."
 },
 "C46": {
  "note": "Proved for the incremental pipeline, and for all call sequences that the textbook and multi-stage pipelines need a new build() after a change. Refuted for the integrated pipeline (setup does not reset the build flag, a failing build() neither) and for textbook/multi-stage pipelines with two different checks (the compound check accepts every database system, C45). Partial results cover careful use of the integrated pipeline and components with at most one check."
 },
 "C47": {
  "note": "Proved for error_action 'log' whenever some query is due, query preparation works and no timeout meets online training: one row per due execution, in order, indices 1..n, each row describing its own outcome. Refuted for empty workloads (ValueError), for failing query preparation (outside the try block) and for a timeout with online training (AssertionError) - all three abort the benchmark and lose all results."
 },
 "C48": {
  "note": "Proved if for each query all executions fail or none does (always the case with one repetition) and at least one query can be optimized. Refuted for several repetitions with some failures (columns of different lengths, ValueError, all results lost), for workloads without any optimizable query, and a failed repetition emits the previous result again."
 },
 "C49": {
  "note": "Proved for every workload obtained by any sequence of the non-mutating operations, all random choices and any natural sort that permutes: entries() agree with item access, label_of, selections, algebra, first, pick_random, shuffle; last for n >= 1; relabel for distinct new labels. Refuted: last(0) returns everything, item assignment/deletion leave entries() and label_of() stale, relabelling loses queries with equal labels."
 },
 "C50": {
  "note": "Proved: 'raise' succeeds exactly if all files parse; files with distinct names that all parse are bound to their own labels; parsable files are always bound to their own query. Refuted for 'warn'/'ignore': an unparsable file is bound to the previous file's query, or UnboundLocalError if it is the first one; and for equal file names in different directories."
 },
 "C51": {
  "note": "Proved: exact transparency within a session for callers that do not modify results; across sessions up to tuples vs lists, for values the JSON encoding can represent. Refuted: tuples come back as lists; raw results alias the cache; one Decimal corrupts the whole file; dictionaries with a '$date' key break loading; cached results with a timeout are not simplified. The database is an unchanging function of the query text."
 },
 "C52": {
  "note": "Proved for every worker behaviour and every delay of the main process: results, timeouts (sound and complete), errors, cancellation, no protocol errors. 'Always returns' is proved only for workers that do not die and can send their exceptions; refuted otherwise (the main process keeps the write end of the pipe open). Statements without a result raise an error. Time is abstract."
 },
 "C53": {
  "note": "Proved for every history of queue/drain calls and every completion order, for queries whose result depends on the query only and that do not fail. Refuted: the callback gets a pair instead of the result, repeated drains repeat callbacks, one failing query hides later results, queries queued twice share one result."
 },
 "C54": {
  "note": "Proved for every sequence of changes by name (add, add by keyword, update, remove, and removal by setting object). Refuted for setting objects in add()/update() (they are strings, and the string case comes first) and for item assignment of plain values."
 },
 "C55": {
  "note": "Proved for every history of initialisations and lookups of tables without a database schema. Refuted for schema-qualified tables: only the table name is looked up and cached."
 },
 "C56": {
  "note": "Random walks and frontier walks proved for all graphs and choices (random walks also for graphs that are not connected). Refuted for nx_bfs_tree: nodes reached over two paths are yielded twice and the start node is never yielded; partial: it terminates and yields exactly the other nodes."
 },
 "C57": {
  "note": "Gone / unchanged / exact for conjuncts proved; refuted that a removed compound predicate never reappears."
 },
 "C58": {
  "note": "Equality/hash/order proved. Refuted for with_alias and update without schema argument: both drop the schema."
 },
 "C59": {
  "note": "BETWEEN, IN, NOT, AND, OR for all expressions; comparisons for expressions without the shapes that lose columns; refuted for a column inside CASE."
 },
 "C60": {
  "note": "Proved for lists without conditions on constants; refuted because 1 = 1 raises AssertionError."
 },
 "C61": {
  "note": "Refuted: join_with and update_annotation build plain join trees. Proved: joining with an empty tree, lookup and the traversals keep the class."
 },
 "C62": {
  "note": "Proved for assignments with workers; refuted: without workers an assignment is not equal to itself."
 },
 "C63": {
  "note": "Proved for joins; refuted for scans, whose workers are never integrated."
 },
 "C64": {
  "note": "Proved for global settings, intermediates and operators; refuted: workers and directions are lost and the result is never equal to an assignment with scans or joins."
 },
 "C65": {
  "note": "Refuted: common values are merged by frequency, so bounds may be unsorted; a bound of 0 is skipped as lower bound (and a column of only zeros fails); frequencies add up to more than the rows. Partial: with ascending common values bounds are strictly ascending, complete and frequencies add up; never fails if the first bound is not 0."
 },
 "C66": {
  "note": "Bushy: complete up to hash collisions (trees are deduplicated by hash), exact if there are none; disconnected graphs rejected. Refuted for left-deep and right-deep trees: all_join_orders_for is a generator function that returns the linear generator instead of yielding from it. The unused linear enumerator is complete."
 },
 "C67": {
  "note": "Equi-join check proved in both directions. Inner join check: soundness proved; refuted in the other direction since the join type (an enum member) is compared with the string INNER, so every explicit join is rejected; table functions raise ValueError."
 },
 "C68": {
  "note": "Proved for the integrated pipeline; the others are partial: set queries are never rejected by the incremental and textbook pipelines (ensure_all_passed ignores contexts that are no SqlQuery), and the multi-stage pipeline accumulates the checks of replaced components."
 },
 "C69": {
  "note": "Callback part proved. Progressive output: proved to be the returned rows without failed executions, as long as optimizations succeed or reps = 1; equal to the returned rows if nothing fails. Refuted in general: failed executions are never written, failed optimizations are written once instead of once per repetition."
 },
 "C70": {
  "note": "Refuted: directory names and the prefix never reach the labels, files of the same name in different directories overwrite each other. Proved: a flat directory is read as documented; a tree with distinct file names is read completely, under bare names."
 },
 "C71": {
  "note": "Proved for lists without repetitions; refuted for lists that contain a query twice (only the last position is kept)."
 },
 "C72": {
  "note": "The shape part is proved for all result sets. Injectivity holds for result sets without arrays; with arrays it is refuted ([([1,2],)] and [(1,),(2,)] both become [1,2])."
 },
 "C73": {
  "note": "Success is proved if every join predicate is a pair of columns of the graph; refuted for join predicates with more than two columns (KeyError). Order independence is proved for one join partner and refuted for two foreign keys into joined tables."
 },
 "C74": {
  "note": "Proved for the columns of the join condition and for columns joined inside the intermediate result, with integer frequencies. Refuted for the columns needed for later joins: their frequencies are never updated, so the next bound may be too small (3 instead of 6)."
 },
 "C75": {
  "note": "Proved for linear plans without auxiliary nodes (integrate_costs) and left-deep join orders (recommend_operators, all joins but the last). Refuted: the last join never gets a recommendation; right-deep orders look at the wrong table or fail; aliases are dropped from the assignment's tables; joins below a shallow branch are lost when the other branch has auxiliary nodes. Bushy plans are modelled but only covered by the refutations."
 },
 "C76": {
  "note": "Refuted for every left-deep join order: TypeError for three or more tables, empty result for two."
 },
 "C77": {
  "note": "Refuted for every QEP-S."
 },
 "C78": {
  "note": "False: ColumnReferences are looked up among ColumnExpressions, so a column is never found and no path is ever recognised as sorted; compatibility is not transitive. Proved: compatible keys order rows alike, reflexive and symmetric, merging, equality."
 },
 "C79": {
  "note": "Refuted only for as_star_query on set queries, where a ValueError is raised."
 },
 "C80": {
  "note": "Reflexive and symmetric for all objects; equal hash values for objects with default fetch directions, non-empty EXPLAIN formats, CTEs named by strings and without LATERAL, identity if MATERIALIZED is absent as well. Each exception is refuted by a witness; EXCEPT and INTERSECT clauses raise an AttributeError when compared."
 },
 "C81": {
  "note": "Traversals, depth and tables hold for all plans. lookup and iternodes ignore subplans (refuted for them); find_first_node skips subplans below nodes with fewer than two children and raises AttributeError for nodes with three or more children (refuted); proved complete for plans with at most two children per node and subplans only below binary nodes."
 },
 "C82": {
  "note": "False in general: only the topmost join is inspected (C82_root_only gives the exact meaning), so bushy plans joined with a base table count as linear and left-deep, no plan with joins is ever zig-zag, and plans with an auxiliary root raise AttributeError. Proved: plans of a shape are recognised (negative answers are right)."
 },
 "C83": {
  "note": "Proved for all plans with a canonical form (and that it exists if auxiliary nodes have one child). Refuted: Append/Result nodes raise AttributeError, subplans of auxiliary nodes are lost."
 },
 "C84": {
  "note": "Equivalence and hash consistency hold for all plans. Same join order only if the node type determines the operator; equal plans may have different tables (subplans and filters are not compared)."
 },
 "C85": {
  "note": "with_actual_card proved in full. Refuted: scaling actual cardinalities drops cache statistics, non-recursive scaling still scales subplans, with_estimates drops additional estimates."
 },
 "C86": {
  "note": "cout proved for executed plans whose sum is below 2^53. q-error is computed with Cardinality operands and therefore rounded to an integer: between the floor and the floor plus one of the exact value, 1 for some wrong estimates (refuted)."
 },
 "C87": {
  "note": "Join trees and the exact contents of assignments and parameters are proved (the last node from the root downwards wins). Refuted: conditions of index lookups make an inner join count as a join of more tables, so that operator and cardinality of the outer join are overwritten; include_workers only covers the root; explode_query_plan passes 'estimated' where 'estimates' is expected and annotates actual cardinalities; the tree is never a LogicalJoinTree."
 },
 "C88": {
  "note": "Shape, operators and cardinalities with default operators proved. Refuted: base tables are never set (no tables, no join order), every join with an operator assignment raises, scan assignments are ignored, update_plan always raises."
 },
 "C89": {
  "note": "Round trip proved for plans without sort keys, lookup keys and subplans and with cardinalities below 2^53; refuted for each of these. Predicates and tables are assumed to be read back unchanged."
 },
 "C90": {
  "note": "Tables and reading proved. Refuted: names are treated as collections of tables, so membership is always false; the actual cardinality is shadowed by the estimated one."
 },
 "C91": {
  "note": "Proved for queries without subqueries that name each table once, whose WHERE conditions use columns and no aggregates, whose HAVING conditions use aggregates and columns of none or several tables, without DISTINCT and LIMIT; for all interpretations, databases and iteration orders, both for the tree itself and for the copy that parse_relalg returns. Refuted beyond: HAVING conditions about one table and constant conditions disappear, DISTINCT and LIMIT are ignored."
 },
 "C92": {
  "note": "Proved, including the final copy, for queries whose WHERE conditions are base table conditions, joins with one table per side, or other conditions with columns. Refuted: constant conditions, functions without arguments; joins with two tables on a side succeed or fail depending on set iteration order."
 },
 "C93": {
  "note": "Proved, including the final copy, for queries that group by columns, do not nest aggregates, only use group columns and aggregates after grouping and only order by literals, columns or selected aggregates. Refuted: ORDER BY and GROUP BY expressions and unselected aggregates in ORDER BY are never computed."
 },
 "C94": {
  "note": "Proved when the tables of the first query are among those of the second one. Refuted otherwise: the parser keeps the fragments of the first side and cross-joins them into the second one. The final copy may fail with an AssertionError since leaves are kept in a set in which relations of the same table are equal (refuted with SELECT R.a FROM R UNION SELECT R.b FROM R); if it succeeds the result is right."
 },
 "C95": {
  "note": "Proved for trees in which each table occurs once and without subquery inputs; copies without changes are equal to the original in any tree. Refuted: equal nodes in other places change as well; trees with a table in several places may fail with an AssertionError."
 },
 "C96": {
  "note": "Equality is an equivalence relation and equal nodes produce the same rows. Hash values are right after construction, after a copy and after a change of the root; refuted for changes further down, as _rehash works from the root and reads the old hash values of the inputs. leaf() is right if the leaf is the node itself or its input; refuted otherwise, since it does not recurse."
 },
 "C97": {
  "note": "Proved for all queries in which each name stands for one table throughout (plain_names: CTEs used without alias, subqueries with alias and without column list, no functions in FROM, unqualified columns belong to exactly one table of their own FROM clause). Refuted outside: R.a in FROM R, R AS s is bound to s; an alias of the SELECT clause hides the column of the same name in WHERE; unqualified columns of the outer query and columns of a CTE with alias are not bound; a CTE named like the table it reads refers to itself; column names of t(x) are dropped; functions with alias and subqueries without alias cannot be parsed; ON conditions and ORDER BY take the first table of the FROM clause; * over x AS y gives the columns of the CTE y."
 },
 "C98": {
  "note": "Proved without restriction for the modelled part of the parser."
 },
 "C99": {
  "note": "Proved for all queries in which each table occurs in some predicate (and without this restriction for allow_cross_products). Refuted: a table that no predicate mentions gets no estimate, and a query without predicates gets none at all. Not modelled: the interleaving of enumeration and estimation."
 }
}
