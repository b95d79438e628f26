# Formal model of ferrite in Rocq (Coq 8.16.1)

Source modelled: `/repo` (OxidizeLabs/ferrite at the pinned commit), read as text.
Nothing in `/repo` is built, run or changed.

## Layout

`rocq/theories/<Area>Model.v`  definitions only, one Gallina function per Rust
function, each with the file and lines it models and the simplifications made.
`rocq/theories/<Area>Spec.v` (or the head of the `Props` file)  the small,
independent specification the theorems are stated against.
`rocq/theories/<Area>Proofs.v`  lemmas.
`rocq/theories/<Area>Props.v`  the property theorems, each closed by `exact`,
followed by `Print Assumptions`, and beside each an `Example` that a concrete
non-trivial case meets the hypotheses.

Naming: `cNN_...` is a theorem for property CNN of `properties.jsonl`.
`..._refuted` proves that the full English property is false of the faithful
model, with a concrete witness; the witness is a defect of the code.
`..._partial` proves a weaker statement; its comment says what is missing.

## Modelling conventions

* `&mut self` methods become functions returning the new state.
* `Result`/`Option` stay data; a panic is an explicit error value.
* Integers are `N`/`Z`/`nat` without bounds, except where a property is about
  width or wrap-around; there the wrap is written out.
* Hash maps are finite maps (std++ `gmap` or association lists).  Where the
  code iterates over a `HashMap`, the iteration order is an explicit argument
  or an arbitrary permutation, and the theorem quantifies over it.
* Clock readings are inputs.  Hash functions are arbitrary functions.
* Mutex-protected sections are atomic steps.  Where atomicity matters to the
  property (commit stamping, flush thread, fetch vs evict) the steps between
  lock releases are separate steps and the theorem quantifies over schedules.
* Disk = map from page id to bytes (or list of bytes for the log); I/O errors
  are an oracle in the input.  `fsync` is modelled only where it matters.

## Plan per property

| Id | Model | Proof idea |
|----|-------|------------|
| C01 | RID packing over `N`/`Z`, byte lists | algebra on shifts/masks, byte round trip |
| C02 | watermark state machine | invariant over op lists; monotonicity under oracle-issued timestamps |
| C03 | same | issued timestamps strictly increase along the trace |
| C04 | map + insertion queue | invariant; refinement to a bounded association list |
| C05 | arena of linked nodes + map | representation invariant `list_rep`; refinement to recency list |
| C06 | map with counters, arbitrary iteration order | invariant + victim minimality |
| C07 | map + heap with stale records (heap = multiset with min extraction) | invariant "every entry has its current record in the heap"; capacity 0 refuted |
| C08 | access-history map | victim minimality; rank consistency refuted |
| C09, C10 | frame map + queue with stale entries | invariant over op lists; victim characterised against spec |
| C11, C12 | buffer pool = frames + page table + replacer + disk | forward simulation to a map page -> bytes |
| C13, C14 | same, with failing disk, restart, clones | witnesses for the false parts; invariant for the true parts |
| C15, C17 | staging buffer + write manager + disk manager | invariant; lost write refuted; conditional theorem |
| C16 | three-tier cache + dedup + staging + disk | stale read refuted; conditional theorem |
| C18, C19 | maps; sorted list to ranges | invariants; set-equality of coverage |
| C20, C21, C22, C24 | lock queues per resource, transaction lock sets | invariant for histories without upgrades; upgrade witnesses refute the full claim |
| C23 | waits-for graph as adjacency lists, DFS with explicit stack | soundness: reported path is a cycle; completeness by DFS invariant |
| C25-C30 | MVCC rows: page tuple + undo logs + transaction map | chain-walk equals the spec lookup in the version list; step relation for interleavings; witnesses for false parts |
| C31, C32 | page = header + slot directory + byte array | layout invariant; overlap after growing updates refuted; round trip |
| C33 | heap as a chain of pages, iterator | chain invariant, scan = concatenation |
| C34, C35 | log channel, flush loop, persistent LSN, crash | schedule-quantified invariant; post-recovery witness refutes |
| C36, C66 | framed byte log + iterator | induction on records; torn tail |
| C37 | analysis / redo / undo over a log | refinement for the true part, witnesses for the false parts |
| C38, C39 | inductive B+tree with leaf chain | structural invariant; merges refuted |
| C40, C41 | iterator batches; predicate bounds | witness and conditional theorems |
| C42 | directory + buckets, arbitrary hash | invariant for lookups; split/merge witnesses |
| C43-C50 | executors as pull-based state machines over a child stream | equality of drained output with list functions |
| C51 | InsModel: schema expansion, both insert paths, SQL INSERT, UPDATE, DELETE, CREATE TABLE | relation between given values and stored row (InsSpec), by induction over columns and rows; arity and key invariants over histories |
| C52, C64, C65 | I/O engine: priority queue, workers, completion tracker, two-layer file | schedule-quantified invariants; witnesses for overtaking syncs and writes |
| C53 | SessModel: factory commit over the multi-version rows with stamping faults and page flush outcomes | conditional theorem; universal refutations for failing flushes, unstamped rows, aborted transactions |
| C54 | integer arithmetic with explicit wrap-around | range case analysis |
| C55 | LIKE matcher on byte/character lists | refinement to an inductive matching relation |
| C56 | plan rewrites over an inductive plan type | per-rule equivalence of results; witnesses for wrong rules |
| C57 | join key extraction and two-row evaluation | equality with evaluation on the joined row |
| C58 | lock manager + waits-for graph | invariant: every edge is a real conflict (plain histories); witnesses |
| C59 | self-blocking release | characterisation of hanging releases; witness |
| C60 | lock queues | frame property: other transactions never remove a grant; witnesses |
| C61 | MVCC rows, with the transaction the caller of update names | provenance invariant; SQL UPDATE witnesses |
| C63 | disk reads with and without the task scheduler | returns without work stealing; never returns on a miss with it |
| C62 | `image` (bytes written) and `load` (page made of bytes read) of the page model | reload loses every row (refuted for all pages); image decodes to the page after an insert |
| C64, C65 | I/O engine queue, worker pool and file layers (IoqModel) | invariant over schedules of the workers; reordering witnesses |
| C67 | SessModel: sessions, autocommit and SQL transaction statements over the same rows | frame invariant: a request changes only the transaction it works for; universal refutations for SQL BEGIN/COMMIT text |
| C68 | InsModel: column list, VALUES evaluation, name/position mapping, casts as a parameter | the mapped row at each column index; universal refutation for SELECT |
| C69 | InsModel: foreign key check against the rows of the referenced table | induction over the statement's rows with a growth relation; refutations for DELETE, UPDATE, API |
| C70 | InsModel: the insert loops and what they leave on failure | prefix lemma; refutation with two rows |
| C71 | InsModel: generated keys and the absence of other checks | invariant over histories with the list of generated keys; universal refutation |
| C72 | CompModel: compression engine with LZ4/Zstd as parameters | case analysis; induction on the bytes; universal refutation for no compression |
| C73 | FioModel: read/write loops with an oracle for short transfers, alignment rules | induction on the oracle; byte-wise specification of a write |
| C74 | FioModel: page and log operations of the executor | from C73, disjointness of page ranges; universal refutations |
| C75 | UpdModel: UPDATE and DELETE scans over MvccModel | induction on the slots with the MVCC invariant; refutations |
| C76 | CastModel: cast_to on numbers, texts, booleans, times | case analysis; digits/parse round trip by induction; refutations |
| C77 | CastModel: the two evaluations of CAST | case analysis; refutation |
| C78 | PtreeModel: the paged tree (leaf, internal, header pages; split; search; scan) | ghost tree + page invariant, induction on height and on histories; refutations |
| C79 | PtreeModel: removal, merge, redistribution | same invariant for calm removals; refutations by witness |
| C80 | PtreeModel: find the leaf, then insert | leaf frame lemma; refutation by witness |
| C81 | catalog: databases, tables and indexes as maps, the transaction manager's table of heaps (CatModel.v) | refinement of a map of maps by induction over histories; counterexamples |
| C82 | start-up: new buffer pool and catalog, rebuild from the system table and the snapshot file | invariant over histories (rows recorded = tables); universal refutation by induction over lives; counterexamples |
| C83 | populate_index_with_existing_data over the heap scan of TheapModel.v and the tree of BtreeModel.v | composition of the C33 and C38 theorems; counterexamples |
| C84 | the ANY and ALL loops, array evaluation, the IN-list parsing that replaces expressions by NULL | induction over the list against max/min of three-valued comparisons; ALL with NULL first and IN with non-constant items refuted |
| C85 | parse_subquery, evaluation of subquery, EXISTS, IN and scalar subqueries, the filter over a scan | the answer is shown independent of the inner rows (refuted universally); constant select lists proved |
| C86 | SUBSTRING, POSITION and OVERLAY over strings of Unicode characters with UTF-8 byte offsets | StrModel: direct proof against character-indexed specification on ASCII text; universal refutation on other text |
| C87 | TRIM, UPPER, LOWER and function dispatch | StrModel: direct proof by induction on the string; refutations for the ignored trim set and functions that always fail |
| C88 | The postcard encoding of requests and responses, and the server's read loop over all segmentations | NetModel: round trip and prefix freedom by composition of decoders; refinement of the read loop to answering in order when reads match requests; universal refutations otherwise |
| C89 | The client's read loop over all segmentations | NetModel: induction on the reads; universal refutations for long answers and lost step |
| C90 | PREPARE and EXECUTE requests | NetModel: invariant (the table of statements stays empty) over all histories; refuted |
| C91 | ceil_floor_expression.rs: the year and month loops, date_to_timestamp, the i32 truncation, the parser's field table | CalModel.v against the Gregorian closed formulas of CalSpec.v; loop invariants give year and month, monotonicity of month starts gives floor and ceiling; boundary and 2038 refutations |
| C92 | extract_expression.rs, at_timezone_expression.rs, typed_string_expression.rs with chrono's parsers as parameters | the text of a timestamp has no dash, so no date parser accepts it; u64 conversion order |
| C93 | Model: alias renaming of scanned columns, concatenated join schema, get_qualified_column_index, identifier and compound identifier lookup, star expansion. Spec: slots named by (item, column), unique match or error. | Lookup rewritten as a position over slots under dot-free names; universal refutations for unaliased joins, unknown tables, ambiguous names and t.* |
| C94 | Model: parsing of items, top-level aggregates, GROUP BY check, alias mapping, Aggregate node's schema, the projection's index choice and its evaluation. Spec: item values per group. | Plan of a well-formed query computed in closed form (target index per item), then canonical lists right and universal refutations for the other shapes |
| C95 | Model: HAVING rewriting to column references, filter above the Aggregate node, ORDER BY against output names with the fall-back to the table's rows. Spec: three-valued condition per group. | Index of each aggregate = groups + place when functions differ; refutations by closed forms |
| C96 | NumSpec, NumModel: comparison casts over the rational values of the operands | Cases of the cast that leave the left operand's value unchanged; the others refuted for all values |
| C97 | RemSpec, RemModel: planning and evaluation of % and \|\| | Euclidean facts for INTEGER; the other type pairs refuted for all values |
| C98 | The planning of an ungrouped SELECT and the running of its plan on the executors of C43, C44, C46 and C50 | The plan of a legal query runs to the answer of QrySpec.v, by composing the executors' theorems; sorting commutes with widening rows by their results. Refuted for numbers as keys, mixed keys, NULLS LAST, FETCH PERCENT and WITH TIES |
| C99 | FltModel: IEEE rounding on exact binary fractions (any size), the operators on every pair of types with a fractional operand | the rounding function gives the nearest number with p bits (for all rationals); refutations for operands the type cannot hold, NULLs and decimal fractions |
| C100 | FltModel: the aggregation executor's slots with AVG's counter, grouping, the final division, the planning of aggregate calls | invariant over the rows: each slot holds the running sum and count of its group; refutations by type, overflow, rounding, order, DISTINCT and FILTER |
| C101 | ArrModel: planning and evaluation of array literals, subscripts and slices over arbitrary row expressions, with the i32 and usize conversions | direct proof for all arrays and indexes; universal refutations for wide indexes, the smallest bound, NULL, nesting, bad bounds and steps |
| C102 | TopNPerGroup executor and its plan (TopgModel.v), reusing the heap of TopnModel.v; groups as an association list, hash-map order an argument | invariant over the rows seen: every group's heap satisfies TopN's invariant for the rows of that key; refuted for ascending orders, NULLs and failing children |
| C103 | Window executor and its plan (TopgModel.v) | partitions as in C102; popping a heap sorts; refuted for other functions, several windows and several expressions |
| C104 | CREATE TABLE as the planner processes it: column options folded left to right, table constraints applied column by column; DdlSpec reads declaration and recorded schema as conditions on rows | equivalence by characterising the recorded flags; witnesses and universal equations for the dropped constraints |
| C105 | the type table and the precision/scale check against independent value ranges | case analysis with linear arithmetic |
| C106 | the plan builders of DELETE, UPDATE and INSERT ... SELECT as functions of the whole statement, and the effect of their plans on a list of rows; ClauseSpec says what each clause asks for | direct; for every table with more selected rows than LIMIT the statement is shown not to be obeyed |
| C107 | ConstraintValidator with its two maps, fed any history of rows; CvalSpec says when a row is acceptable | invariant relating the map entries to the rows of the history; universal counterexamples |
| C108 | PartialEq, PartialOrd and Hash of Value on nested values, floats by their rank | nested induction: the comparison is lexicographic on a flat form, from which the laws follow |
| C109 | Executor as a step machine over IdxModel's index scans, choice of the right executor as a relation | runs characterised by iff lemmas, index case by C41's point lookup; refutations for all nodes |
| C110 | The conversion of a SIMILAR TO pattern to a regex (as text), the part of the regex crate's syntax and matching such texts use, evaluation with escape and negation. Spec: regular expressions of SIMILAR TO with their language and the texts they are written as | Compositionality of the conversion and of the regex parser over written patterns, then equivalence of the matchers; refutations over all characters and texts |
| C111 | CaseExpression: construction with its type check, both evaluations, clone_with_children; the type of integer literals; == of values from C108. Spec: truth of a test, SQL equality of numbers, texts and NULL, the branch a list of tests takes | Induction over the branches with arbitrary outcomes of the subexpressions; refutations for all values |
| C112 | Leaf, inner and header pages: constructors, all mutating calls, serialize/deserialize at byte level with cursor and buffer bounds, get_data/set_data, the pool's write and create_page_from_data; postcard integers from the log record model. Spec: contents of the three kinds of page, byte layout of a leaf | Cursor invariant for the writer, append lemmas for the reader, invariant over call lists; universal refutations (no reader) |
| C113 | src/cli.rs and the client loop of main.rs: the line buffer, trimming, the shell's own words, the transaction of the shell (ShModel) | proved for every session: one line, words in any case, transaction discipline as an acceptor, Ctrl-C; multi-line statements under white space at each joint (_partial); refuted: glued lines, semicolon in a literal, 'begin ;' and other spellings, end of input, client's exit |
| C114 | Display for Value, the type objects' to_string, the column scale, CliResultWriter (DspModel); decimals as m/2^k with exact rounding, chrono's calendar given | specification relation between values and texts; proved for all values by induction on lists and on numerals, plus injectivity and the printed order; refuted: NULL text, CHAR padding, dates before 1970, large and tiny decimals, lists |
| C115 | HblkModel: block and bucket pages with their flag bytes, as operations and as single accesses of several threads | histories refine a bag of pairs; invariants over every schedule of the threads' accesses; schedules that lose a pair |
| C116 | EjModel: expression trees with evaluate (one row) and evaluate_join (two rows); arithmetic from FltModel/CastModel, all other strict functions as parameters | induction on the tree: the two agree when every node is of an agreeing kind; the other kinds are refuted for all rows |
| C117 | JfModel: JSON documents, access_value / json_to_value / path evaluation with the JSON library as parameter; STRUCT expressions and the planning of field access | induction on the path with the invariant that the current value stands for the document at the path so far; SQL-level refutations for all inputs |
| C118 | DlModel: typed and plain literals, INSERT's cast to the column type, planning and evaluation of column-literal comparisons, over CastModel's cast_to; chrono readings as parameters | case analysis over the three types and all texts; refutations for all texts |
| C119 | InsModel.v (the statements), StSpec.v (what it is to be of a type) | invariant over histories of statements; refutations for all tables and values |
| C120 | BwSpec.v, BwModel.v over NumModel.v (comparisons) and CastModel.v (casts) | BETWEEN: by cases on the two comparisons; IN: induction on the list; refutations for all values of the stated kinds |
| C121 | PchkModel.v over the pages of PtreeModel.v: health_check, validate_tree, validate_leaf_links, in-, pre- and post-order traversals | the tree invariant of C78, strengthened: a node with a lower bound has its first child listed twice and bounded leaves are not empty; keys counted by induction on depth; refuted by all trees of three levels and by the damaged trees of C79 and C80 |
| C122 | QclModel.v over QryModel.v: build_query_plan with nested bodies and tails; the clauses the planner reads | Induction on the nesting: plan, names and rows of each level against an independent relation means; the ignored clauses by a stripping function on queries, and for all tables what each then returns |
| C123 | VqModel.v: planning of VALUES, the types of the first row, the cast of every cell (CastModel.v), the executor's loop | Induction on rows and cells against an independent relation shows; the false cases for all tables |
| C124 | Commands from the statement through the text of the command to the executor that takes the text apart, over a catalog of databases, tables and columns and the rows of one transaction (CmdSpec, CmdModel). | Lemmas about trimming and splitting texts for all names; obeyed for CREATE DATABASE and USE of one-word names, case analysis for the commands without effect; refutations for all ALTER, VIEW, SHOW, SCHEMA and SAVEPOINT commands. |
| C125 | The plan of an ungrouped SELECT with HAVING, a filter above the projection, on the plans and executors of C98 (HngSpec, HngModel). | The rows are filtered by a condition over positions; evaluation looks only at the columns mentioned, so the shown row decides as the table's row does when they agree there; refutations for all tables. |
| C126 | collector.rs, manager.rs (what a read records), io/metrics.rs: MetModel | counters by induction over the history; percentiles through the buckets; every interleaving of the two ways of raising a maximum; refutations for batches, errors, rates and load-then-store |
| C127 | the six comparisons, least/greatest and the sort order on values other than decimals and floats, with nested lists (OrdModel.v) | CompareSpec of each comparison against an inductively given order; induction on the size of nested lists for equality; refutations for all lists and kinds |
| C128 | the directory page of the extendible hash index: growing, the two ways of splitting, merging, halving, the integrity check (DirhModel.v over HtabModel.v) | consistency as an invariant over splits of any directory; arithmetic of low bits; counting the entries of a residue class; refutation of merging for every consistent directory |
| C129 | CREATE INDEX from the parsed statement through the planner, executor and catalog, with generated names (CixModel.v) | case analysis against a view of the catalog in terms of column names; invariant over statement histories; injectivity of joining names |
| C130 | START TRANSACTION from the parsed modes through the plan to the transaction manager (StxModel.v over SessModel.v) | induction on the list of modes against the last level named; equality of all later behaviour for the refutations |
| C131 | methods of values (method_expression.rs): get, size, length, value over already evaluated arguments | index arithmetic modulo 2^64; first and last tag by induction on the text; numerals as an inductive relation; refutations for all texts (bytes counted, path ignored, empty element, integer of an element) |
| C132 | CONVERT and TRY_CONVERT from the statement to the value (expression_parser.rs, convert_expression.rs) over the model of casts | case analysis over the theorems of C76 and C77; refutations for every value whose type differs from the one named |
| C133 | the performance monitor (performance_monitor.rs): counters, reset, scores of buffer pool, disk and locks, over histories of reports | induction on the history for the counters; rational arithmetic for the scores; refutations for every history (grants kept over a reset, last chain as average, latencies kept) |

## Trusted base

* The kernel of Coq 8.16.1, and the standard library and std++ as installed.
* The reading of the Rust source that each model definition records in its
  comment: a model that misreads the code proves something about other code.
* The specifications (`*Spec.v` and the definitions inside `*Props.v`), which
  say in Coq what the English properties mean.
* Axioms: none.  `Print Assumptions` answers "Closed under the global context"
  for every theorem listed below (768 theorems; no axiom of the standard library
  is used either, no functional extensionality, no classical logic).
  std++ is the only library beyond the standard one, and it adds none.
* What the models take from each other is stated in their header comments: the
  buffer pool model takes the disk to return the bytes last written (the disk's
  own behaviour is C15, C16, C63-C65); the table heap model takes its pages to
  stay in the pool (C62 is about pages that leave it); hash join takes the hash
  table to lose nothing (C42 is about that).

### Theorems and their assumptions

Every theorem of the manifest, by property and file; each is closed under the
global context.

* C01 (RidProps.v): `c01_i64_roundtrip`, `c01_i64_none_iff`, `c01_i64_onto`, `c01_bytes_roundtrip`, `c01_bytes_short_iff`, `c01_bytes_reencode`, `c01_order_agrees`
* C02 (WatermarkProps.v): `c02_watermark_is_oldest_registered`, `c02_watermark_when_idle_partial`, `c02_watermark_when_idle_refuted`, `c02_watermark_never_ahead`, `c02_watermark_monotone`, `c02_split_registration_refuted`, `c02_transactions`, `c02_transactions_monotone`
* C03 (WatermarkProps.v): `c03_issued_increasing`, `c03_issued_after_commit`, `c03_transactions`, `c03_wraparound_refuted`
* C04 (FifoProps.v): `c04_fifo_behaves_like_bounded_list`, `c04_fifo_never_over_capacity`
* C05 (LruProps.v): `c05_lru_behaves_like_recency_list`, `c05_lru_never_over_capacity`
* C06 (LfuProps.v): `c06_lfu_histories`, `c06_lfu_never_over_capacity`, `c06_lfu_counts_uses`
* C07 (LfuProps.v): `c07_heap_lfu_histories_partial`, `c07_heap_lfu_never_over_capacity_partial`, `c07_heap_lfu_counts_uses`, `c07_heap_lfu_zero_capacity_refuted`
* C08 (LrukProps.v): `c08_lruk_histories`, `c08_lruk_never_over_capacity`, `c08_lruk_rank_partial`, `c08_lruk_rank_refuted`
* C09 (LrukProps.v): `c09_evict_only_evictable`, `c09_evict_finds_one`, `c09_size_counts_evictable`, `c09_size_is_number_of_evictions`, `c09_counter_never_negative`
* C10 (LrukProps.v): `c10_evicts_lruk_victim`
* C100 (FltProps.v): `c100_avg_partial`, `c100_no_rows`, `c100_type_refuted`, `c100_overflow_refuted`, `c100_bigint_refuted`, `c100_order_refuted`, `c100_modifiers_refuted`, `c100_distinct_refuted`
* C101 (ArrProps.v): `c101_array`, `c101_accepted`, `c101_index_partial`, `c101_slice_partial`, `c101_mixed_refuted`, `c101_bigint_refuted`, `c101_min_refuted`, `c101_null_refuted`, `c101_nested_refuted`, `c101_bad_bound_refuted`, `c101_stride_refuted`
* C102 (TopgProps.v): `c102_descending_partial`, `c102_groups_ascend`, `c102_terminates`, `c102_ascending_refuted`, `c102_null_refuted`, `c102_child_error_refuted`
* C103 (TopgProps.v): `c103_row_number_partial`, `c103_other_functions_refuted`, `c103_only_first_window`, `c103_second_window_refuted`, `c103_more_expressions_refuted`, `c103_child_error_refuted`
* C104 (DdlProps.v): `c104_constraints_partial`, `c104_unknown_column_refused`, `c104_fk_actions_column`, `c104_composite_unique_refuted`, `c104_table_check_refuted`, `c104_composite_fk_refuted`, `c104_fk_actions_refuted`, `c104_second_check_refuted`, `c104_primary_key_null_refuted`
* C105 (DdlProps.v): `c105_integer_types_partial`, `c105_precision`, `c105_integer_types_refuted`, `c105_length_refuted`
* C106 (ClauseProps.v): `c106_delete_partial`, `c106_update_partial`, `c106_insert_partial`, `c106_delete_joins_refused`, `c106_delete_dropped_refuted`, `c106_update_dropped_refuted`, `c106_insert_dropped_refuted`, `c106_delete_limit_refuted`, `c106_update_limit_refuted`, `c106_insert_limit_refuted`
* C107 (CvalProps.v): `c107_unique_sound`, `c107_exact_partial`, `c107_primary_key_refuted`, `c107_composite_key_refuted`, `c107_check_refuted`, `c107_check_inverted_refuted`, `c107_refused_row_remembered_refuted`
* C108 (VordProps.v): `c108_equality`, `c108_hash`, `c108_order`, `c108_meaning`, `c108_total_partial`, `c108_nan_refuted`, `c108_types_refuted`
* C109 (NijProps.v): `c109_scan_partial`, `c109_index_partial`, `c109_left_refuted`, `c109_child_refuted`, `c109_other_child_refuted`, `c109_panic_refuted`, `c109_wrong_index_refuted`
* C11 (BpmProps.v): `c11_reads_partial`, `c11_fetch_partial`, `c11_unwritten_refuted`, `c11_write_error_refuted`, `c11_write_page_refuted`, `c11_batch_refuted`, `c11_batch_order_refuted`
* C110 (SimProps.v): `c110_similar_partial`, `c110_default_escape`, `c110_line_feed_refuted`, `c110_operators_refuted`, `c110_repetition_refuted`, `c110_class_refuted`, `c110_null_refuted`, `c110_empty_escape_refuted`
* C111 (CaseProps.v): `c111_searched_partial`, `c111_lazy`, `c111_unknown_refuted`, `c111_simple_partial`, `c111_null_refuted`, `c111_types_refuted`, `c111_literal_refuted`, `c111_accepted`, `c111_refused_refuted`, `c111_rewrite`, `c111_rows`
* C112 (IpProps.v): `c112_header_trip`, `c112_leaf_calls`, `c112_leaf_trip`, `c112_leaf_full`, `c112_root_refuted`, `c112_kind_refuted`, `c112_leaf_read_refuted`, `c112_room_refuted`, `c112_inner_calls`, `c112_inner_trip_partial`, `c112_inner_trip_refuted`, `c112_image_refuted`, `c112_lost_refuted`, `c112_reload_refuted`, `c112_reload_panics`
* C113 (ShProps.v): `c113_line`, `c113_words`, `c113_discipline`, `c113_interrupt`, `c113_lines_partial`, `c113_lines_refuted`, `c113_quote_refuted`, `c113_blank_refuted`, `c113_begin_refuted`, `c113_eof_refuted`, `c113_client_line`, `c113_client_refuted`
* C114 (DspProps.v): `c114_shown_partial`, `c114_distinct`, `c114_null_refuted`, `c114_char_partial`, `c114_char_refuted`, `c114_date_partial`, `c114_date_refuted`, `c114_decimal_refuted`, `c114_scale`, `c114_list_refuted`, `c114_table`, `c114_cells`
* C115 (HblkProps.v): `c115_answers`, `c115_insert_partial`, `c115_reuse_refuted`, `c115_nonunique_refuted`, `c115_past_end_refuted`, `c115_alone`, `c115_kept`, `c115_apart`, `c115_race_refuted`, `c115_twice_refuted`, `c115_fits_partial`, `c115_fits_refuted`, `c115_too_big`
* C116 (EjProps.v): `c116_same_partial`, `c116_arith_partial`, `c116_reversed_refuted`, `c116_narrow_refuted`, `c116_round_refuted`, `c116_bin_refuted`, `c116_bin_const_refuted`, `c116_columns`
* C117 (JfProps.v): `c117_path`, `c117_missing_partial`, `c117_string_refuted`, `c117_struct`, `c117_position_partial`, `c117_struct_name_refuted`, `c117_json_refuted`, `c117_number_refuted`, `c117_nested_refuted`, `c117_column_refuted`, `c117_cast_refuted`
* C118 (DlProps.v): `c118_plain_partial`, `c118_timestamp_partial`, `c118_midnight_partial`, `c118_insert_refuted`, `c118_compare_refuted`, `c118_before_1970_refuted`, `c118_time_refuted`, `c118_digits_refuted`, `c118_updated_number`
* C119 (StProps.v): `c119_typed_partial`, `c119_update_refuted`, `c119_values_refused`, `c119_select_null_refuted`, `c119_key_refuted`
* C12 (BpmProps.v): `c12_pinned_partial`, `c12_race_refuted`, `c12_two_copies_refuted`, `c12_delete_refuted`
* C120 (BwProps.v): `c120_between_partial`, `c120_between_numbers_partial`, `c120_in_partial`, `c120_in_numbers_partial`, `c120_between_dates_refuted`, `c120_between_digits_refuted`, `c120_in_types_refuted`
* C121 (PchkProps.v): `c121_in_order_partial`, `c121_health_partial`, `c121_health_refuted`, `c121_blind_refuted`, `c121_page_order`
* C122 (QclProps.v): `c122_obeyed_partial`, `c122_refused`, `c122_ignored_refuted`, `c122_with_refuted`, `c122_top_refuted`, `c122_distinct_on_refuted`, `c122_limit_by_refuted`, `c122_qualify_refuted`, `c122_sort_by_refuted`
* C123 (VqProps.v): `c123_values_partial`, `c123_lengths`, `c123_point_refuted`, `c123_large_refuted`, `c123_first_row_refuted`
* C124 (CmdProps.v): `c124_create_partial`, `c124_use_partial`, `c124_rollback`, `c124_refused`, `c124_no_other_effect`, `c124_alter_refuted`, `c124_view_refuted`, `c124_alter_view_refuted`, `c124_show_refuted`, `c124_existing_refuted`, `c124_space_refuted`, `c124_parts_refuted`, `c124_schema_refuted`, `c124_savepoint_refuted`, `c124_unknown_savepoint_refuted`
* C125 (HngProps.v): `c125_in_place_partial`, `c125_star`, `c125_unknown`, `c125_other_column_refuted`, `c125_no_rows_refuted`
* C126 (MetProps.v): `c126_counters`, `c126_averages`, `c126_extremes`, `c126_percentile_partial`, `c126_batch_refuted`, `c126_errors_refuted`, `c126_health_refuted`, `c126_health_range`, `c126_reset`, `c126_rate_refuted`, `c126_cas_max`, `c126_store_max_refuted`, `c126_pending`
* C127 (OrdProps.v): `c127_order`, `c127_scalar`, `c127_null`, `c127_kinds`, `c127_text_refuted`, `c127_lists_partial`, `c127_list_null_refuted`, `c127_list_order_refuted`, `c127_min_max`, `c127_min_max_null`, `c127_min_kinds_refuted`, `c127_sort`, `c127_sort_total`
* C128 (DirhProps.v): `c128_grow`, `c128_grow_full`, `c128_split`, `c128_split_full`, `c128_splits`, `c128_split_image`, `c128_split_image_refuted`, `c128_merge_refuted`, `c128_merge_high_refuted`, `c128_shrink`, `c128_shrink_refuted`, `c128_integrity`, `c128_integrity_refuted`, `c128_merge_noticed`
* C129 (CixProps.v): `c129_refused`, `c129_made_partial`, `c129_unique_refuted`, `c129_taken_refuted`, `c129_history`, `c129_generated_partial`, `c129_generated_refuted`
* C13 (BpmProps.v): `c13_frames_partial`, `c13_leak_refuted`, `c13_leak_always_refuted`
* C130 (StxProps.v): `c130_level`, `c130_level_unique`, `c130_read_only_refuted`, `c130_body_refuted`
* C131 (MthProps.v): `c131_get`, `c131_get_only`, `c131_size`, `c131_length_partial`, `c131_length_refuted`, `c131_value_text_partial`, `c131_value_empty_refuted`, `c131_value_plain`, `c131_value_path_refuted`, `c131_value_int`, `c131_value_int_element_refuted`
* C132 (ConvProps.v): `c132_planned`, `c132_integers`, `c132_typed`, `c132_try`, `c132_null`, `c132_charset_refuted`, `c132_using_refuted`, `c132_try_charset_refuted`
* C133 (PmonProps.v): `c133_counts`, `c133_buffer_score`, `c133_lock_score_bounds`, `c133_lock_reset_refuted`, `c133_average_refuted`, `c133_latency_refuted`, `c133_disk_score_bounds`
* C14 (BpmProps.v): `c14_unique_partial`, `c14_clone_refuted`, `c14_reopen_refuted`, `c14_reopen_fetch_refuted`
* C15 (DiskProps.v): `c15_flushed_partial`, `c15_small_buffer_refuted`, `c15_refused_refuted`, `c15_sync_error_refuted`, `c15_write_error_refuted`, `c15_race_refuted`, `c15_inflight_refuted`
* C16 (DiskProps.v): `c16_once_partial`, `c16_nocache_partial`, `c16_tier_refuted`, `c16_dedup_refuted`, `c16_unflushed_refuted`
* C17 (WbufProps.v): `c17_accounting`, `c17_drain`, `c17_exact`
* C18 (WbufProps.v): `c18_latest`, `c18_bound_partial`, `c18_bound_refuted`, `c18_kept_partial`, `c18_kept_refuted`, `c18_adjacent`
* C19 (WbufProps.v): `c19_ranges`, `c19_gaps`, `c19_gap_size_refuted`, `c19_duplicates_refuted`, `c19_aligned`
* C20 (LockProps.v): `c20_granted_locks_compatible_partial`, `c20_refuted`
* C21 (LockProps.v): `c21_matrix`, `c21_row_needs_table`
* C22 (LockProps.v): `c22_finish_releases_all_partial`, `c22_unlock_releases_partial`, `c22_kept_after_commit_refuted`, `c22_waiter_stays_refuted`, `c22_rows_before_table_refuted`
* C23 (LockProps.v): `c23_detector_sound_and_complete`
* C24 (LockProps.v): `c24_repeatable_read`, `c24_read_committed`, `c24_read_uncommitted`, `c24_finished`, `c24_refuted`
* C25 (MvccProps.v): `c25_snapshot_reads_partial`, `c25_torn_read_refuted`, `c25_read_committed_goes_back_refuted`
* C26 (MvccProps.v): `c26_no_dirty_reads_partial`, `c26_no_dirty_reads_atomic_partial`, `c26_plain_heap_refuted`, `c26_plain_heap_read_committed_refuted`, `c26_sql_update_refuted`
* C27 (MvccProps.v): `c27_repeatable_partial`, `c27_commit_in_progress_refuted`
* C28 (MvccProps.v): `c28_abort_unseen_partial`, `c28_abort_undone_partial`, `c28_double_update_refuted`, `c28_row_blocked_refuted`, `c28_insert_stays_refuted`
* C29 (MvccProps.v): `c29_no_overwrite_partial`, `c29_lost_update_refuted`
* C30 (MvccProps.v): `c30_prune_harmless_partial`, `c30_gc_refuted`, `c30_prune_aborted_refuted`
* C31 (PageProps.v): `c31_reads_partial`, `c31_reads_refuted`, `c31_huge_update_refuted`
* C32 (PageProps.v): `c32_round_trip_partial`, `c32_header_round_trip`, `c32_round_trip_refuted`
* C33 (TheapProps.v): `c33_heap_partial`, `c33_links_partial`, `c33_insert_accepted_partial`, `c33_reported_rid_partial`, `c33_first_insert_refuted`, `c33_reported_rid_refuted`, `c33_grow_refuted`
* C34 (WalProps.v): `wal_commit_durable_partial`, `wal_commit_durable_refuted`, `wal_first_commit_refuted`, `wal_commit_lost_when_stopped`
* C35 (WalProps.v): `wal_lsns_partial`, `wal_lsns_restart`, `wal_lsns_refuted`
* C36 (WrecProps.v): `log_reads_back`, `log_reads_back_torn`, `log_after_torn_refuted`, `log_long_record_refuted`
* C37 (RecProps.v): `recovery_partial`, `recovery_undoes`, `recovered_rows_unseen_refuted`, `recovery_aborted_refuted`, `recovery_second_process_refuted`
* C38 (BtreeProps.v): `c38_scan_partial`, `c38_distinct_partial`, `c38_pair_twice_refuted`, `c38_odd_order_refuted`, `c38_null_refuted`
* C39 (BtreeDelProps.v): `c39_deletes_partial`, `c39_first_delete_partial`, `c39_missed_refuted`, `c39_order_refuted`
* C40 (IdxProps.v): `c40_full_partial`, `c40_range_partial`, `c40_seek_partial`, `c40_endless_refuted`, `c40_reset_refuted`
* C41 (IdxProps.v): `c41_bounds_partial`, `c41_scan_partial`, `c41_point_lookup`, `c41_one_sided_refuted`, `c41_or_refuted`, `c41_and_or_refuted`, `c41_other_column_refuted`, `c41_endless_refuted`
* C42 (HtabProps.v): `hash_index_partial`, `hash_index_refuses_partial`, `hash_index_split_refuted`, `hash_index_remove_refuted`, `hash_index_evicted_refuted`
* C43 (ExecProps.v): `c43_limit_offset`, `c43_limit_offset_errors`
* C44 (ExecProps.v): `c44_order_by`, `c44_order_by_terminates`, `c44_child_error_refuted`
* C45 (TopnProps.v): `c45_topn_largest_partial`, `c45_topn_terminates`, `c45_order_refuted`, `c45_ascending_refuted`, `c45_null_refuted`, `c45_child_error_refuted`
* C46 (ExecProps.v): `c46_distinct_partial`, `c46_null_collision_refuted`
* C47 (JoinProps.v): `c47_inner`, `c47_cross`, `c47_left`, `c47_right_partial`, `c47_full_partial`, `c47_right_full_sound`, `c47_errors_reported`, `c47_right_empty_left_refuted`, `c47_right_duplicates_refuted`
* C48 (HashJoinProps.v): `c48_hash_join_partial`, `c48_duplicate_keys_refuted`, `c48_null_keys_refuted`, `c48_right_error_refuted`
* C49 (AggProps.v): `c49_groups_partial`, `c49_no_rows_partial`, `c49_count_null_refuted`, `c49_sum_overflow_refuted`, `c49_sum_empty_refuted`, `c49_error_skips_refuted`, `c49_child_error_refuted`
* C50 (ExecProps.v, ExprProps.v): `c50_where_logic`, `c50_where_partial`, `c50_between`, `c50_null_arith_refuted`, `c50_case_unknown_refuted`, `c50_in_char_refuted`, `c50_distinct_width_refuted`, `c50_filter_executor`
* C51 (InsProps.v): `insert_values_partial`, `insert_bulk_partial`, `rows_have_arity`, `generated_keys_fresh`, `insert_null_refuted`, `insert_default_refuted`, `generated_key_clash_refuted`, `generated_key_type_refuted`
* C52 (IoqProps.v): `c52_acked_partial`, `c52_sole_partial`, `c52_overtaken_refuted`, `c52_workers_refuted`
* C53 (SessProps.v): `commit_reports_partial`, `commit_flush_failure_refuted`, `commit_big_transaction_refuted`, `commit_unstamped_refuted`, `commit_after_abort_refuted`
* C54 (ExprProps.v): `c54_arith_exact`, `c54_arith_total`, `c54_neg_partial`, `c54_neg_refuted`
* C55 (LikeProps.v): `c55_like_partial`, `c55_answer_right_partial`, `c55_non_ascii_refuted`, `c55_null_refuted`
* C56 (OptProps.v): `c56_optimize_partial`, `c56_fresh_index_partial`, `c56_projection_refuted`, `c56_index_refuted`, `c56_topn_refuted`
* C57 (JoinProps.v): `c57_on_condition_partial`, `c57_swapped_refuted`, `c57_one_table_refuted`
* C58 (LockProps.v): `c58_reports_are_deadlocks_partial`, `c58_false_report_refuted`, `c58_missed_deadlock_refuted`
* C59 (LockProps.v): `c59_unlock_hangs`, `c59_unlock_with_waiters_refuted`, `c59_dead_upgrade_refuted`
* C60 (LockProps.v): `c60_lock_stays`, `c60_own_request_refuted`, `c60_waiting_upgrade_refuted`
* C61 (MvccProps.v): `c61_own_rows_partial`, `c29_no_overwrite_partial`, `c61_sql_update_own_row_refuted`, `c61_sql_update_others_row_refuted`
* C62 (PageProps.v): `c62_image_after_insert_partial`, `c62_reload_refuted`, `c62_stale_image_refuted`
* C63 (DiskProps.v): `c63_returns_partial`, `c63_miss_refuted`, `c63_restart_refuted`, `c63_dedup_refuted`
* C64 (IoqProps.v): `c64_order_partial`, `c64_workers_refuted`, `c64_timeout_refuted`
* C65 (IoqProps.v): `c65_read`
* C66 (WrecProps.v): `log_read_at_partial`, `log_read_at_refuted`
* C67 (SessProps.v): `session_one_transaction_partial`, `session_statement_partial`, `session_rollback_partial`, `autocommit_insert_partial`, `session_sql_begin_refuted`, `session_sql_begin_leaks_refuted`, `session_sql_commit_refuted`
* C68 (InsProps.v): `insert_columns_partial`, `insert_select_ignores_list_refuted`
* C69 (InsProps.v): `insert_foreign_key_partial`, `foreign_key_dangling_refuted`, `foreign_key_generated_refuted`
* C70 (InsProps.v): `failed_insert_partial`, `failed_insert_refuted`
* C71 (InsProps.v): `generated_keys_unique_partial`, `insert_duplicate_refuted`
* C72 (CompProps.v): `compress_coded_partial`, `compress_none_partial`, `compress_none_ff_refuted`, `compress_none_run_refuted`, `compress_none_drop_refuted`, `compress_none_magic_refuted`, `compress_none_zeros_refuted`
* C73 (FioProps.v): `read_into_exact`, `read_new_exact_partial`, `read_new_length_refuted`, `read_into_succeeds_partial`, `read_tail_refuted`, `write_exact`, `write_then_read`
* C74 (FioProps.v): `write_page_partial`, `read_page_exact`, `read_page_succeeds`, `append_read_back`, `write_page_block_refuted`, `write_page_wrap_refuted`
* C75 (UpdProps.v): `update_exact_partial`, `delete_exact_partial`, `update_own_row_refuted`, `update_halfway_refuted`, `update_others_row_refuted`
* C76 (CastProps.v): `cast_integers`, `cast_text_round_trip`, `cast_typed`, `cast_null_own`, `cast_decimal_partial`, `cast_decimal_saturates`, `cast_keeps_value_refuted`
* C77 (CastProps.v): `cast_join_agrees_partial`, `cast_where_rounds`, `cast_join_agrees_refuted`
* C78 (PtreeProps.v): `C78_paged_index_map_partial`, `C78_reachable_reads_partial`, `C78_order_one_refuted`, `C78_header_evicted_refuted`, `C78_page_evicted_refuted`, `C78_allocation_failure_refuted`
* C79 (PtreeProps.v): `C79_removal_small_partial`, `C79_removal_spared_partial`, `C79_removal_hangs_refuted`, `C79_redistribution_refuted`, `C79_order_three_refuted`
* C80 (PtreeProps.v): `C80_concurrent_inserts_partial`, `C80_concurrent_inserts_refuted`
* C81 (CatProps.v): `c81_names`, `c81_stable`, `c81_failed`, `c81_if_not_exists`, `c81_oids_partial`, `c81_oid_shared_refuted`, `c81_self_reference_refuted`
* C82 (CatProps.v): `c82_rebuild_partial`, `c82_restart_forgets_refuted`, `c82_restart_refuted`, `c82_pages_reused_refuted`, `c82_rebuild_databases_refuted`, `c82_rebuilt_pages_refuted`, `c82_rebuilt_rows_refuted`
* C83 (CatProps.v): `c83_index_partial`, `c83_composite_refuted`, `c83_deleted_refuted`
* C84 (SubqProps.v): `c84_any_partial`, `c84_all_partial`, `c84_all_no_null_partial`, `c84_in_constants_partial`, `c84_all_null_first_refuted`, `c84_all_order_refuted`, `c84_in_expressions_refuted`
* C85 (SubqProps.v): `c85_constant_item_partial`, `c85_subquery_blind_refuted`, `c85_exists_constant_refuted`, `c85_in_subquery_refuted`, `c85_scalar_refuted`
* C86 (StrProps.v): `c86_substring_partial`, `c86_substring_bytes_refuted`, `c86_substring_bigint_refuted`, `c86_position_partial`, `c86_position_bytes_refuted`, `c86_position_substring_partial`, `c86_overlay_partial`, `c86_overlay_refuted`, `c86_null_partial`
* C87 (StrProps.v): `c87_trim_partial`, `c87_trim_what_refuted`, `c87_case_partial`, `c87_functions_refuted`
* C88 (NetProps.v): `c88_messages_partial`, `c88_one_read_partial`, `c88_one_read_possible_partial`, `c88_cut_request_partial`, `c88_long_query_refuted`, `c88_smuggled_request_refuted`, `c88_second_request_refuted`
* C89 (NetProps.v): `c89_small_answer_partial`, `c89_long_answer_refuted`, `c89_forged_answer_refuted`, `c89_stale_answer_refuted`
* C90 (NetProps.v): `c90_prepare_refuted`, `c90_execute_refuted`
* C91 (CalProps.v): `c91_floor_partial`, `c91_ceil_partial`, `c91_ceil_boundary_refuted`, `c91_2038_refuted`, `c91_plain_refuted`, `c91_integer_partial`, `c91_negative_scale_refuted`
* C92 (CalProps.v): `c92_extract_refuted`, `c92_extract_text_partial`, `c92_at_time_zone_refuted`, `c92_order_partial`, `c92_before_1970_refuted`
* C93 (NameProps.v): `c93_aliased_partial`, `c93_all_aliased_partial`, `c93_single_partial`, `c93_unqualified_partial`, `c93_on_partial`, `c93_star`, `c93_ambiguous_refuted`, `c93_unknown_table_refuted`, `c93_no_alias_refuted`, `c93_star_qualified_refuted`, `c93_duplicate_alias_refuted`, `c93_quoted_refuted`, `c93_case_refuted`
* C94 (SelProps.v): `c94_columns_partial`, `c94_canonical_partial`, `c94_position_refuted`, `c94_repeated_refuted`, `c94_alias_refuted`, `c94_bare_column_refuted`, `c94_nested_refuted`, `c94_joined_refuted`, `c94_clash_refuted`
* C95 (HavingProps.v): `c95_having_filter_partial`, `c95_order_by_output_partial`, `c95_having_count_refuted`, `c95_having_sum_refuted`, `c95_having_unlisted_refuted`, `c95_having_column_refuted`, `c95_having_not_refuted`, `c95_having_repeated_refuted`, `c95_order_by_count_refuted`, `c95_order_by_hidden_refuted`
* C96 (NumProps.v): `c96_comparable_partial`, `c96_null`, `c96_fraction_refuted`, `c96_saturates_refuted`, `c96_asymmetric_refuted`, `c96_bigint_refuted`, `c96_float_refuted`, `c96_text_refuted`
* C97 (RemProps.v): `c97_mod_integer_partial`, `c97_remainder_unique`, `c97_mod_null`, `c97_mod_literal_refuted`, `c97_mod_types_refuted`, `c97_mod_panics_refuted`, `c97_concat`, `c97_concat_null_refuted`, `c97_concat_char_refuted`
* C98 (QryProps.v): `c98_select_partial`, `c98_position_refuted`, `c98_mixed_keys_refuted`, `c98_mixed_alias_refuted`, `c98_nulls_order_refuted`, `c98_fetch_refuted`, `c98_text_name_refuted`
* C99 (FltProps.v): `c99_arith_partial`, `c99_bigint_refuted`, `c99_float_refuted`, `c99_null_refuted`, `c99_decimal_refuted`

### Which code is modelled

The header comment of each model file, which says what it models and what it simplifies:

* `AggModel.v`: The aggregation executor Models src/sql/execution/executors/aggregation_executor.rs and Value::add. Simplifications: - AVG (FltModel.v), and expressions in the select list that are not aggregates, are not modelled. - A release build: integer addition wraps (Cargo.toml's release profile). - The hash map of groups is an association list; the order in which the groups come out (drained from the hash map, sorted with a comparator that is not a total order when keys are NULL, 481-496) is any order.
* `ArrModel.v`: Array literals, subscripts and slices Models src/sql/execution/expressions/subscript_expression.rs (S), array_expression.rs (A) and their planning in src/sql/execution/expression_parser.rs (P). Simplifications: a subscript of a STRUCT or JSON value becomes a field access, which is not modelled ([plan] gives None); [usize] is 64 bits; integer negation wraps (a release build).
* `BpmModel.v`: Buffer pool manager, src/buffer/buffer_pool_manager_async.rs, with the page guards of src/storage/page/page_guard.rs and the basic page of src/storage/page/page_impl.rs. Simplifications: every page type behaves as [BasicPage] (the type only decides the tag and the type check); pin counts are natural numbers; page ids do not wrap at 2^64; the disk manager is a map that returns the bytes last written (its own behaviour is C15-C18). Each method is one atomic step here; [fetch_find]/[fetch_pin] and [load_begin]/[load_end] are the parts a concurrent caller can come between.
* `BtreeModel.v`: The in-memory B+-tree index Models src/storage/index/b_plus_tree.rs. Simplifications, for the whole file: - Keys and RIDs of a leaf are two parallel vectors in the code, always changed at the same positions; here a leaf has one list of pairs. - Internal nodes are never shared (each is the child of one node), so they are tree constructors; leaves are shared (a leaf is also the [next_leaf] of another), so they live in a store and the tree holds their addresses. When the root is replaced by a copy of its first child (rebalance_after_delete, 888-908) the copy keeps the address. - A panic, or a loop that never ends, is [None]. - The locks are left out: every operation runs alone.
* `BwModel.v`: BETWEEN and IN over a column and literals Models src/sql/execution/expression_parser.rs (P), src/sql/execution/expressions/in_expression.rs (I) and logic_expression.rs (L). A column's value has the column's type (see C119 for when it has). The comparisons are NumModel's.
* `CalModel.v`: CEIL and FLOOR of timestamps, EXTRACT, AT TIME ZONE, timestamp literals Models src/sql/execution/expressions/ceil_floor_expression.rs, extract_expression.rs, at_timezone_expression.rs, typed_string_expression.rs and the parts of src/sql/execution/expression_parser.rs that build them. Machine integers are [Z] with the truncations written out. Not modelled: DECIMAL arguments of CEIL and FLOOR (floating point), error texts.
* `CaseModel.v`: CASE (src/sql/execution/expressions/case_expression.rs, literal_value_expression.rs:27-56) Simplifications: a subexpression is its return type and what it evaluates to on a row (or on the two rows of a join); values and their == are those of VordModel.v; the messages of errors and the log are left out.
* `CastModel.v`: Casts src/types_db/value.rs:408-1124 (V), cast_to, and src/sql/execution/expressions/cast_expression.rs (E), for the types of CastSpec.v (binary, JSON, UUID, enum, point, array, vector and struct are left out). Decimals and floats are finite. Parameters: how a decimal is printed and parsed, how an f64 is rounded to an f32, and what chrono makes of a text that is not a number.
* `CatModel.v`: The catalog: databases, tables and indexes by name and by OID Models src/catalog/database.rs, the parts of src/catalog/catalog_impl.rs and src/catalog/system_catalog.rs that SQL statements and start-up reach, and the registration of tables with the transaction manager (src/concurrency/transaction_manager.rs:1163-1166). Simplifications: - A column is its name and the column its foreign key refers to, if any. - A table's heap is known by its first page. The buffer pool hands out page numbers in order (src/buffer/buffer_pool_manager_async.rs:423-445, 1085-1087); whether it has a free frame when asked for a page is an argument of the call. - The rows of the system tables are kept as a list, in the order a scan returns them; whether a row could be stored is an argument of the call (the outcome is ignored, 756 and 795). Encoding a schema with postcard and decoding it again gives it back. - 64-bit counters do not wrap around.
* `CixModel.v`: CREATE INDEX, from the statement to the catalog Models src/sql/planner/plan_builder.rs:1396-1447 (P), src/sql/planner/logical_plan.rs (the plan carries the fields over), src/sql/execution/executors/create_index_executor.rs:192-276 (E), src/catalog/database.rs:478-550 (D) and src/sql/execution/execution_engine.rs:433-479. Simplifications: one database; a table is its name and columns (table names are unique, C81); the entries of the new index are left out (C83); columns are plain names, since any other item's text is no column's name and is refused alike. Storing the definition in the system catalog is left out (C82).
* `ClauseModel.v`: The plans of DELETE, UPDATE and INSERT ... SELECT Models build_delete_plan, build_update_plan and build_insert_plan of src/sql/planner/plan_builder.rs (P), and what the executors do with the plans. Simplifications: [parses e] is whether an expression can be resolved against the table's schema, [cols t] the columns of table [t] (None: no such table); RETURNING and ON CONFLICT are texts. The executors are those of C75 and C68, taken over a plain list of rows: src/sql/execution/executors/ delete_executor.rs, update_executor.rs and insert_executor.rs drain their child and treat every row.
* `CmdModel.v`: The statements carried out as commands Models src/sql/planner/query_planner.rs:363-514 (Q), src/sql/planner/plan_builder.rs:1879-2420 and 2666-2998 (P), src/sql/planner/logical_plan.rs:3385-3547 (L), src/sql/execution/executors/command_executor.rs:111-311 (X), src/sql/execution/executors/rollback_transaction_executor.rs:303-347 (R), src/sql/execution/execution_engine.rs:564-640 (E) and src/catalog/catalog_impl.rs:365-393 (C). Simplifications: the query of a view is given by its columns or by None if it cannot be planned; the text of an ALTER VIEW after its name is left out (it is only shown); so are ONLY, ON CLUSTER, LOCATION, CASCADE and the words a change repeats; the parser gives every name at least one part; the transaction's rows are a list, [Write] adds one and aborting it gives back the rows it started with (both are modelled elsewhere); the optimizer passes commands on.
* `CompModel.v`: The compression engine src/storage/disk/async_disk/compression.rs (C). Bytes are [N]s. The crates lz4_flex and zstd are parameters: an encoder, and a decoder that fails ([None]) on input it does not accept, which makes C panic (expect, 129 and 135). The statistics (C 74-81) do not influence the bytes and are left out.
* `ConvModel.v`: CONVERT and TRY_CONVERT, from the statement to the value: /repo/src/sql/execution/expression_parser.rs:1010-1067 and /repo/src/sql/execution/expressions/convert_expression.rs. The value converted is taken as already evaluated. The styles are parsed and kept, and nothing reads them: they are left out.
* `CvalModel.v`: The constraint validator (src/catalog/constraints.rs) Models ConstraintValidator (223-442). Simplifications: values are NULL or integers (of one type), whose text is a faithful key (343); the set of violations is reduced to whether there is one; the entries of a map are a list, newest first. Rows have as many values as the schema has columns.
* `DdlModel.v`: CREATE TABLE: from the statement to the recorded columns Models build_create_table_plan and process_table_constraints of src/sql/planner/plan_builder.rs (P), convert_column_defs and what it calls of src/sql/planner/schema_manager.rs (M), and the builder of src/catalog/column.rs (C). Simplifications: a default value is its text (M 532: Value::new of the printed expression); column offsets are left out; of the SQL types those of DdlSpec.v.
* `DirhModel.v`: The directory page of the extendible hash table Models the rest of src/storage/page/page_types/extendable_hash_table_directory_page.rs (DP); growing, splitting through update_directory_for_split and merging are in HtabModel.v, with the simplifications named there. Assertions that fail make [verify_integrity] false.
* `DiskModel.v`: The disk manager: write path, page cache and reads src/storage/disk/async_disk/manager.rs (M), memory/write_manager.rs (W), cache/cache_manager.rs (C), memory/durability_manager.rs (D) and memory/flush_coordinator.rs (F). The coalescing engine is left out: it hands back the content it is given and fails only on empty content (theorem c18_latest). The file is a map of pages; its durability is the subject of C52. The tiers of the cache are maps from which any pages may leave whenever a page is inserted. Compression is off or the identity.
* `DlModel.v`: Date and time literals: their values, INSERT and comparisons Models src/sql/execution/expressions/typed_string_expression.rs (T), src/sql/execution/plans/values_plan.rs (V), the planning of comparisons in src/sql/execution/expression_parser.rs (P) and comparison_expression.rs (C). The chrono parsers are the readings of a [calendar]; the float and decimal readers of cast_to are parameters. None is an error.
* `DspModel.v`: Model: how results are shown (C114) Models Display for Value (/repo/src/types_db/value.rs:2252-2275), Value::format_with_column_context (1277-1304), the to_string of the type objects in /repo/src/types_db/*_type.rs and CliResultWriter (/repo/src/common/result_writer.rs:288-412). Text is a list of Unicode scalar values. Left out: FLOAT, POINT and STRUCT values, the values NaN, infinity and minus zero of DECIMAL, and the drawing of the table (prettytable).
* `EjModel.v`: Evaluation over one row and over two ExpressionOps::evaluate and evaluate_join in src/sql/execution/expressions/. None is an error.
* `ExecModel.v`: Pull-based executors: LIMIT, OFFSET, WHERE, DISTINCT, ORDER BY Models src/sql/execution/executors/{limit,offset,filter,distinct,sort}_executor.rs. Simplifications, for the whole file: - An executor is its [next] function on an explicit state; [Ok(Some(..))], [Ok(None)] and [Err(..)] are [ORow], [ODone] and [OFail]. - A caller drains an executor until it answers [Ok(None)] or [Err(..)] (src/sql/execution/execution_engine.rs:660-681): [produces] is that drained output. - [init] is folded into the initial state; all five executors initialise their child exactly once. - Schemas are left out; a tuple is its row of values (with the RID where a type variable [T] stands for the pair).
* `ExprModel.v`: Values and SQL expressions Models src/types_db/value.rs (comparison, cast and ordering of values) and the expression evaluators in src/sql/execution/expressions/. Simplifications, for the whole file: - Only NULL, booleans, the four integer types, VARCHAR and CHAR values are modelled. Floats, decimals, temporal values, binary, JSON, UUID, enums, points, vectors and structs are not. - A value's type id is the one its constructor has (src/types_db/value.rs:53-80); NULLs carry no type. - Integers are mathematical integers; [in_range] says which of them a type holds. - Strings are byte strings; Rust compares strings bytewise.
* `FifoModel.v`: FIFO cache. Models src/storage/disk/async_disk/cache/fifo.rs. Keys are [N], standing for any [Eq + Hash] key; reference counting of keys and values ([Arc]) is not modelled.
* `FioModel.v`: Positioned file I/O src/storage/disk/direct_io.rs (D) and src/storage/disk/async_disk/io/executor.rs (X), on Linux. What the kernel does is an argument: the oracle says for each system call how many bytes it transfers ([None]: the call fails); when it runs out, the kernel transfers all it can. Offsets stay below 2^63 (the kernel refuses others), except that the multiplication of X 418 and 461 wraps at 2^64, as in a release build. Sizes do not overflow (D 411 panics).
* `FltModel.v`: Arithmetic with fractions, and AVG Models the fractional half of src/sql/execution/expressions/arithmetic_expression.rs (A), add and divide of src/types_db/value.rs (V), and AVG in src/sql/execution/executors/aggregation_executor.rs (G). Decimals (f64) and floats (f32) are [n / 2^k] as in CastModel: infinities, NaN, the sign of zero and the limits of the exponent (results above 2^1023 or below 2^-1022 in size, 2^127 and 2^-126 for a float) are left out.
* `HashJoinModel.v`: The hash join executor Models src/sql/execution/executors/hash_join_executor.rs. Simplifications: - The hash table is a list of entries searched from the oldest on, which is what DiskExtendableHashTable::get_value answers while it loses nothing (src/container/disk_extendable_hash_table.rs:456-498 and the bucket's lookup, the first entry with the key); insertions do not fail. - The key expressions are functions; a left or right tuple is its row of values, a right tuple with its RID.
* `HblkModel.v`: The hash block page Models src/storage/page/page_types/hash_table_block_page.rs (B); hash_table_bucket_page.rs (K) has the same code in another order, its lines are given in brackets; hash_table_page_defs.rs (D). The comparator and the values' equality are parameters.
* `HngModel.v`: HAVING without groups Models src/sql/planner/plan_builder.rs:488-674 for a SELECT without GROUP BY whose SELECT list has no aggregate: 660-673 put a filter above the projection whose columns are the positions of the table's columns. The plans and their running are those of QryModel.v (its simplifications apply; conditions with aggregates are not modelled).
* `HtabModel.v`: The extendible hash table src/container/disk_extendable_hash_table.rs (H); src/storage/page/page_types/extendable_hash_table_{header,directory,bucket}_page.rs (HP, DP, BP). Fetching a page that is in the buffer pool succeeds; whether a new page can be allocated is an argument; page numbers are not used twice (C14). The keys' type, equality and hash function are parameters. Arrays of the directory are functions of the index: with a maximal depth of at most 9 no index reaches the end. One thread.
* `IdxModel.v`: Iterating over an index, and index scans Models src/storage/index/index_iterator_mem.rs and src/sql/execution/executors/index_scan_executor.rs. Simplifications: - A bound is its key; bound tuples without the key attribute (an error, 228-250) are left out. Index scans build bounds with a single column, so the index is on the first column. - The index does not change while it is iterated over. - A panic of the index is [None].
* `InsModel.v`: INSERT, UPDATE and DELETE and the constraints of a table Models the insert path: src/sql/planner/plan_builder.rs (build_insert_plan, build_values_plan), src/sql/planner/schema_manager.rs (map_values_to_schema, parse_column_options' effect on the columns), src/sql/execution/executors/insert_executor.rs, update_executor.rs and delete_executor.rs, src/storage/table/transactional_table_heap.rs (insert_tuple_from_values, bulk_insert_tuples_from_values_async), src/storage/table/table_heap.rs (expand_values_for_schema) and the creation of tables in src/catalog/database.rs. Simplified: one transaction at a time, so that the rows of a table are those it sees (MvccModel.v has the versions); the rows are in a list (TheapModel.v has the pages); the expressions of a VALUES row, of a WHERE clause and of an assignment are given by their results; whether the heap takes a row (locks, space, conflicts) is an argument of each operation; of the types, six. catalog/constraints.rs (ConstraintValidator) is not modelled: nothing outside that file refers to it.
* `IoqModel.v`: The I/O engine: priority queue, workers, completion tracker and executor src/storage/disk/async_disk/io/operations.rs (O), queue.rs (Q), worker.rs (W), completion.rs (C), executor.rs (X) and io_impl.rs (I). Log operations have a file of their own and are left out (the log is C34-C37). The file is a map of pages in two layers: what the operating system holds and what is on the device; a page is tagged with the call that wrote it, which the code does not have. A failed page write leaves the page as it was or with the new content (no torn pages). A page that was never written reads as an error. Shutting down is left out.
* `IpModel.v`: Model: index pages as bytes (C112) Models /repo/src/storage/page/page_types/b_plus_tree_leaf_page.rs (L), b_plus_tree_internal_page.rs (I) and b_plus_tree_header_page.rs (H), and the way the buffer pool (/repo/src/buffer/buffer_pool_manager_async.rs, P) writes pages and reads them. [None] is a panic. Left out: pin counts, dirty flags, page ids, logging and printing. usize is 64 bits wide and the machine little-endian.
* `JfModel.v`: Field access on structs and JSON texts Models src/sql/execution/expressions/map_access_expression.rs (M), struct_expression.rs (T) and their planning in src/sql/execution/expression_parser.rs (P). The JSON reader and writer (serde_json::from_str, to_string) are the parameters [reads] and [writes]. None is an error. Simplification: the members of an object are a list (serde's Map).
* `JoinModel.v`: Joins: the nested-loop join executor and the planner's join condition Models src/sql/execution/executors/nested_loop_join_executor.rs and extract_join_keys of src/sql/planner/logical_plan.rs. Simplifications: - A tuple is its row of values; RIDs and schemas are left out, a schema being its number of columns where that matters. - The two children are given by their drained answers. The right child is executed anew for every left row (reset_right_executor, lines 900-916) and answers the same each time. - The loops of [next] and [execute_main_join] are run one iteration at a time ([jstep]); [drains] repeats it the way the engine does (see [ExecModel.produces]). An iteration that reads a left row stops there and the one that finds the right side exhausted goes straight to the exhausted branch.
* `LfuModel.v`: LFU caches. Models src/storage/disk/async_disk/cache/lfu.rs and heap_lfu.rs. Where the code iterates over a [HashMap] the order is arbitrary: the model takes the enumeration [it] as an argument and is meaningful when [it] is a permutation of the map's entries. Counters are unbounded [N].
* `LikeModel.v`: LIKE patterns Models src/sql/execution/expressions/like_expression.rs. A string is the list of its characters (Unicode scalar values). The parser gives no character class: LIKE and ILIKE both compare ignoring ASCII case (src/sql/execution/expression_parser.rs:1525-1569).
* `LockModel.v`: The lock manager Models src/concurrency/lock_manager.rs: request queues, table and row locks, the isolation-level checks and the deadlock detector. Simplifications, for the whole file: - Every public operation holds the map mutex and the queue mutex while it works, so it is one atomic step; waiting on the condition variable is left to the caller (the code's lock calls return Ok(false) instead of blocking). - INVALID_TXN_ID as a marker is [None]. - The detector thread is an operation of its own, [ODetect], that may happen at any time. - What the transaction manager does to a transaction's state around these calls is [OBegin], [OCommit] and [OAbort].
* `LruModel.v`: LRU cache with a doubly linked list of heap nodes. Models src/storage/disk/async_disk/cache/lru.rs ([LRUCore]). Heap memory is a finite map from addresses to nodes. Every raw-pointer access ([*node.as_ptr()], [Box::from_raw]) goes through the map; reaching an address that is not allocated is undefined behaviour and makes the whole call return [None]. Keys are [N]; [Arc] reference counts are not modelled. The debug-only [validate_invariants] (580-612) is not part of the model: what it asserts is proved instead.
* `LrukModel.v`: LRU-K cache and frame replacer. Models src/storage/disk/async_disk/cache/lru_k.rs and src/buffer/lru_k_replacer.rs. Clock readings are arguments. Hash-map iteration orders are arguments ([it]).
* `MetModel.v`: The figures kept about disk operations Models src/storage/disk/async_disk/metrics/collector.rs (K), src/storage/disk/async_disk/metrics/live_metrics.rs:80-140 (the initial values), src/storage/disk/async_disk/manager.rs:421-556 (M, what a read records) and src/storage/disk/async_disk/io/metrics.rs (I). Simplifications: the clock is given; the rank of a percentile, computed in floating point (K 486), is given; ratios compared with 0.5 and 0.8 are compared exactly; throughput and rates in floating point are left out; record_batch_operation (K 169-187), which nothing calls, is left out.
* `MthModel.v`: Methods called on values: /repo/src/sql/execution/expressions/method_expression.rs. The object and the arguments are taken as already evaluated (lines 48-52). A text is the list of its characters: the two characters the code looks for take one byte each, so slicing between them by bytes and by characters is the same.
* `MvccModel.v`: Multi-version rows Models the transactional operations of src/storage/table/transactional_table_heap.rs, src/concurrency/transaction_manager.rs and src/concurrency/transaction.rs on rows. A tuple's contents are never inspected here; they are numbers. A table page is the map from RIDs to metadata and tuple; what can go wrong inside a page (no room, ...) is not modelled here but in PageModel.v.
* `NameModel.v`: Model of column name resolution (C93): how the planner names the columns of a FROM clause and how it finds the column an identifier stands for.
* `NetModel.v`: The wire protocol: requests, responses, the server's and the client's read loops Models src/server/protocol.rs (P), src/server/connection.rs (S), src/client/client_impl.rs (C) and the part of src/common/db_instance.rs (D) that answers requests about prepared statements. Messages are serialised with the postcard crate: its wire format (varints, zigzag, length prefixes) is modelled here from its specification, since the crate is not part of the repository. Simplifications: the values of a message are modelled without nesting (no Val::Vector, Val::Array, struct_data); a float is its bit pattern; a string is its UTF-8 bytes; the texts of error messages made by the server itself are left out; a read or write of the socket that fails ends the connection and is not modelled.
* `NijModel.v`: The nested index join executor Models src/sql/execution/executors/nested_index_join_executor.rs (J), on top of the index scans of IdxModel.v. Simplifications: - A tuple is its row of values. The left child is given by its drained answers, the right table by its visible rows in the order of a scan. - The executor of the right side is its remaining answers; it does not change while it is read. - Of an index: how many columns it has, the position of its column, the tree.
* `NumModel.v`: Comparisons between values of any two types (C96) Casts are CastModel's; decimals and floats are finite.
* `OptModel.v`: The optimizer's rewriting of plans Models src/sql/optimizer/optimizer_impl.rs:249-300 and the phases it runs, on the plan nodes they look at; every other node is [PUnary] or [PBinary] with the relation between what its children produce and what it produces. Simplifications: - Schemas, names and costs are left out. A node has the number of children its executor needs. - A failing plan is one whose answer ends in [Fail]; validation (1183-1234), which can only refuse a plan, is left out. - CREATE INDEX and the constraint indexes made on the first scan (325-361) put the rows the table has at that moment into the index (src/catalog/database.rs:478-537, 634-690); INSERT does not touch indexes (no caller of BPlusTree::insert outside that function). Updates and deletes are not modelled here.
* `OrdModel.v`: Comparing values Models src/types_db/value.rs:1312-1630 (V; the six comparisons, where no decimal or float is involved), 1946-1960 (min and max), 2310-2380 (== and the order used for sorting) and the comparisons derived for Val (V 10-34). Simplifications: decimals, floats, points and structs are left out (see NumModel.v and FltModel.v); of the integers there is one size; the type a value carries is that of its content, for a NULL that of the column. The arms of V for numbers of different types do not apply.
* `PageModel.v`: Table pages Models src/storage/page/page_types/table_page.rs. A tuple is the byte string postcard gives for it; a page's 4096 bytes are a function from positions to bytes, of which only positions below 4096 are ever used (proved: the slots stay in the page).
* `PchkModel.v`: The paged index's own checks and traversals src/storage/index/b_plus_tree_index.rs (B), over the pages of PtreeModel.v. A call that follows a cycle of pages never returns (a loop without end, or the stack overflows): a path longer than the number of pages is a cycle.
* `PmonModel.v`: The performance monitor: /repo/src/common/performance_monitor.rs. Modelled: the counters of the buffer pool, the disk, the locks and the version chains, and the scores of the buffer pool, the disk and the locks. Simplified: the counters do not wrap at 2^64, and the scores are rationals where the code has f64.
* `PtreeModel.v`: The paged B+-tree index src/storage/index/b_plus_tree_index.rs (B), src/storage/page/page_types/b_plus_tree_leaf_page.rs (L), b_plus_tree_internal_page.rs (I), b_plus_tree_header_page.rs (H) and latch_crabbing.rs (C). Simplifications, for the whole file: - Keys and values are integers, compared as such (the comparator is a total order). - A leaf's keys and values are two parallel vectors, always changed at the same positions; here one list of pairs. The [size] fields always equal the number of keys and are left out; so are pin counts and dirty flags. - Page latches are left out, except that taking the write latch of a page twice in one call never returns. - A page the buffer pool has evicted is [Gone]: fetching a leaf or an internal page that is not in memory calls Page::new, which is unimplemented!() (L 563-566, I 910-915). A deleted page is absent, and fetching it is an error. - delete_page succeeds. How many pages can still be allocated during a call is an argument, [al].
* `QclModel.v`: Planning of whole queries (C122) Models src/sql/planner/plan_builder.rs: build_query_plan (299-443) with its bodies and tail, and the parts of build_select_plan_with_order_by (488-803) that decide which clauses are read. The planner reads [query.body], [query.order_by], [query.limit_clause] and [query.fetch], and of a SELECT its distinct, from, group_by, having, projection, selection and sort_by; the other fields of the parser's tree are never mentioned there. Simplifications: - FROM is one table without an alias; GROUP BY, HAVING, window functions, VALUES and UPDATE as bodies are left out (VALUES: C123). - The planning of the SELECT itself is that of QryModel.v (C98). - ORDER BY ALL is refused by the code and left out.
* `QryModel.v`: From a SELECT without grouping to its rows (C98) Models the planning of an ungrouped SELECT over one table (src/sql/planner/plan_builder.rs: build_query_plan and build_select_plan_with_order_by) and the running of the plan on the executors of ExecModel.v. Simplifications: - FROM is one table without an alias; its rows are given. HAVING, SORT BY, TOP and window clauses are left out, as is DISTINCT ON (planned as DISTINCT). - Parsing an expression is resolving its names; the casts the parser puts around literals of comparisons are in NumModel.v (C96). - The optimizer (C56) is not run on the plan. - LIMIT, OFFSET and FETCH quantities are numbers of rows; other texts are rejected by the code.
* `RecModel.v`: Recovery: analysis, redo, undo src/recovery/log_recovery.rs (V). The log is the list of records the iterator gives (C36). A table page is its list of rows (C31); whether a page finds room for a row is up to a parameter. Pages stay in the buffer pool once fetched. Where the code walks over a hash map (V 516), the order is a parameter.
* `RemModel.v`: The operators % and || (C97) They are the only ones parsed to a BinaryOpExpression that can be planned (src/sql/execution/expression_parser.rs:418-705).
* `RidModel.v`: Record identifiers. Models src/common/rid.rs. src/common/rid.rs 204-209: [page_id : u64], [slot_num : u32].
* `SelModel.v`: Model of how a SELECT with aggregates, GROUP BY, HAVING and ORDER BY is planned and projected (C94, C95). Column lookup is NameModel's. Grouping and the values of the aggregates are C49's: here the groups and the value of every aggregate over every group are inputs.
* `SessModel.v`: Committing, rolling back and client sessions Models src/concurrency/transaction_manager_factory.rs, the commit, abort and transaction statements of src/sql/execution/execution_engine.rs and the requests of src/common/db_instance.rs, on top of the rows of MvccModel.v. Simplified: a statement is the row operations it makes, not its SQL text; the locks are the set of transactions that hold some; the log is the list of begin, commit and abort records (the row records of the executors, and the log's own failures, are left out: see WalModel.v); a request runs from start to end without another one in between.
* `ShModel.v`: Model: the interactive shells (C113) Models /repo/src/cli.rs (C) and the client loop of /repo/src/main.rs:108-239 (M). Text is ASCII: Unicode white space and lower-casing of other letters are left out. Printing, the history and the prompt are left out. What the database answers (the id of a new transaction, whether a commit succeeds) is given with the line; a statement's own failure is only printed (C 182-187, 196-200; M 215-234), so it is not modelled. display_tables never fails (db_instance.rs:685-723).
* `SimModel.v`: SIMILAR TO (src/sql/execution/expressions/regex_expression.rs, expression_parser.rs:926-954) Simplifications: a value is the text it is shown as (value.rs:2252-2275). Of the regex crate the part is modelled that the converted patterns use: one anchored sequence of characters, dots and classes; anything else is an error here.
* `StrModel.v`: String functions Models src/sql/execution/expressions/substring_expression.rs (S), trim_expression.rs (T), overlay_expression.rs (O), position_expression.rs (P), the function calls of function_expression.rs (F), and what src/sql/execution/expression_parser.rs makes of them. A string is the list of its characters (Unicode scalar values); the code works with byte offsets into its UTF-8 encoding, so the model counts bytes too. Simplifications: CHAR and VARCHAR values are one kind of string; of the other types only integers are told apart; the operands are given by their values, so an operand whose evaluation fails is left out; evaluate_join, the copy of each evaluator that takes two tuples, is left out; of UPPER and LOWER only the ASCII letters are modelled; no string has 2^31 bytes or more.
* `StxModel.v`: START TRANSACTION, from the statement to the transaction Models src/sql/planner/plan_builder.rs:1775-1845 (P), src/sql/planner/logical_plan.rs:3361-3377 and src/sql/execution/executors/start_transaction_executor.rs:277-347, on top of SessModel.v. Simplifications: those of SessModel.v; the transaction manager is not shut down.
* `SubqModel.v`: Quantified comparisons, IN lists and subqueries Models src/sql/execution/expressions/{any,all,in,exists,subquery,array}_expression.rs and the parts of src/sql/execution/expression_parser.rs that build them, on top of the scalar expressions of ExprModel. Simplifications, for the whole file: - A name has already been resolved: [ECol i] in the select list of a subquery is the i-th column of the first table of its FROM clause, which is the schema parse_setexpr resolves it with (expression_parser.rs:3178-3202). - FROM has one table; a subquery without FROM, with a derived table, with a set operation or with several select items (an error, 2302-2304) is left out. - The aggregate functions of a select list are one constructor, since evaluation never gets as far as telling them apart. - evaluate_join, the copy of each evaluator that takes two tuples, is left out.
* `TheapModel.v`: Table heaps: chains of table pages, and scans over them Models src/storage/table/table_heap.rs and src/storage/table/table_iterator.rs. The heap's pages are taken to stay in the buffer pool (what happens to pages that leave it is C62), so fetching one of them succeeds; whether the buffer pool has a page to give when a new one is asked for, and which, is an argument of each insert.
* `TopgModel.v`: The executors for the first n rows of every group and for window functions Models src/sql/execution/executors/topn_per_group_executor.rs (T) and window_executor.rs (W), and how src/sql/planner/logical_plan.rs (L) makes their plans. Simplifications: schemas are left out and a tuple is its row of values. The hash map of groups is an association list; the order in which the code walks over its keys is an argument, any permutation of them. Rust's [sort_by] may panic on a comparison that is not an order (NULL keys); here it sorts by insertion.
* `TopnModel.v`: The TopN executor Models src/sql/execution/executors/topn_executor.rs, including the array that Rust's [BinaryHeap] keeps, because the executor returns rows in that array's order. Simplifications: schemas are left out and a tuple is its row of values; a sort key that fails to evaluate makes the code panic ([unwrap]), here [keys_of] answers [None].
* `UpdModel.v`: UPDATE and DELETE statements src/sql/execution/executors/update_executor.rs (U), delete_executor.rs (D), filter over seq_scan_executor.rs:393-424 and src/storage/table/table_iterator.rs:443-471, on the rows of MvccModel.v. [slots] are the slots of the table in the order of the iterator; each is read when the scan comes to it. [pick] is the WHERE clause as the filter applies it, [f] gives the row with the assignments made ([None]: an evaluation error). That an updated row can be too large for its page (a refusal) is left out.
* `VordModel.v`: Equality, order and hash of values (src/types_db/value.rs:2288-2425) Simplifications: the bits of a float are the float as in VordSpec.v; a hash is the list of the words fed to the hasher (a text is fed as a whole).
* `VqModel.v`: VALUES as a query Models src/sql/planner/plan_builder.rs:306-309 and 3291-3316 (P), src/sql/planner/schema_manager.rs:381-397 and 1025-1040 (S), src/sql/execution/expressions/literal_value_expression.rs:28-56 (L), src/sql/execution/plans/values_plan.rs:111-160 (N), src/sql/execution/executors/values_executor.rs (X) and the loop of src/sql/execution/execution_engine.rs:632-680 that writes the rows. Simplifications: an expression that is no literal is given by its value (its evaluation on the row of NULLs of N 115-128 has no error); ORDER BY and LIMIT around the VALUES are C122's; decimals are finite; the optimizer is not run.
* `WalModel.v`: The log manager: appending, the flush task, crashes and restarts src/recovery/log_manager.rs (L), the log's part of src/storage/disk/async_disk/manager.rs (M) and io/executor.rs (X), and what src/common/db_instance.rs:445-521 does with them when a database is opened. The log file is a list of records (its bytes are C36) in two layers: what is on the device and what the operating system still holds. Writing a record that fails leaves nothing or a torn record. A sync that fails leaves the operating system's part as it was. The fsync policy is any but Never (with Never, M 1010 makes the sync do nothing; opening a database uses OnFlush).
* `WatermarkModel.v`: Timestamp oracle and watermark. Models src/concurrency/watermark.rs and the timestamp part of src/concurrency/transaction.rs and src/concurrency/transaction_manager.rs.
* `WbufModel.v`: The write staging buffer, the coalescing engine and the size analyzer src/storage/disk/async_disk/memory/write_staging_buffer.rs (S), coalescing/engine.rs (E) and coalescing/size_analyzer.rs (A). Counters are unbounded numbers; they stay below the buffer's maximum or count writes. Compression is the identity in the code (S 391-418).
* `WrecModel.v`: The log file's bytes: writing and reading records src/recovery/log_record.rs (R), src/recovery/log_iterator.rs (I), read_log_record of src/recovery/log_manager.rs (L), with the log reads of src/storage/disk/async_disk (executor.rs:522-534: read_exact, which fails if the file is too short; the worker passes the error on as a message that starts with "UnexpectedEof", which is_eof_error, I 246, recognises). Bytes are [N]s. Records are encoded by postcard: integers as varints (signed ones zigzagged), options with a tag byte, the type by its position. How a tuple is encoded is a parameter.

### Which code is not modelled

* The CLI (`cli.rs`, `main.rs`), the server's accept loop and shutdown, logging,
  metrics and performance monitoring: no property is stated about them. Of the
  protocol, values nested in vectors, arrays and structs.
* The SQL parser (an external crate) and most of the planner
  (`plan_builder.rs`, `logical_plan.rs`, `expression_parser.rs`): plans are the
  starting point, except for join keys (C57), the optimizer's phases (C56), the
  insert plan (C68), CREATE TABLE (C104, C105), the clauses of data-changing
  statements (C106), SELECT's clauses and what the expression parser does to
  LIKE, TRIM and subqueries.
* Infinite and NaN floats; binary, JSON, UUID, enum, point, struct and vector
  values, and the expressions over them.
* The mock executors; EXPLAIN, SHOW and similar commands.
* Of the disk-based B+-tree: metadata, printing and validation calls, and the
  byte layout of its pages.
* Panics inside external crates, memory exhaustion, poisoned locks and the
  behaviour of the operating system beyond what the operations' arguments
  (outcomes of reads, writes and syncs) express.
