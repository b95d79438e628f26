{"id": "C01", "title": "RID encodings round-trip", "statement": "Packing a RID into an i64 and unpacking gives the same RID whenever the page id fits in 32 bits, and packing fails (None) exactly when it does not; the 12-byte little-endian encoding decodes to the same RID for every RID, buffers shorter than 12 bytes are rejected, and bytes after the first 12 are ignored.", "quantifier": "all page ids (u64), slots (u32), i64 values and byte buffers", "why_tests_cant": "2^96 RIDs; only boundary values can be sampled", "anchors": ["src/common/rid.rs: RID::from_i64, RID::to_i64, RID::to_bytes_le, RID::try_deserialize"]}
{"id": "C02", "title": "Watermark is the oldest active snapshot", "statement": "At every moment the watermark equals the smallest timestamp registered by a running transaction, or the next timestamp to be issued when none is running; it never exceeds the snapshot of any running transaction; and it never moves backwards in any history in which timestamps come from the oracle.", "quantifier": "every finite history of register / unregister / next-timestamp / commit calls", "why_tests_cant": "holds for every interleaving of begins and commits, not for sampled ones", "anchors": ["src/concurrency/watermark.rs: Watermark::{get_next_ts,get_next_ts_and_register,add_txn,remove_txn,unregister_txn,update_commit_ts,update_watermark,get_watermark}"]}
{"id": "C03", "title": "Timestamps are issued once", "statement": "No two calls to the timestamp oracle in one run return the same timestamp; timestamps are issued in strictly increasing order, and a commit timestamp is strictly larger than every timestamp issued before it.", "quantifier": "every finite history of oracle calls", "why_tests_cant": "uniqueness quantifies over all pairs of calls in all histories", "anchors": ["src/concurrency/watermark.rs: get_next_ts, get_next_ts_and_register, update_commit_ts"]}
{"id": "C04", "title": "FIFO cache is a bounded map that drops the oldest insertion", "statement": "A FIFO cache never holds more than its capacity, get returns the last value inserted for a key that has not been evicted, re-inserting a key returns the old value and keeps its age, and when a new key arrives at a full cache exactly the key inserted longest ago is dropped and no other.", "quantifier": "all capacities and all sequences of insert/get/pop_oldest/clear", "why_tests_cant": "eviction order depends on the whole history", "anchors": ["src/storage/disk/async_disk/cache/fifo.rs: FIFOCache::{insert,evict_oldest,get,pop_oldest,peek_oldest,pop_oldest_batch,age_rank,clear}"]}
{"id": "C05", "title": "LRU cache drops the least recently used key", "statement": "The LRU cache, implemented with a doubly linked list and a hash map, behaves exactly like a list of entries ordered by last use and truncated to the capacity: same answers for insert/get/peek/remove/pop_lru/peek_lru/touch/recency_rank/len, links and map never disagree.", "quantifier": "all capacities and all operation sequences", "why_tests_cant": "pointer-structure consistency must hold after every history", "anchors": ["src/storage/disk/async_disk/cache/lru.rs: LRUCore::{add_to_head,remove_from_list,move_to_head,remove_tail,insert,get,remove,pop_lru,peek_lru,touch,recency_rank}"]}
{"id": "C06", "title": "LFU cache drops a least frequently used key", "statement": "An LFU cache never exceeds its capacity; when a new key arrives at a full cache the dropped key has the minimum use count among the cached ones, and all other entries keep value and count; counts equal one plus the number of successful uses since insertion.", "quantifier": "all capacities, operation sequences and hash-map iteration orders", "why_tests_cant": "the victim depends on history and on the unspecified map order", "anchors": ["src/storage/disk/async_disk/cache/lfu.rs: LFUCache::{insert,get,pop_lfu,peek_lfu,frequency,reset_frequency,increment_frequency}"]}
{"id": "C07", "title": "Heap-based LFU cache agrees with plain LFU", "statement": "The heap variant, which leaves stale entries in its priority queue, still evicts a key whose current use count is minimal, never loses or resurrects an entry because of a stale queue record, and never exceeds its capacity.", "quantifier": "all capacities (including zero) and operation sequences", "why_tests_cant": "stale heap records accumulate with history", "anchors": ["src/storage/disk/async_disk/cache/heap_lfu.rs: HeapLFUCache::{insert,get,pop_lfu,peek_lfu,frequency}"]}
{"id": "C08", "title": "LRU-K cache evicts by K-distance", "statement": "When a new key arrives at a full LRU-K cache, a key with fewer than K uses is dropped in preference to any key with K or more; among keys with K uses the one whose K-th most recent use is oldest is dropped; the rank reported for a key is its position in the eviction order.", "quantifier": "all K, capacities, operation sequences and clock readings", "why_tests_cant": "depends on full access histories", "anchors": ["src/storage/disk/async_disk/cache/lru_k.rs: LRUKCache::{insert,get,pop_lru_k,peek_lru_k,k_distance_rank}"]}
{"id": "C09", "title": "Frame replacer never evicts a pinned frame", "statement": "evict returns only a frame that is currently marked evictable, returns one whenever some frame is evictable, never returns the same frame twice without it being made evictable in between, and the reported size is exactly the number of frames that evict could still return.", "quantifier": "all operation sequences of record_access/set_evictable/evict/remove", "why_tests_cant": "the internal queue keeps stale entries, so safety depends on every history", "anchors": ["src/buffer/lru_k_replacer.rs: LRUKReplacer::{evict,record_access,set_evictable,remove,size}"]}
{"id": "C10", "title": "Frame replacer picks the LRU-K victim", "statement": "The evicted frame is an evictable frame with fewer than K recorded accesses if there is one, otherwise the evictable frame whose K-th most recent access is oldest.", "quantifier": "all histories and access times", "why_tests_cant": "victim choice quantifies over all access histories", "anchors": ["src/buffer/lru_k_replacer.rs: evict, record_access"]}
{"id": "C11", "title": "Buffer pool returns the bytes last written", "statement": "A page that has been written through a guard and released is returned by a later fetch with exactly the bytes last written, no matter how many other pages were created, fetched, flushed or evicted in between, as long as disk reads and writes succeed.", "quantifier": "all pool sizes, page counts and interleavings of new/fetch/write/unpin/flush/delete", "why_tests_cant": "eviction decisions depend on arbitrary histories", "anchors": ["src/buffer/buffer_pool_manager_async.rs: new_page, fetch_page, unpin_page, flush_page_async, evict_page_if_necessary, get_available_frame, load_page_from_disk", "src/storage/page/page_guard.rs: PageGuard"]}
{"id": "C12", "title": "A pinned page is never evicted or deleted", "statement": "While at least one guard on a page is alive the page stays in the same frame: no new_page, fetch or delete by others evicts it, moves it or deletes it; delete of a pinned page returns an error and changes nothing.", "quantifier": "all histories and pool sizes", "why_tests_cant": "safety over every history", "anchors": ["src/buffer/buffer_pool_manager_async.rs: fetch_page, unpin_page, delete_page, get_available_frame, evict_old_page", "src/buffer/lru_k_replacer.rs"]}
{"id": "C13", "title": "Frames are never leaked", "statement": "Every frame of the pool is at every moment either free or holds exactly one resident page; in particular a failed fetch (I/O error, wrong page type) gives its frame back, so the pool can always hold pool_size unpinned pages.", "quantifier": "all histories including failing disk reads", "why_tests_cant": "needs every failure point of every history", "anchors": ["src/buffer/buffer_pool_manager_async.rs: load_page_from_disk, get_available_frame, create_typed_page, delete_page"]}
{"id": "C14", "title": "Page ids are never reused for two live pages", "statement": "new_page never returns an id that denotes a page created earlier and not deleted, in the same run, through a clone of the manager, or before a restart of the database.", "quantifier": "all histories, clones and restarts", "why_tests_cant": "quantifies over restarts and clone points", "anchors": ["src/buffer/buffer_pool_manager_async.rs: new_page, Clone for BufferPoolManager, new (next_page_id initial value)"]}
{"id": "C15", "title": "A page write accepted by the disk manager is not lost", "statement": "After write_page returns Ok, the page's new content reaches the database file no later than the next successful flush, whatever the fill level of the write buffer.", "quantifier": "all write histories, buffer sizes, flush thresholds", "why_tests_cant": "the buffer-full path needs a specific fill level that tests rarely hit", "anchors": ["src/storage/disk/async_disk/memory/write_manager.rs: buffer_write, flush, force_flush", "src/storage/disk/async_disk/memory/write_staging_buffer.rs: buffer_write, drain_buffer", "src/storage/disk/async_disk/manager.rs: write_page_with_priority, flush_writes_with_durability"]}
{"id": "C16", "title": "Reads through the disk manager see the latest write", "statement": "read_page returns the content of the latest write_page for that page that returned Ok, regardless of caching, tier promotion, deduplication and pending buffered writes.", "quantifier": "all interleavings of reads and writes over all pages and contents", "why_tests_cant": "cache tier state depends on access counts and content equality across pages", "anchors": ["src/storage/disk/async_disk/manager.rs: read_page_with_priority, write_page_with_priority", "src/storage/disk/async_disk/cache/cache_manager.rs: get_page_internal, store_page, DeduplicationEngine::check_duplicate"]}
{"id": "C17", "title": "Write-buffer accounting never under-counts", "statement": "The buffered byte count is never smaller than the bytes actually buffered, the dirty-page count is exactly the number of buffered pages, and the buffered bytes never exceed the configured maximum.", "quantifier": "all write/drain histories", "why_tests_cant": "accounting drift accumulates over histories", "anchors": ["src/storage/disk/async_disk/memory/write_staging_buffer.rs: WriteStagingBuffer::{buffer_write,drain_buffer,has_space_for}"]}
{"id": "C18", "title": "Write coalescing keeps only the latest content", "statement": "Coalescing two writes to one page yields the later content, never mixes pages, never returns content other than the one just submitted, and its pending, timestamp and frequency tables always describe the same set of pages within the configured bound.", "quantifier": "all sequences of writes, sizes and clock readings", "why_tests_cant": "table agreement must hold after every sequence", "anchors": ["src/storage/disk/async_disk/memory/coalescing/engine.rs: CoalescingEngine::{try_coalesce_write,simple_cleanup,cleanup_expired,find_adjacent_pages}"]}
{"id": "C19", "title": "Page ranges cover exactly the dirty pages", "statement": "The contiguous ranges built for a set of pages cover exactly those pages, are disjoint, sorted and maximal, and the reported gaps are exactly the uncovered spaces between neighbouring ranges.", "quantifier": "all finite sets of page ids", "why_tests_cant": "combinatorial; all lengths and layouts", "anchors": ["src/storage/disk/async_disk/memory/coalescing/size_analyzer.rs: build_page_ranges, analyze_page_gaps, validate_page_ranges"]}
{"id": "C20", "title": "Granted locks are always compatible", "statement": "At no time do two different transactions hold incompatible locks on the same table or row.", "quantifier": "all histories of lock / upgrade / unlock requests by any number of transactions", "why_tests_cant": "mutual exclusion over all histories", "anchors": ["src/concurrency/lock_manager.rs: LockRequestQueue::grant_lock, compatible_with_existing_locks, are_compatible, grant_waiting_locks, release_table_lock, release_row_lock"]}
{"id": "C21", "title": "The lock compatibility matrix is the multi-granularity one", "statement": "Two lock modes are compatible exactly when the standard multi-granularity matrix says so: IS with everything but X, IX with IS/IX, S with IS/S, SIX with IS, X with nothing; compatibility is symmetric; a table mode permits a row lock exactly as documented.", "quantifier": "all pairs of modes", "why_tests_cant": "(finite, but it anchors the other lock theorems)", "anchors": ["src/concurrency/lock_manager.rs: are_compatible, lock_row checks"]}
{"id": "C22", "title": "Unlocking releases everything", "statement": "After commit or abort releases a transaction's locks, no queue contains a request of that transaction, so nobody waits for a finished transaction; and a transaction granted a lock can always unlock it.", "quantifier": "all lock histories", "why_tests_cant": "leaks depend on which path granted the lock", "anchors": ["src/concurrency/lock_manager.rs: force_release_txn, unlock_all, unlock_table, unlock_row, grant_waiting_locks"]}
{"id": "C23", "title": "Deadlock detection is sound and complete", "statement": "A victim is reported if and only if the waits-for graph contains a cycle, and the victim lies on a cycle and is the youngest (largest id) transaction of the reported cycle.", "quantifier": "all waits-for graphs", "why_tests_cant": "all graphs of any size", "anchors": ["src/concurrency/lock_manager.rs: DeadlockDetector::{add_edge,remove_edge,has_cycle,find_cycle_in_graph,dfs_cycle}"]}
{"id": "C24", "title": "Two-phase locking discipline is enforced", "statement": "Under repeatable read a transaction that has released a lock is refused every further lock; under read committed it may only take S and IS; read uncommitted never takes shared locks; a committed or aborted transaction is refused locks.", "quantifier": "all isolation levels, transaction states and modes, and all lock/unlock histories", "why_tests_cant": "must hold at every point of every history", "anchors": ["src/concurrency/lock_manager.rs: LockValidator, lock_table, lock_row, unlock_table, unlock_row"]}
{"id": "C25", "title": "A reader sees exactly the committed versions of its snapshot", "statement": "A read by a transaction returns its own latest write if it wrote the row, and otherwise the newest version committed at or before its snapshot timestamp, or nothing if there is none or that version is a deletion.", "quantifier": "all version chains, snapshots and transactions", "why_tests_cant": "all chain lengths and timestamp layouts", "anchors": ["src/storage/table/transactional_table_heap.rs: get_tuple, get_visible_version", "src/storage/table/tuple.rs: TupleMeta::visibility_status", "src/concurrency/transaction.rs: is_tuple_visible"]}
{"id": "C26", "title": "No dirty reads above read-uncommitted", "statement": "At read committed and above no read ever returns a row version written by another transaction that has not committed.", "quantifier": "all histories and isolation levels except read uncommitted", "why_tests_cant": "interleaving-dependent", "anchors": ["src/storage/table/transactional_table_heap.rs: get_tuple, get_visible_version", "src/storage/table/table_heap.rs: get_tuple_with_txn"]}
{"id": "C27", "title": "Repeated reads in a snapshot agree", "statement": "Within one repeatable-read, snapshot or serializable transaction that does not write a row, two reads of the row return the same result whatever other transactions do in between, including committing.", "quantifier": "all interleavings of other transactions' begin/write/commit/abort steps", "why_tests_cant": "commit is not atomic with respect to readers", "anchors": ["src/concurrency/transaction_manager.rs: commit", "src/storage/table/transactional_table_heap.rs: get_visible_version, update_tuple"]}
{"id": "C28", "title": "Abort restores the previous state of every row", "statement": "After a transaction aborts, every row it touched reads, for every other transaction, exactly as it did before the transaction started; rows it inserted are gone.", "quantifier": "all sequences of inserts, updates, deletes of the aborting transaction and all prior histories", "why_tests_cant": "rows written several times are the hard case", "anchors": ["src/concurrency/transaction_manager.rs: abort", "src/storage/table/transactional_table_heap.rs: update_tuple, delete_tuple"]}
{"id": "C29", "title": "First-updater-wins: no lost updates", "statement": "Two concurrent transactions at repeatable read or above cannot both update the same row and commit; the second updater is refused.", "quantifier": "all interleavings of two or more transactions", "why_tests_cant": "interleaving-dependent", "anchors": ["src/storage/table/transactional_table_heap.rs: update_tuple, delete_tuple"]}
{"id": "C30", "title": "Pruning and garbage collection keep what readers need", "statement": "Dropping finished transactions and old versions never removes undo information that some running transaction still needs to reconstruct its snapshot.", "quantifier": "all histories", "why_tests_cant": "depends on the oldest running snapshot in every history", "anchors": ["src/concurrency/transaction_manager.rs: prune_finished_transactions, garbage_collection, get_undo_log_optional"]}
{"id": "C31", "title": "A table page returns every stored tuple unchanged", "statement": "Every tuple inserted into a page and not deleted is returned by get with exactly its bytes and metadata, after any sequence of further inserts, updates and deletes on the page; failed operations change nothing.", "quantifier": "all sequences of operations, all tuple sizes", "why_tests_cant": "offset arithmetic depends on every previous operation", "anchors": ["src/storage/page/page_types/table_page.rs: insert_tuple, update_tuple, update_tuple_meta, get_tuple, get_next_tuple_offset"]}
{"id": "C32", "title": "Table pages survive the trip to disk", "statement": "Serialising a page into its 4096-byte image and deserialising it gives back the same header, slot directory, metadata and tuple bytes; the header encoding round-trips for all field values.", "quantifier": "all reachable page contents", "why_tests_cant": "all layouts", "anchors": ["src/storage/page/page_types/table_page.rs: serialize, deserialize, TablePageHeader"]}
{"id": "C33", "title": "Table heap scans return every live row once", "statement": "Following the page chain from the first page visits every tuple inserted in the heap exactly once in RID order; insert returns a RID at which get finds the tuple; page links are consistent in both directions.", "quantifier": "all insert histories and page capacities", "why_tests_cant": "page-boundary cases depend on sizes and history", "anchors": ["src/storage/table/table_heap.rs: insert_tuple, create_new_page_and_insert, get_tuple, get_num_pages, get_num_tuples", "src/storage/table/table_iterator.rs: TableIterator, TableScanIterator"]}
{"id": "C34", "title": "A committed transaction's commit record is durable", "statement": "When commit returns, the commit record and every log record appended before it have been written and flushed to the log file, so a crash at any later point cannot lose the commit.", "quantifier": "all interleavings of appends, flushes and crashes, including runs that start with recovery", "why_tests_cant": "crash points and flush schedules", "anchors": ["src/recovery/log_manager.rs: append_log_record, run_flush_thread, perform_flush, set_persistent_lsn", "src/recovery/log_recovery.rs: start_recovery"]}
{"id": "C35", "title": "LSNs identify log records", "statement": "Log sequence numbers are assigned in append order, strictly increasing and never used twice for two records of one log file, including after a restart.", "quantifier": "all append histories and restarts", "why_tests_cant": "restart histories", "anchors": ["src/recovery/log_manager.rs: append_log_record, new", "src/recovery/log_recovery.rs: start_recovery"]}
{"id": "C36", "title": "The log reads back exactly what was appended", "statement": "Iterating over a log file consisting of appended records yields exactly these records in order; with a torn last record it yields all complete records and nothing invented.", "quantifier": "all record sequences, record sizes and crash points in the last append", "why_tests_cant": "every truncation point", "anchors": ["src/recovery/log_record.rs: to_bytes, from_bytes", "src/recovery/log_iterator.rs: LogIterator::next"]}
{"id": "C37", "title": "Recovery restores committed work and removes uncommitted work", "statement": "After recovery from any log prefix, every table page contains exactly the effects of the transactions whose commit record is in the prefix.", "quantifier": "all logs and crash points", "why_tests_cant": "all crash points of all histories", "anchors": ["src/recovery/log_recovery.rs: analyze_log, redo_log, undo_log, redo_record, undo_insert, undo_update, undo_delete"]}
{"id": "C38", "title": "Index lookups after inserts return every entry in order", "statement": "After any sequence of inserts a full scan of the index returns every inserted (key, RID) exactly once in key order, and a range scan returns exactly the entries in the range.", "quantifier": "all insert sequences and all orders", "why_tests_cant": "split shapes depend on the sequence", "anchors": ["src/storage/index/b_plus_tree.rs: insert_entry, insert_non_full, split_child, scan_range, scan_full"]}
{"id": "C39", "title": "Index deletes remove exactly one entry", "statement": "Deleting an entry from the index removes that entry and no other, and later scans remain sorted and complete.", "quantifier": "all insert/delete sequences", "why_tests_cant": "rebalancing shapes", "anchors": ["src/storage/index/b_plus_tree.rs: delete_entry, rebalance_after_delete, borrow_from_left, borrow_from_right, merge_with_left, merge_with_right"]}
{"id": "C40", "title": "Index iterators terminate and repeat nothing", "statement": "Iterating over a key range through the index iterator returns each entry of the range once and then stops.", "quantifier": "all index contents, ranges and batch boundaries", "why_tests_cant": "batch boundaries", "anchors": ["src/storage/index/index_iterator_mem.rs: IndexIterator::{next,fetch_next_batch}"]}
{"id": "C41", "title": "Index scans return the same rows as filtering the table", "statement": "The key range an index scan derives from a predicate contains every key that satisfies the predicate, so no matching row is missed.", "quantifier": "all predicates and keys", "why_tests_cant": "all predicate shapes", "anchors": ["src/sql/execution/executors/index_scan_executor.rs: analyze_predicate_ranges, analyze_bounds"]}
{"id": "C42", "title": "Hash index finds what was inserted", "statement": "After any sequence of inserts and removes a lookup in the extendible hash table returns the value inserted for the key if it was not removed, and nothing otherwise, through all bucket splits, merges and directory growth.", "quantifier": "all key sequences and all hash functions", "why_tests_cant": "split shapes depend on hashes", "anchors": ["src/container/disk_extendable_hash_table.rs: insert, get_value, remove, split_bucket_internal, merge_bucket", "src/storage/page/page_types/extendable_hash_table_directory_page.rs"]}
{"id": "C43", "title": "LIMIT and OFFSET return exactly the requested slice", "statement": "LIMIT n OFFSET m over any child returns the child's rows m+1..m+n in order, and errors of the child are propagated rather than turned into short results.", "quantifier": "all child row sequences (including errors) and all n, m", "why_tests_cant": "all lengths", "anchors": ["src/sql/execution/executors/limit_executor.rs: next", "src/sql/execution/executors/offset_executor.rs: next"]}
{"id": "C44", "title": "ORDER BY returns a sorted permutation", "statement": "ORDER BY returns a permutation of the input rows sorted lexicographically by the order-by expressions with their directions, with rows equal on all keys in input order; no row is lost.", "quantifier": "all row lists, key lists and directions", "why_tests_cant": "all lengths and value combinations", "anchors": ["src/sql/execution/executors/sort_executor.rs: init, next", "src/types_db/value.rs: PartialOrd for Value"]}
{"id": "C45", "title": "ORDER BY ... LIMIT k returns the first k rows of the order", "statement": "The top-N operator returns the k extreme rows of the input in order.", "quantifier": "all inputs and k", "why_tests_cant": "heap layout depends on input order", "anchors": ["src/sql/execution/executors/topn_executor.rs: init, next, TupleWithKeys::cmp"]}
{"id": "C46", "title": "DISTINCT removes duplicates and nothing else", "statement": "DISTINCT returns each distinct row exactly once, in first-occurrence order; rows that differ in any column are never merged.", "quantifier": "all row lists and column types", "why_tests_cant": "collisions need special value pairs", "anchors": ["src/sql/execution/executors/distinct_executor.rs: serialize_tuple, next"]}
{"id": "C47", "title": "Nested-loop joins implement SQL join semantics", "statement": "Inner, cross, left, right and full joins return exactly the bag of rows defined by SQL for the join type.", "quantifier": "all inputs and predicates", "why_tests_cant": "all row multisets, duplicates and empty sides", "anchors": ["src/sql/execution/executors/nested_loop_join_executor.rs: execute_main_join, process_unmatched_tuples, JoinState, JoinTypeHandler"]}
{"id": "C48", "title": "Hash joins return every matching pair", "statement": "The hash join returns the same bag of rows as the nested-loop equi-join.", "quantifier": "all inputs", "why_tests_cant": "duplicate keys and NULL keys", "anchors": ["src/sql/execution/executors/hash_join_executor.rs: build_hash_table, next"]}
{"id": "C49", "title": "Aggregates are computed per group over all rows", "statement": "GROUP BY returns one row per distinct group key; COUNT(*), SUM, MIN, MAX equal the mathematical aggregate of the group's non-null arguments and COUNT(x) counts non-null x.", "quantifier": "all row lists, group keys and values", "why_tests_cant": "all groupings and value ranges", "anchors": ["src/sql/execution/executors/aggregation_executor.rs: compute_aggregate, init, next"]}
{"id": "C50", "title": "WHERE uses SQL three-valued logic", "statement": "A row passes WHERE exactly when the predicate is TRUE under Kleene three-valued logic; NULL and FALSE rows are dropped, AND/OR/NOT follow the Kleene tables and comparisons with NULL are unknown.", "quantifier": "all predicates and rows", "why_tests_cant": "all nestings", "anchors": ["src/sql/execution/executors/filter_executor.rs: apply_where_filter, next", "src/sql/execution/expressions/logic_expression.rs: perform_and, perform_or, perform_computation", "src/sql/execution/expressions/comparison_expression.rs: perform_comparison"]}
{"id": "C51", "title": "Inserted rows satisfy the declared column constraints", "statement": "An INSERT either fails or stores a row of the table's arity in which every missing column got its default, every NOT NULL column is non-null and every auto-increment key is fresh.", "quantifier": "all schemas and value lists", "why_tests_cant": "all combinations of missing, null and default columns", "anchors": ["src/storage/table/table_heap.rs: expand_values_for_schema, insert_tuple_from_values"]}
{"id": "C52", "title": "Sync covers earlier writes", "statement": "When a sync completes, every page write submitted to the I/O engine before the sync was submitted is on disk.", "quantifier": "all submission interleavings and worker schedules", "why_tests_cant": "priority queue reorderings", "anchors": ["src/storage/disk/async_disk/io/operations.rs: Ord for IOOperation, priorities", "src/storage/disk/async_disk/io/queue.rs: enqueue_operation, dequeue_operation"]}
{"id": "C53", "title": "Commit reports the truth", "statement": "commit_transaction returns true if and only if the transaction is committed; after false the transaction's writes are not visible to others.", "quantifier": "all outcomes of log and page flushing", "why_tests_cant": "failure paths", "anchors": ["src/concurrency/transaction_manager_factory.rs: commit_transaction, abort_transaction", "src/concurrency/transaction_manager.rs: commit"]}
{"id": "C54", "title": "Integer arithmetic is exact or fails", "statement": "An arithmetic expression over integers either returns the exact mathematical result in the wider operand type or fails; it never silently wraps around.", "quantifier": "all operators, operand widths and values", "why_tests_cant": "all pairs of 64-bit operands", "anchors": ["src/sql/execution/expressions/arithmetic_expression.rs: evaluate", "src/sql/execution/expressions/unary_op_expression.rs: evaluate"]}
{"id": "C55", "title": "LIKE follows the SQL pattern rules", "statement": "value LIKE pattern is TRUE exactly when the value can be split so that each literal character matches itself, _ one character and % any sequence; escaped characters match literally; a NULL operand gives UNKNOWN.", "quantifier": "all values, patterns, escape characters", "why_tests_cant": "all strings and patterns, recursion depth", "anchors": ["src/sql/execution/expressions/like_expression.rs: matches_pattern, evaluate"]}
{"id": "C56", "title": "The optimizer never changes a query's answer", "statement": "Optimizing a plan (early pruning, predicate pushdown, projection merging, sort/limit rewriting) never changes the rows, or the order of rows, that executing the plan returns.", "quantifier": "all plans and all table contents", "why_tests_cant": "rewrites compose; all plan shapes", "anchors": ["src/sql/optimizer/optimizer_impl.rs: apply_early_pruning, push_down_predicate, merge_projections, optimize_sort_and_limit"]}
{"id": "C57", "title": "Join conditions mean what was written", "statement": "The condition of JOIN ... ON is evaluated on every pair of rows as the written expression is on the joined row.", "quantifier": "all conditions, row pairs and table widths", "why_tests_cant": "all column positions and operand orders", "anchors": ["src/sql/planner/logical_plan.rs: extract_join_keys", "src/sql/execution/expressions/column_value_expression.rs: evaluate_join"]}
{"id": "C58", "title": "Deadlock reports are true and complete", "statement": "A transaction is reported as deadlock victim only if it really waits, directly or through others, for itself; and whenever some transactions wait for each other in a circle, one of them is reported.", "quantifier": "all histories of lock requests and releases", "why_tests_cant": "waits and grants interleave arbitrarily", "anchors": ["src/concurrency/lock_manager.rs: lock_table, lock_row, grant_lock, check_deadlock, DeadlockDetector"]}
{"id": "C59", "title": "Releasing a contended lock succeeds", "statement": "Unlocking, committing or aborting always returns, and hands the lock to the waiting transactions it is compatible with.", "quantifier": "all histories with waiting transactions", "why_tests_cant": "waiter queues of every shape", "anchors": ["src/concurrency/lock_manager.rs: release_table_lock, release_row_lock, grant_waiting_locks, compatible_with_existing_locks"]}
{"id": "C60", "title": "A granted lock stays in force until released", "statement": "Once a transaction has been granted a lock in some mode, it keeps at least that protection until it unlocks it or ends.", "quantifier": "all later requests of this and other transactions", "why_tests_cant": "all interleavings of later requests", "anchors": ["src/concurrency/lock_manager.rs: grant_lock, force_release_txn, unlock_all"]}
{"id": "C61", "title": "Uncommitted rows are reserved for their writer", "statement": "While a transaction that wrote a row is running, its own further updates and deletes of that row are accepted and every other transaction's are refused.", "quantifier": "all histories and isolation levels", "why_tests_cant": "interleavings of writers; SQL and storage entry points", "anchors": ["src/sql/execution/executors/update_executor.rs: next", "src/storage/table/transactional_table_heap.rs: update_tuple, delete_tuple"]}
{"id": "C62", "title": "A table page fetched again holds the same rows", "statement": "A table page that was written out, evicted (or left by a restart) and fetched again has the rows, metadata and links it had.", "quantifier": "all histories of a page and all eviction points", "why_tests_cant": "every history and point of eviction", "anchors": ["src/buffer/buffer_pool_manager_async.rs: create_page_from_data, write_page_to_disk_async", "src/storage/page/page_types/table_page.rs: get_data, set_data, serialize, deserialize"]}
{"id": "C63", "title": "A disk read completes", "statement": "Reading a page through the disk manager returns: the page's content, or an error. It does not wait forever.", "quantifier": "all configurations, histories and cache states", "why_tests_cant": "every cache state and configuration", "anchors": ["src/storage/disk/async_disk/manager.rs: read_page, read_pages_batch", "src/storage/disk/async_disk/scheduler.rs: WorkStealingScheduler::submit_task, try_steal_work, get_worker_receiver"]}
{"id": "C64", "title": "Writes of a page take effect in submission order", "statement": "When two writes of one page are submitted to the I/O engine one after the other and the second has returned Ok, the file holds the second content.", "quantifier": "all worker schedules, timings and timeouts", "why_tests_cant": "schedules of several workers", "anchors": ["src/storage/disk/async_disk/io/worker.rs: worker_loop, process_operation", "src/storage/disk/async_disk/io/operations.rs: Ord for IOOperation", "src/storage/disk/async_disk/io/completion.rs: cancel_operation, check_timeouts"]}
{"id": "C65", "title": "Engine reads see completed writes", "statement": "A page read submitted after a write of that page returned Ok returns that content or one that is not older.", "quantifier": "all worker schedules, priorities, faults and cancellations", "why_tests_cant": "schedules of several workers", "anchors": ["src/storage/disk/async_disk/io/worker.rs: process_operation", "src/storage/disk/async_disk/io/executor.rs: execute_read_page, execute_write_page"]}
{"id": "C66", "title": "A log record can be read at its offset", "statement": "Reading the log at the offset at which a record was appended returns that record.", "quantifier": "all logs, records and offsets", "why_tests_cant": "all record positions and sizes", "anchors": ["src/recovery/log_manager.rs: read_log_record, read_log_record_async", "src/storage/disk/async_disk/manager.rs: read_log"]}
{"id": "C67", "title": "A client's statements between BEGIN and COMMIT or ROLLBACK are one transaction", "statement": "After a successful BEGIN every statement of that client runs in the transaction it started until COMMIT, ROLLBACK or a disconnect, whatever other clients do; ROLLBACK or a disconnect makes its inserted rows unreadable and frees its locks; after COMMIT or ROLLBACK the session accepts new statements; a statement outside a transaction is all or nothing.", "quantifier": "every interleaving of requests of any number of clients, SQL text or protocol requests, every flush outcome", "why_tests_cant": "the interleavings of clients and the failure paths are unbounded", "anchors": ["src/common/db_instance.rs: execute_sql, handle_network_query, handle_sql_query, handle_begin_transaction, handle_commit, handle_rollback, remove_client_session", "src/sql/execution/execution_engine.rs: execute_plan, commit_transaction, abort_transaction, chain_transaction", "src/sql/execution/executors/start_transaction_executor.rs: next"]}
{"id": "C68", "title": "INSERT puts each value in the column it was written for", "statement": "After a successful INSERT INTO t (c1, ..., cn), with VALUES or SELECT, the i-th value of each source row is in column ci of the stored row, converted to its type; no value is dropped or replaced by NULL.", "quantifier": "all tables, column lists, sources and values", "why_tests_cant": "all column lists and source schemas", "anchors": ["src/sql/planner/plan_builder.rs: build_insert_plan, build_values_plan", "src/sql/planner/schema_manager.rs: map_values_to_schema", "src/sql/execution/plans/values_plan.rs: evaluate", "src/sql/execution/executors/insert_executor.rs: next"]}
{"id": "C69", "title": "A non-null foreign key refers to a row that exists", "statement": "In every state each non-null value of a foreign key column of a stored row occurs in the referenced column of the referenced table.", "quantifier": "all tables and all histories of INSERT, UPDATE and DELETE", "why_tests_cant": "every history of both tables", "anchors": ["src/sql/execution/executors/insert_executor.rs: validate_foreign_key_constraints_with_context", "src/sql/execution/executors/update_executor.rs: next", "src/sql/execution/executors/delete_executor.rs: next"]}
{"id": "C70", "title": "A statement that fails changes nothing", "statement": "When INSERT returns an error, the tables hold what they held before the statement.", "quantifier": "all tables, source rows and points of failure", "why_tests_cant": "every row at which the statement can fail", "anchors": ["src/sql/execution/executors/insert_executor.rs: next", "src/storage/table/transactional_table_heap.rs: insert_tuple_from_values, bulk_insert_tuples_from_values_async"]}
{"id": "C71", "title": "Primary keys and UNIQUE columns have no duplicates, CHECK holds", "statement": "In every state no two rows of a table have the same primary key or the same non-null value in a UNIQUE column, and every row satisfies the table's CHECK conditions.", "quantifier": "all tables and all histories of statements", "why_tests_cant": "every history", "anchors": ["src/storage/table/table_heap.rs: expand_values_for_schema", "src/catalog/constraints.rs: ConstraintValidator", "src/sql/execution/executors/insert_executor.rs: next"]}
{"id": "C72", "title": "What is compressed comes back", "statement": "Decompressing what the compression engine produced returns the original bytes, for every algorithm including none, and never panics.", "quantifier": "all byte sequences, algorithms and levels", "why_tests_cant": "all byte sequences", "anchors": ["src/storage/disk/async_disk/compression.rs: CompressionEngine::compress_data, decompress_data"]}
{"id": "C73", "title": "Positioned reads and writes are exact", "statement": "A read at an offset that succeeds returns exactly the bytes of the file there, one of bytes the file has succeeds, and a write changes exactly the bytes of its range (a prefix of them when it fails), however the kernel splits the transfers.", "quantifier": "all files, offsets, sizes, alignments, short transfers and faults", "why_tests_cant": "all ways the kernel can split a transfer", "anchors": ["src/storage/disk/direct_io.rs: read_aligned, read_aligned_into, write_aligned, read_exact_at, write_all_at, round_up_to_alignment"]}
{"id": "C74", "title": "Writing a page changes that page only", "statement": "After a successful page write the page reads back as written; whether a write succeeds or fails, every other page reads as before. Bytes appended to the log stay at the offset that was returned.", "quantifier": "all files, pages, configurations, short transfers and faults", "why_tests_cant": "all page numbers, configurations and faults", "anchors": ["src/storage/disk/async_disk/io/executor.rs: execute_read_page, execute_write_page, execute_append_log, execute_read_log", "src/storage/disk/direct_io.rs: AlignedBuffer::from_slice_with_size"]}
{"id": "C75", "title": "UPDATE and DELETE change exactly the matching rows", "statement": "A successful UPDATE gives every row that the transaction sees and that matches the WHERE clause the values computed from the row as it was, exactly once, and changes no other row; DELETE removes exactly the matching rows; the count reported is their number; other transactions see what they saw before; a failed statement changes nothing.", "quantifier": "all tables, histories of transactions, WHERE clauses and assignments", "why_tests_cant": "every history and every set of matching rows", "anchors": ["src/sql/execution/executors/update_executor.rs: next", "src/sql/execution/executors/delete_executor.rs: next", "src/storage/table/transactional_table_heap.rs: update_tuple, delete_tuple", "src/storage/table/table_iterator.rs: next"]}
{"id": "C76", "title": "A cast keeps the value or fails", "statement": "CAST between the integer types succeeds exactly when the number fits and keeps it; a value cast to text and back to its type is the same value; NULL stays NULL; the result has the requested type; no successful cast changes a number.", "quantifier": "all values and target types", "why_tests_cant": "all values and pairs of types", "anchors": ["src/types_db/value.rs: Value::cast_to", "src/sql/execution/expressions/cast_expression.rs: evaluate"]}
{"id": "C77", "title": "A CAST means the same everywhere", "statement": "The same CAST of the same value gives the same result in a select list, a WHERE clause and a join condition.", "quantifier": "all values and target types", "why_tests_cant": "all values and pairs of types", "anchors": ["src/sql/execution/expressions/cast_expression.rs: evaluate, evaluate_join", "src/types_db/value.rs: Value::cast_to"]}
{"id": "C78", "title": "The paged index answers as a map", "statement": "For every history of insertions, the disk-paged B+-tree index answers each search with the value last inserted under the key, each range scan with exactly the pairs of the range in key order, and its size with the number of keys, whichever insertion variant is used.", "quantifier": "all orders, keys, values and histories of calls", "why_tests_cant": "every history and tree shape", "anchors": ["src/storage/index/b_plus_tree_index.rs: insert, insert_with_latch_crabbing, search, range_scan, get_size", "src/storage/page/page_types/b_plus_tree_leaf_page.rs", "src/storage/page/page_types/b_plus_tree_internal_page.rs", "src/storage/page/page_types/b_plus_tree_header_page.rs"]}
{"id": "C79", "title": "Removing from the paged index removes that key", "statement": "Removing a key from the paged index returns, reports whether the key was there, and leaves every other key as it was.", "quantifier": "all orders, keys and histories of insertions and removals", "why_tests_cant": "every history and tree shape", "anchors": ["src/storage/index/b_plus_tree_index.rs: remove, remove_with_latch_crabbing, check_and_handle_underflow, merge_leaf_pages, redistribute_leaf_pages, merge_internal_pages, redistribute_internal_pages"]}
{"id": "C80", "title": "Concurrent insertions into the paged index are both kept", "statement": "When two threads insert different keys into the paged index and both calls succeed, both keys are found afterwards.", "quantifier": "all trees, keys and interleavings of two insertions", "why_tests_cant": "every schedule", "anchors": ["src/storage/index/b_plus_tree_index.rs: insert, insert_with_latch_crabbing, find_leaf_page_with_path", "src/storage/index/latch_crabbing.rs"]}
{"id": "C81", "title": "The catalog keeps what it was given", "statement": "Every table and index created with success is found from then on under its name, in its database, with its definition, whatever else is created there or in other databases; a statement that fails changes nothing; a table is created exactly if its name is free and its foreign keys refer to existing columns; table identifiers are not shared, so committing and rolling back a row goes to the table it belongs to.", "quantifier": "all histories of CREATE DATABASE, USE, CREATE TABLE and CREATE INDEX", "why_tests_cant": "histories of any length over several databases", "anchors": ["src/catalog/database.rs: create_table, validate_foreign_key_constraints, create_index, get_table, get_table_indexes", "src/catalog/catalog_impl.rs: create_database, use_database, create_table, create_index", "src/concurrency/transaction_manager.rs: register_table"]}
{"id": "C82", "title": "Tables survive a restart", "statement": "A table that was created is there, with its definition and its rows, when the database is opened again; pages of existing tables are not given to new ones.", "quantifier": "all histories and numbers of restarts", "why_tests_cant": "needs all histories of several processes", "anchors": ["src/common/db_instance.rs: DBInstance::new", "src/catalog/catalog_impl.rs: rebuild_from_system_catalog, record_system_table", "src/catalog/database.rs: load_tables_from_catalog", "src/storage/table/table_heap.rs: reopen"]}
{"id": "C83", "title": "A new index covers the rows already there", "statement": "After CREATE INDEX on a table with rows, the index has exactly one entry for each row of the table: the row's key with the row's RID; scans of the index return them in key order.", "quantifier": "all table histories before the index is created, all key columns", "why_tests_cant": "page boundaries, deleted rows and tree splits at all sizes", "anchors": ["src/catalog/database.rs: create_index, populate_index_with_existing_data", "src/storage/table/table_iterator.rs: TableScanIterator", "src/storage/index/b_plus_tree.rs: insert"]}
{"id": "C84", "title": "ANY, ALL and IN over a list mean what SQL says", "statement": "A condition x op ANY (list) is true when some comparison is true, false when all are false (or the list is empty) and unknown otherwise; x op ALL (list) is false when some comparison is false, true when all are true (or the list is empty) and unknown otherwise; x IN (list) is x = ANY (list) and NOT IN its negation. The items may be constants or expressions such as negative numbers and columns, and the order of the list does not matter.", "quantifier": "all operators, all left operands, all lists of any length in any order, with NULLs anywhere, and all rows", "why_tests_cant": "A test runs a few lists; the wrong answers need a NULL in front of a false comparison or an item that is not a bare literal.", "anchors": ["src/sql/execution/expressions/any_expression.rs: AnyExpression::evaluate", "src/sql/execution/expressions/all_expression.rs: AllExpression::evaluate", "src/sql/execution/expressions/in_expression.rs: check_value_in_list", "src/sql/execution/expression_parser.rs: Expr::InList"]}
{"id": "C85", "title": "A subquery in a condition is answered from its own table", "statement": "WHERE EXISTS (q), x IN (q) and x op (q) keep exactly the rows for which the condition holds of the rows that q selects from its table: EXISTS asks whether there is one, IN compares x with each of them, a scalar subquery stands for the one value.", "quantifier": "all databases, all outer tables, all subqueries over one table with a WHERE clause, all left operands", "why_tests_cant": "A test compares one pair of small tables in which the outer and inner columns may coincide; the property is about the dependence of the answer on every possible content of the inner table.", "anchors": ["src/sql/execution/expressions/subquery_expression.rs: SubqueryExpression::evaluate", "src/sql/execution/expressions/exists_expression.rs: ExistsExpression::evaluate", "src/sql/execution/expressions/in_expression.rs: evaluate_subquery", "src/sql/execution/expression_parser.rs: parse_setexpr, determine_subquery_type_and_return_type"]}
{"id": "C86", "title": "SUBSTRING, POSITION and OVERLAY count characters", "statement": "SUBSTRING(s FROM f FOR n) returns the characters numbered f to f+n-1 of s, POSITION(t IN s) the number of the first character of the first occurrence of t or 0, OVERLAY(s PLACING t FROM f FOR n) s with those characters replaced by t; a NULL argument gives NULL and no text makes the query panic.", "quantifier": "all strings (ASCII or not), all start positions and lengths of every integer type, all search strings", "why_tests_cant": "Tests use a few ASCII literals; the property is about every character string and every position, including those inside multi-byte characters and beyond 32 bits.", "anchors": ["src/sql/execution/expressions/substring_expression.rs: SubstringExpression::evaluate", "src/sql/execution/expressions/position_expression.rs: PositionExpression::evaluate", "src/sql/execution/expressions/overlay_expression.rs: OverlayExpression::evaluate"]}
{"id": "C87", "title": "TRIM, UPPER, LOWER and the other scalar functions compute what their name says", "statement": "TRIM removes from the sides asked for the longest run of the given characters (blanks by default) and nothing else; UPPER and LOWER change letters only; every scalar function the planner accepts yields a value for arguments of the types it accepts.", "quantifier": "all strings, all trim sets, all sides, all function names the planner accepts", "why_tests_cant": "A test fixes a string and a set; the property says that the result is maximal for every string and that no accepted function fails for every row.", "anchors": ["src/sql/execution/expressions/trim_expression.rs: TrimExpression::evaluate", "src/sql/execution/expressions/function_expression.rs: FunctionExpression::evaluate", "src/sql/execution/expression_parser.rs: parse_expression (Expr::Trim)"]}
{"id": "C88", "title": "Every request a client sends is executed once, as it was sent", "statement": "The server executes exactly the requests that clients send, each once, in the order sent over a connection, and answers each; nothing that is part of a request's text is executed as another request.", "quantifier": "all sequences of requests, all sizes, all ways in which the network cuts the byte stream into reads", "why_tests_cant": "Tests send short requests over the loopback interface, where a request arrives in one read; the property must hold for every size and every segmentation.", "anchors": ["src/server/connection.rs: handle_client_connection, handle_client_request", "src/server/protocol.rs: DatabaseRequest", "src/client/client_impl.rs: DatabaseClient::send_request"]}
{"id": "C89", "title": "Every call of the client returns the server's answer to that call", "statement": "execute_query and the other calls return the response the server gave to their own request, of whatever size, and after any call the connection is ready for the next.", "quantifier": "all sequences of calls, all responses, all ways in which the network cuts the byte stream into reads", "why_tests_cant": "Tests use small results; the property must hold for every size and segmentation and after every earlier call, including failed ones.", "anchors": ["src/client/client_impl.rs: DatabaseClient::receive_response", "src/server/connection.rs: send_response", "src/server/protocol.rs: DatabaseResponse"]}
{"id": "C90", "title": "A prepared statement is not executed before it is executed, and then with its parameters", "statement": "prepare_statement returns an id without changing the database; execute_statement with that id and parameters of the right types runs the statement.", "quantifier": "all statements, parameters and histories of requests", "why_tests_cant": "The property is about every history of prepare, execute and close requests on every database.", "anchors": ["src/common/db_instance.rs: handle_network_query, handle_execute_statement, handle_close_statement", "src/client/client_impl.rs: prepare_statement, execute_statement"]}
{"id": "C91", "title": "CEIL and FLOOR of a timestamp round to the calendar", "statement": "FLOOR(t TO unit) is the last instant not after t at which a second, minute, hour, day, month or year begins, and CEIL(t TO unit) the first such instant not before t; CEIL(x) and FLOOR(x) of a number are its ceiling and floor, at the given scale.", "quantifier": "every timestamp, every unit, every integer and every scale", "why_tests_cant": "The calendar has irregular months and leap years over an unbounded range; a test looks at a few dates, mostly in the middle of a unit and before 2038.", "anchors": ["src/sql/execution/expressions/ceil_floor_expression.rs: CeilFloorExpression::evaluate, timestamp_to_date, date_to_timestamp", "src/sql/execution/expression_parser.rs: Expr::Ceil, Expr::Floor"]}
{"id": "C92", "title": "Timestamps can be read and compared as instants", "statement": "EXTRACT(field FROM t) gives the calendar field of the timestamp t, t AT TIME ZONE z gives t's local time in z, and two TIMESTAMP literals compare in the order of the instants they denote.", "quantifier": "every timestamp value, every field, every zone, every pair of timestamp literals", "why_tests_cant": "It is about every instant, including those before 1970; tests use string arguments and recent dates.", "anchors": ["src/sql/execution/expressions/extract_expression.rs: ExtractExpression::evaluate", "src/sql/execution/expressions/at_timezone_expression.rs: AtTimeZoneExpression::evaluate", "src/sql/execution/expressions/typed_string_expression.rs: parse_timestamp", "src/types_db/timestamp_type.rs: to_string"]}
{"id": "C93", "title": "Names in a query stand for the right columns", "statement": "In a query over any FROM clause, a reference t.c stands for column c of the FROM item known as t (its alias, or its table name if it has none), an unqualified c stands for the only column of that name, SELECT * and SELECT t.* are the columns of all items and of item t, and a reference that is unknown or ambiguous is refused with an error rather than answered with some other column.", "quantifier": "all FROM clauses (any number of tables, with or without aliases, any column names) and all references", "why_tests_cant": "A wrong choice shows only when two tables share a column name in some particular order; tests try a handful of schemas, the claim is about all of them.", "anchors": ["src/catalog/schema.rs: get_column_index, get_qualified_column_index", "src/sql/execution/expression_parser.rs: parse_expression (Identifier, CompoundIdentifier)", "src/sql/planner/plan_builder.rs: process_table_factor, process_table_with_joins, build_projection_plan_with_schema (wildcards)"]}
{"id": "C94", "title": "The SELECT list of a grouped query shows the items that were asked for", "statement": "For every group of rows, a SELECT list of grouping columns and aggregates, in any order, with or without aliases and repeated functions, gives one result row whose i-th value is the value of the i-th item for that group; a column that is neither grouped nor aggregated is refused.", "quantifier": "all tables, SELECT lists, GROUP BY lists and groups", "why_tests_cant": "The value shown depends on the item's place, its alias, the other items' functions and the column's place in the table; tests use the usual order with one aggregate.", "anchors": ["src/sql/planner/plan_builder.rs: build_select_plan_with_order_by, build_projection_plan_with_schema, validate_group_by_clause", "src/sql/planner/schema_manager.rs: create_aggregation_output_schema", "src/sql/execution/expressions/aggregate_expression.rs: evaluate, get_column_name"]}
{"id": "C95", "title": "HAVING keeps the right groups and ORDER BY sorts the answer", "statement": "The answer of a grouped query with HAVING consists of the SELECT items of exactly those groups for which the condition is true, whether or not the aggregates in it are also in the SELECT list; ORDER BY puts the same rows in the order of its key expressions and neither adds nor removes rows.", "quantifier": "all tables, SELECT lists, GROUP BY lists, HAVING conditions, sort keys and groups", "why_tests_cant": "It ranges over all conditions and all combinations of clauses; tests look at a few with the expected number of rows.", "anchors": ["src/sql/planner/plan_builder.rs: build_select_plan_with_order_by", "src/sql/execution/expression_parser.rs: replace_aggregates_with_column_refs", "src/sql/execution/executors/filter_executor.rs: FilterExecutor::next"]}
{"id": "C96", "title": "Numbers of different types compare by their values", "statement": "A comparison (=, <>, <, <=, >, >=) between two non-NULL numbers of any types (TINYINT to BIGINT, FLOAT, DECIMAL) is true exactly when the relation holds between the two numbers; in particular a < b and b > a agree and equality is transitive. If one operand is NULL the answer is NULL. Comparing a number with a text gives the same answer whichever of the two is written as a literal.", "quantifier": "Every operator, every pair of numeric types and every pair of values of those types.", "why_tests_cant": "The types' casts round, truncate and clamp only for particular magnitudes and fractions; a test of a few pairs does not show that the answer is right for every pair, nor that both operand orders agree.", "anchors": ["src/sql/execution/expression_parser.rs: parse_expression (comparison operators)", "src/sql/execution/expressions/comparison_expression.rs: perform_comparison", "src/types_db/value.rs: cast_to, compare_equals, compare_less_than"]}
{"id": "C97", "title": "% is the remainder and || the concatenation", "statement": "For integers a and b <> 0 of any integer types, columns or literals, a % b is the number r with the sign of a, |r| < |b|, that differs from a by a multiple of b; it is NULL if a or b is NULL. s || t is the text s followed by the text t, NULL if one of them is NULL.", "quantifier": "All integer types, all values of both operands, all texts.", "why_tests_cant": "The answer depends on the pair of operand types and on boundary values; a test checks a few pairs.", "anchors": ["src/sql/execution/expressions/binary_op_expression.rs: infer_return_type, evaluate", "src/types_db/value.rs: modulo, is_zero", "src/sql/execution/expressions/literal_value_expression.rs: new"]}
{"id": "C98", "title": "An ungrouped SELECT returns what its clauses say", "statement": "SELECT [DISTINCT] items FROM t WHERE c ORDER BY keys OFFSET m LIMIT n FETCH FIRST k ROWS returns the rows of t on which c is true, as the select list shows them (stars written out, aliases, expressions), without duplicates for DISTINCT, sorted by the keys, then cut to the slice. A sort key names a result column, or gives its number, or names a column of the table; NULLS FIRST/LAST, PERCENT and WITH TIES are honoured.", "quantifier": "every table, every combination of the clauses, every list of sort keys", "why_tests_cant": "tests check clauses one at a time; how they combine depends on which names are visible where, for every schema and every list of keys", "anchors": ["src/sql/planner/plan_builder.rs: build_query_plan, build_select_plan_with_order_by, build_projection_plan_with_schema", "src/sql/execution/expression_parser.rs: parse_order_by_specifications", "src/sql/execution/executors/projection_executor.rs: next"]}
{"id": "C99", "title": "Arithmetic with decimals and floats is correctly rounded", "statement": "+, -, * and / with a DECIMAL or FLOAT operand give the number nearest to the exact result among those the result type can hold, a DECIMAL if one operand is a DECIMAL and else a FLOAT; division by zero is an error and nothing else is; a NULL operand gives NULL.", "quantifier": "every operator and every pair of numeric values of which one is a DECIMAL or FLOAT", "why_tests_cant": "tests compare a few sums with literals; rounding goes wrong only for particular bit patterns and particular pairs of types out of 2^128", "anchors": ["src/sql/execution/expressions/arithmetic_expression.rs: ArithmeticExpression::evaluate", "src/types_db/value.rs: Value::add"]}
{"id": "C100", "title": "AVG is the mean of the group", "statement": "AVG(x) gives for each group the DECIMAL nearest to the mean of the values of x that are not NULL, NULL if there are none, whatever x's numeric type and the order of the rows; AVG(DISTINCT x) takes each value once and FILTER (WHERE c) only the rows on which c holds.", "quantifier": "every sequence of rows, every grouping, every numeric column, every list of aggregates beside it", "why_tests_cant": "the sum is accumulated row by row: overflow, rounding and the effect of the order of the rows show only for particular histories of values", "anchors": ["src/sql/execution/executors/aggregation_executor.rs: update_aggregates, next", "src/types_db/value.rs: Value::add, Value::divide", "src/sql/execution/expression_parser.rs: parse_aggregate_function"]}
{"id": "C101", "title": "Arrays: literals, elements and slices", "statement": "ARRAY[e1, ..., en] is the array of the values of its elements, all of one type. a[i] is element i, counted from 0 or, for a negative i, backwards from the end, and an error if there is none. a[s:e] is the part from s to before e, with bounds that may be left out or count from the end; a step takes every n-th element. Indexing works on any expression that is an array, and NULL gives NULL.", "quantifier": "every array, every index and bound of every integer type, every nesting of these expressions, every row", "why_tests_cant": "tests use five-element arrays and small indexes; the conversions between integer widths and the planning of nested accesses matter for all others", "anchors": ["src/sql/execution/expressions/subscript_expression.rs: SubscriptExpression::evaluate", "src/sql/execution/expressions/array_expression.rs: ArrayExpression::evaluate", "src/sql/execution/expression_parser.rs: parse_expression (Expr::Array, Expr::CompoundFieldAccess)", "src/types_db/types.rs: is_coercible_from"]}
{"id": "C102", "title": "The first n rows of every group", "statement": "A plan for the first n rows of every group (top_n_per_group) returns, for each group of its input, exactly min(n, size of the group) rows: those that come first in the requested order (with the requested directions), in that order and one group after the other; and an error of its input is reported.", "quantifier": "all n, sort specifications, group expressions, inputs and hash-map iteration orders", "why_tests_cant": "the rows kept depend on the order in which rows arrive and on how a bounded heap per group evolves; a handful of inputs cannot cover the orders, ties, directions and NULLs", "anchors": ["src/sql/execution/executors/topn_per_group_executor.rs:TopNPerGroupExecutor", "src/sql/planner/logical_plan.rs:top_n_per_group"]}
{"id": "C103", "title": "Numbering the rows of a partition", "statement": "A window plan returns every input row exactly once with one more column per window function; for ROW_NUMBER the column counts 1, 2, 3, ... through the rows of the row's own partition of that function's window, in the order of that function's ORDER BY; other window functions compute their value; and an error of the input is reported.", "quantifier": "all window functions, partition and order expressions, inputs and hash-map iteration orders", "why_tests_cant": "numbers depend on the whole partition and on a heap's behaviour on every arrival order", "anchors": ["src/sql/execution/executors/window_executor.rs:WindowExecutor", "src/sql/execution/plans/window_plan.rs:WindowFunction", "src/sql/planner/logical_plan.rs"]}
{"id": "C104", "title": "A table holds what its CREATE TABLE declares", "statement": "After an accepted CREATE TABLE, the rows the catalog's schema admits are exactly those the declared constraints admit: primary key, UNIQUE, NOT NULL, CHECK and FOREIGN KEY, written on columns or on the table; a constraint on an unknown column is refused.", "quantifier": "every list of column definitions and table constraints, every set of rows, every meaning of the checks and every content of the referenced tables", "why_tests_cant": "declarations combine arbitrarily many options and constraints in any order; tests fix a few statements", "anchors": ["src/sql/planner/plan_builder.rs: build_create_table_plan, process_table_constraints", "src/sql/planner/schema_manager.rs: convert_column_defs, parse_column_options", "src/catalog/column.rs: from_sql_info"]}
{"id": "C105", "title": "A column can hold every value of its declared type", "statement": "The type recorded for a column can represent every value of the SQL type it was declared with, and records its length, precision and scale; impossible precisions are refused.", "quantifier": "every SQL type of the dialect, every length, precision and scale", "why_tests_cant": "value ranges are astronomically large and the type table has about a hundred cases", "anchors": ["src/sql/planner/schema_manager.rs: convert_sql_type, extract_precision_scale, create_column_from_sql_type_with_constraints"]}
{"id": "C106", "title": "Every clause of a data-changing statement is obeyed or refused", "statement": "An accepted DELETE, UPDATE or INSERT ... SELECT changes the rows its clauses ask for, in particular no more rows than its LIMIT; a clause the engine cannot execute makes the statement fail.", "quantifier": "every statement, table content, condition and limit", "why_tests_cant": "the clauses combine freely, and whether a dropped clause shows depends on the data", "anchors": ["src/sql/planner/plan_builder.rs: build_delete_plan, build_update_plan, build_insert_plan"]}
{"id": "C107", "title": "The constraint validator answers correctly", "statement": "Fed rows one after another, the constraint validator accepts a row exactly when it has no NULL in a NOT NULL column, repeats no UNIQUE value and no primary key of a row accepted before, and passes the column checks.", "quantifier": "every schema, every history of rows, every check expression", "why_tests_cant": "the verdict depends on the whole history of accepted and refused rows", "anchors": ["src/catalog/constraints.rs: ConstraintValidator::validate_tuple, validate_unique, validate_primary_key, validate_check_constraint"]}
{"id": "C108", "title": "Values can be used as keys", "statement": "Equality of values is an equivalence, equal values hash alike, and the order used for sorting agrees with equality, is antisymmetric, transitive and total, for every value including NULL, floating-point special values, arrays and structs.", "quantifier": "all values of all types, nested to any depth", "why_tests_cant": "the laws quantify over triples of arbitrary nested values; a violation shows only for rare combinations", "anchors": ["src/types_db/value.rs: PartialEq, PartialOrd and Hash of Value, canonical_f64_bits", "src/sql/execution/executors/sort_executor.rs"]}
{"id": "C109", "title": "Nested index joins return the join", "statement": "A nested index join returns exactly the pairs of left and right rows that satisfy the join condition (and, for outer joins, the rows without a partner), whatever indexes the right table has and whatever the plan below the join is.", "quantifier": "all left and right rows, join conditions, keys, indexes and right-hand plans", "why_tests_cant": "the inner side is rebuilt for every left row, from whichever index happens to fit", "anchors": ["src/sql/execution/executors/nested_index_join_executor.rs: next, get_next_inner_tuple, create_right_executor", "src/sql/execution/plans/nested_index_join_plan.rs"]}
{"id": "C110", "title": "SIMILAR TO follows the SQL pattern rules", "statement": "value SIMILAR TO pattern [ESCAPE c] is TRUE exactly when the whole value belongs to the language of the pattern, where _ is any character, % any text, [..] and [^..] are classes with ranges, | * + ? and parentheses are the usual operators and the escape character makes the next character stand for itself; NOT SIMILAR TO is the opposite, and a NULL operand makes the answer unknown. No pattern crashes the statement.", "quantifier": "every pattern, every way to write it, every escape character and every value", "why_tests_cant": "Patterns and values are unbounded; tests compare a handful of pairs with hand-written answers.", "anchors": ["src/sql/execution/expressions/regex_expression.rs: convert_similar_to_pattern, evaluate, evaluate_join", "src/sql/execution/expression_parser.rs: Expr::SimilarTo"]}
{"id": "C111", "title": "CASE takes the first branch whose test is true", "statement": "CASE WHEN c1 THEN r1 ... ELSE r END is the result of the first branch whose condition is TRUE, where FALSE and NULL conditions are passed over, and the ELSE (or NULL) if there is none; CASE x WHEN v does the same with the conditions x = v. Branches that are not taken are not evaluated, so they cannot fail the statement. A CASE whose results have a common SQL type is accepted, and rewriting its subexpressions keeps each in its place.", "quantifier": "every list of branches, every row or pair of rows, and every outcome of the subexpressions", "why_tests_cant": "The number of branches and the values, errors and NULLs of their parts are unbounded; tests take two or three constant branches.", "anchors": ["src/sql/execution/expressions/case_expression.rs: new, evaluate, evaluate_join, clone_with_children", "src/sql/execution/expressions/literal_value_expression.rs: new"]}
{"id": "C112", "title": "Index pages keep their contents across a trip to disk", "statement": "Whatever calls were made on a header, leaf or inner page of a B+-tree index, the bytes written to disk for it determine what it holds, and a page read from those bytes holds it again: the root, height, key count and order of a header; the pairs, next leaf and capacity of a leaf, in order; the keys and children of an inner page. A page within its capacity fits the bytes of a page.", "quantifier": "every key and value type with a codec that reads back what it wrote, every comparator, every sequence of calls on a page, and every buffer", "why_tests_cant": "The contents are arbitrary lists; tests write a page of a few keys and never evict it. That no reader at all can recover a page from its image is a statement about all functions.", "anchors": ["src/storage/page/page_types/b_plus_tree_leaf_page.rs: serialize, deserialize, get_data, set_data, insert_key_value, remove_key_value_at", "src/storage/page/page_types/b_plus_tree_internal_page.rs: serialize, deserialize, get_data, insert_key_value, remove_key_value_at", "src/storage/page/page_types/b_plus_tree_header_page.rs: serialize, deserialize, get_data, set_data", "src/buffer/buffer_pool_manager_async.rs: write_page_to_disk_async, create_page_from_data"]}
{"id": "C113", "title": "The interactive shells run what was typed", "statement": "In the interactive shell, a statement finished by a semicolon is run with exactly the words that were typed, over however many lines, in the transaction the user has opened; BEGIN, COMMIT, ROLLBACK, EXIT, QUIT, HELP and SHOW TABLES work in any case; transactions are opened one at a time and each is ended once, also when the shell is left; Ctrl-C forgets an unfinished statement. The network client sends what was typed.", "quantifier": "every sequence of input lines, interrupts and ends of input, every casing and spacing, every outcome of a commit", "why_tests_cant": "Line breaks, blanks and semicolons can be anywhere in a statement, and leaving the shell can happen at any point of a session; a test covers a handful of transcripts.", "anchors": ["src/cli.rs: CLI::run, handle_command, begin_transaction, commit_transaction, rollback_transaction", "src/main.rs: run_client"]}
{"id": "C114", "title": "Results are shown so that they can be read back", "statement": "Every value of a result is printed as the text for it: whole numbers as numerals, decimals to the scale of their column or six decimals, texts unchanged, dates, times and intervals in calendar and clock form, bytes in hex, lists element by element; two different values of a column print differently; and the table shows every row and message once, in order, under its header.", "quantifier": "every value of every printable type, every column scale, every sequence of rows and messages", "why_tests_cant": "The values are unbounded sets; tests print a few literals per type, and the failures are at magnitudes, signs and characters no test uses.", "anchors": ["src/types_db/value.rs: Display for Value, format_with_column_context", "src/types_db/*_type.rs: to_string", "src/common/result_writer.rs: CliResultWriter"]}
{"id": "C115", "title": "A hash block page holds the pairs that were put in", "statement": "A lookup in a hash block or bucket page returns the values of exactly the pairs that were inserted with success and not removed since. An insertion succeeds whenever the page has room for the pair; removing a pair makes its room available again. Insertions made at the same time by several threads are all kept, and never both accepted for one key. The pairs and their flags fit in one page.", "quantifier": "every page size, every history of insertions, removals and lookups, every number of threads inserting and every schedule of their accesses", "why_tests_cant": "tests insert a few pairs from one thread; what a page answers depends on its whole history, and on how the accesses of several threads interleave", "anchors": ["src/storage/page/page_types/hash_table_block_page.rs: HashTableBlockPage", "src/storage/page/page_types/hash_table_bucket_page.rs: HashTableBucketPage", "src/storage/page/page_types/hash_table_page_defs.rs: block_array_size, bucket_array_size"]}
{"id": "C116", "title": "A condition over two joined rows means what it means over the combined row", "statement": "Evaluating an expression over a left row and a right row (as the nested loop and index joins do with their predicate) gives the same value, or the same refusal, as evaluating it over the row made of the two.", "quantifier": "every expression tree over columns, constants, arithmetic, % and ||, rounding functions and any other function of its operands' values; every pair of rows", "why_tests_cant": "there is one hand-written two-row evaluation beside each one-row evaluation; a test compares them on a few literals, not on every operand type, column position and nesting", "anchors": ["src/sql/execution/expressions/arithmetic_expression.rs: evaluate, evaluate_join", "src/sql/execution/expressions/binary_op_expression.rs: evaluate_join", "src/sql/execution/expressions/column_value_expression.rs: evaluate_join", "src/sql/execution/expressions/ceil_floor_expression.rs: evaluate_join", "src/sql/execution/executors/nested_loop_join_executor.rs"]}
{"id": "C117", "title": "The fields of structs and JSON documents can be read", "statement": "Field access on a JSON document gives the value at that path, for every document and path, and an error exactly when the document has nothing there; e.f, e['f'] and e[n] on a struct or JSON value are that access.", "quantifier": "every JSON document, every path of member names and element numbers, every struct expression and row", "why_tests_cant": "documents nest without bound and every step of a path is converted to an SQL value and back; tests try two or three literal documents", "anchors": ["src/sql/execution/expressions/map_access_expression.rs: access_value, json_to_value, evaluate", "src/sql/execution/expressions/struct_expression.rs: evaluate", "src/sql/execution/expression_parser.rs: Expr::Struct, Expr::CompoundFieldAccess", "src/types_db/value.rs: cast_to (JSON)"]}
{"id": "C118", "title": "A date or time written in a statement is that date or time", "statement": "For every DATE, TIME or TIMESTAMP column and every literal, plain or typed, whose text is a date, time or timestamp: INSERT stores exactly that moment, and comparing the column with the literal answers as the calendar does.", "quantifier": "every text, every moment it may say, every stored value, all six comparisons", "why_tests_cant": "literals are read by one routine, inserted by another and compared after implicit casts between three types; tests insert and compare a few dates of this century", "anchors": ["src/sql/execution/expressions/typed_string_expression.rs: evaluate, parse_date, parse_time, parse_timestamp", "src/sql/execution/plans/values_plan.rs: ValuesRow::evaluate", "src/sql/execution/expression_parser.rs: Expr::BinaryOp (comparisons), Expr::TypedString", "src/sql/execution/expressions/comparison_expression.rs: perform_comparison", "src/types_db/value.rs: cast_to"]}
{"id": "C119", "title": "The values of a column are of its declared type", "statement": "In every state every value stored in a column is NULL or a value of the column's declared type; a statement that gives a value the type has no place for fails and stores nothing.", "quantifier": "every history of CREATE TABLE, INSERT with VALUES, INSERT ... SELECT, UPDATE and DELETE statements, all tables and values", "why_tests_cant": "every history and every pair of value and column type", "anchors": ["src/sql/execution/plans/values_plan.rs: ValueRow::evaluate", "src/sql/planner/schema_manager.rs: map_values_to_schema, cast_value_to_type", "src/sql/execution/executors/update_executor.rs: next", "src/sql/execution/expressions/assignment_expression.rs: AssignmentExpression::evaluate", "src/storage/table/table_heap.rs: expand_values_for_schema"]}
{"id": "C120", "title": "BETWEEN and IN are the comparisons they stand for", "statement": "x BETWEEN a AND b gives what x >= a AND x <= b gives, x IN (w1, ..., wn) gives what x = w1 OR ... OR x = wn gives, and NOT BETWEEN and NOT IN give the opposite, for columns and literals of every type: numbers, texts, dates and times, NULL included.", "quantifier": "every value of every column type, every bound and every list of literals, of every type", "why_tests_cant": "all pairs of types, all values, lists of any length", "anchors": ["src/sql/execution/expression_parser.rs: Expr::Between, Expr::InList, Expr::BinaryOp", "src/sql/execution/expressions/in_expression.rs: check_value_in_list", "src/sql/execution/expressions/comparison_expression.rs: perform_comparison", "src/types_db/value.rs: compare_equals"]}
{"id": "C121", "title": "The index's own health check and traversals agree with its contents", "statement": "After any calls to the paged B+-tree index, its in-order traversal returns exactly the keys stored, each once and in ascending order; its health check succeeds and reports the number of keys and levels whenever every key can be found, and fails when a stored key cannot be found; its pre-order and post-order traversals list every page once.", "quantifier": "every order, every history of insertions, reads and removals by either variant, and every tree shape these produce", "why_tests_cant": "Whether the check raises false alarms or misses damage depends on the shape of the tree, and only trees of some depth contain pages with a repeated pointer; tests look at a few small trees.", "anchors": ["src/storage/index/b_plus_tree_index.rs: health_check, validate_tree, validate_node, validate_leaf_links, in_order_traversal, pre_order_traversal, post_order_traversal"]}
{"id": "C122", "title": "Every clause of a query is obeyed or the query is refused", "statement": "For every query the parser accepts, with named queries (WITH), parentheses of any depth each with ORDER BY, OFFSET, LIMIT, LIMIT BY, FETCH and FOR UPDATE, and a SELECT with DISTINCT, DISTINCT ON, TOP, INTO, SORT BY and QUALIFY: either the rows returned are those the clauses say, or the query fails; no clause is silently dropped.", "quantifier": "all queries of any nesting depth, all databases and table contents", "why_tests_cant": "A test checks the clauses it writes down on one table; that no accepted clause is dropped, at any depth and for any table, is a statement about all queries.", "anchors": ["src/sql/planner/plan_builder.rs:build_query_plan", "src/sql/planner/plan_builder.rs:build_select_plan_with_order_by", "src/sql/planner/plan_builder.rs:build_table_scan", "src/sql/execution/expression_parser.rs:parse_expression_with_fallback"]}
{"id": "C123", "title": "A VALUES query returns the rows it writes down", "statement": "A query VALUES (...), (...) returns one row for each one written, in order, each column with the value written there (numbers, with or without a point, texts, truth values, NULL and expressions); rows of different lengths are refused.", "quantifier": "all tables of literals and expressions of any number of rows and columns", "why_tests_cant": "Tests write a handful of VALUES lists with small whole numbers; the types come from the first row and every later value is cast to them, so whether a value survives depends on the whole table.", "anchors": ["src/sql/planner/plan_builder.rs:build_values_plan", "src/sql/planner/schema_manager.rs:create_values_schema", "src/sql/planner/schema_manager.rs:infer_expression_type", "src/sql/execution/plans/values_plan.rs:ValueRow::evaluate", "src/sql/execution/executors/values_executor.rs:ValuesExecutor::next"]}
{"id": "C124", "title": "A statement that reports success has done what it says", "statement": "When a command that changes or shows the catalog, or that marks or undoes a part of a transaction (CREATE DATABASE, USE, CREATE SCHEMA, ALTER TABLE, CREATE VIEW, ALTER VIEW, SHOW TABLES, SHOW DATABASES, SHOW COLUMNS, SAVEPOINT, RELEASE SAVEPOINT, ROLLBACK, ROLLBACK TO SAVEPOINT, DROP), is answered with success, what it asks for has happened to the object it names and nothing else has; a command that cannot be carried out is refused and leaves everything as it was.", "quantifier": "every such command with every name, every catalog, every database in use and every sequence of writes and savepoints", "why_tests_cant": "names are arbitrary text and travel through a command line that is put together and taken apart again, so a test of a few plain names says nothing about the others; and a test that only looks at the answer sees success for commands that do nothing", "anchors": ["src/sql/execution/executors/command_executor.rs:execute_command", "src/sql/execution/executors/command_executor.rs:execute_create_database", "src/sql/execution/executors/command_executor.rs:execute_use_database", "src/sql/planner/logical_plan.rs:to_physical_plan", "src/sql/planner/plan_builder.rs:build_create_database_plan", "src/sql/planner/plan_builder.rs:build_alter_table_plan", "src/sql/planner/plan_builder.rs:build_create_view_plan", "src/sql/planner/plan_builder.rs:build_use_plan", "src/sql/execution/executors/rollback_transaction_executor.rs:next", "src/catalog/catalog_impl.rs:create_database", "src/catalog/catalog_impl.rs:use_database"]}
{"id": "C125", "title": "HAVING in a query without groups tests the columns it names", "statement": "SELECT items FROM t WHERE w HAVING h, with no GROUP BY and no aggregate, is refused or returns, of the rows of t for which w is true, those for which h is true, as the SELECT list shows them; a column named in h is that column of t, wherever the SELECT list puts it and whether or not it is shown.", "quantifier": "every table with every rows, every SELECT list, every WHERE and every HAVING condition over the columns", "why_tests_cant": "whether the right column is tested depends on the positions of the columns in the table and in the SELECT list together; tests with SELECT * or with the columns in the table's order always pass", "anchors": ["src/sql/planner/plan_builder.rs:build_select_plan_with_order_by", "src/sql/execution/executors/filter_executor.rs:FilterExecutor::apply_where_filter", "src/sql/execution/expressions/column_value_expression.rs:ColumnRefExpression::evaluate"]}
{"id": "C126", "title": "The figures reported about disk operations are true of the operations", "statement": "For every history of recorded reads, writes, batches, flushes and cache lookups the counters, byte totals and averages are the counts, sums and averages of that history, the largest and smallest latency are those of its single-page operations, a reported latency percentile is the point of the published scale below which the operation of that rank lies, the error count is the number of operations that failed, a reset starts all figures afresh, and every operation that was started is counted as pending or as ended in exactly one way; concurrent recording does not lose the maximum.", "quantifier": "every history of recorded operations, every rank, every outcome of every read, every interleaving of recording threads", "why_tests_cant": "A test records a handful of operations in one thread; it cannot cover batches of every size, all schedules of the recording threads and all mixes of failing and succeeding reads.", "anchors": ["src/storage/disk/async_disk/metrics/collector.rs:record_read", "src/storage/disk/async_disk/metrics/collector.rs:update_latency_distribution", "src/storage/disk/async_disk/metrics/collector.rs:get_percentile_latency", "src/storage/disk/async_disk/metrics/collector.rs:reset_metrics", "src/storage/disk/async_disk/manager.rs:read_page", "src/storage/disk/async_disk/io/metrics.rs:record_operation_complete"]}
{"id": "C127", "title": "The comparisons of two values that are not numbers agree with each other", "statement": "For any two values of one kind other than decimals and floats (booleans, integers, timestamps, dates, times, intervals, text, bytes, JSON, UUIDs, enum members, vectors, arrays), exactly one of v < w, v = w, v > w holds; <=, >=, <> are the corresponding combinations; a comparison with NULL is unknown; the least and greatest of two values are one of them and not after or before the other, whichever way round they are given; and the order used for sorting is the same one, with NULL first. Refuted for vectors and arrays (every one of them equals itself but is neither <= nor >= itself, and a NULL inside one counts as equal to any NULL), for text stored as VARCHAR compared with the same text as CHAR (never equal), and for least and greatest of values of different kinds (both are whichever is given second).", "quantifier": "all pairs of values; nested lists of any depth", "why_tests_cant": "The comparisons are written out six times over pairs of kinds; only a proof covers every pair of kinds and every content, and shows the six to be one order.", "anchors": ["src/types_db/value.rs:compare_equals", "src/types_db/value.rs:compare_not_equals", "src/types_db/value.rs:compare_less_than", "src/types_db/value.rs:compare_less_than_equals", "src/types_db/value.rs:compare_greater_than", "src/types_db/value.rs:compare_greater_than_equals", "src/types_db/value.rs:min", "src/types_db/value.rs:max", "src/types_db/value.rs:partial_cmp"]}
{"id": "C128", "title": "A directory page of the hash index stays consistent", "statement": "In the directory page of the extendible hash index no bucket is deeper than the directory and two entries share a bucket exactly if their numbers agree in as many low bits as the bucket is deep. Growing the directory, splitting a bucket (both ways offered) and halving a directory that says it can be halved keep this so; growing and halving move no key, and a split moves exactly the keys of that bucket whose next bit is set. The integrity check passes for every consistent directory. Refuted for merging: whenever a bucket is merged with its buddy the directory becomes inconsistent, the page handed back for deletion is the one still in use, and if the two were among the deepest the directory can never be halved again; the integrity check also passes for some inconsistent directories; and the split image of a bucket of depth 0 is not its image.", "quantifier": "all consistent directories, buckets, page numbers and hashes; all sequences of splits of a new directory", "why_tests_cant": "The property relates all pairs of up to 512 entries at all depths after any history of splits; a test checks a few directories.", "anchors": ["src/storage/page/page_types/extendable_hash_table_directory_page.rs:split_bucket", "src/storage/page/page_types/extendable_hash_table_directory_page.rs:update_directory_for_split", "src/storage/page/page_types/extendable_hash_table_directory_page.rs:merge_bucket", "src/storage/page/page_types/extendable_hash_table_directory_page.rs:can_shrink", "src/storage/page/page_types/extendable_hash_table_directory_page.rs:decr_global_depth", "src/storage/page/page_types/extendable_hash_table_directory_page.rs:verify_integrity", "src/storage/page/page_types/extendable_hash_table_directory_page.rs:get_split_image_index"]}
{"id": "C129", "title": "CREATE INDEX makes the index asked for, or says that it did not", "statement": "CREATE INDEX on an existing table and existing columns with a free name creates an index of that name on exactly those columns, unique if so asked, and leaves all others as they were; with a table or column that does not exist it is refused and nothing happens; with a name that is taken it is refused unless IF NOT EXISTS is given. Indexes created without a name on different columns or tables do not get in each other's way. Over any history index names are unique, every index is on columns of its table and none changes. Refuted: UNIQUE is dropped; with a name that is taken, even by an index of another table, the statement is reported as done without IF NOT EXISTS; and generated names coincide when a table or column name has an underscore in it, so that the second index is silently not made.", "quantifier": "all catalogs, statements and histories of CREATE INDEX", "why_tests_cant": "It ranges over all names, column lists and histories; a test creates one or two indexes.", "anchors": ["src/sql/planner/plan_builder.rs:build_create_index_plan", "src/sql/execution/executors/create_index_executor.rs:next", "src/catalog/database.rs:create_index", "src/sql/execution/execution_engine.rs:execute_sql"]}
{"id": "C130", "title": "START TRANSACTION starts the transaction asked for", "statement": "START TRANSACTION (or BEGIN) with any list of modes starts one new transaction whose isolation level is the last one named, READ COMMITTED if none is, and touches no other transaction; if READ ONLY is the last access mode named the transaction cannot change rows; the statements of a BEGIN ... END block are carried out in it. Refuted: READ ONLY has no effect, and the statements of the block are dropped.", "quantifier": "all lists of modes, all database states, all statements run in the new transaction", "why_tests_cant": "It is about every combination of modes and every later statement; a test starts one transaction and looks at its level.", "anchors": ["src/sql/planner/plan_builder.rs:build_start_transaction_plan", "src/sql/planner/logical_plan.rs:StartTransaction", "src/sql/execution/executors/start_transaction_executor.rs:next"]}
{"id": "C131", "title": "The methods of a value answer what their names say", "statement": "Called on a vector, get(i) is the element at i counting from nought and an index that is negative or past the end is refused, whatever kind of integer it is; size() is the number of elements. Called on a text, length() is the number of its characters, and value(path, type) is what the document holds at the path, as a text or as an integer.", "quantifier": "every vector, every index of every integer kind, every text and document, every path and every name of a type", "why_tests_cant": "The answer depends on the sign and width of the index, on the characters of the text and on where the tags stand; tests call each method on one or two short literals.", "anchors": ["src/sql/execution/expressions/method_expression.rs:MethodExpression::evaluate"]}
{"id": "C132", "title": "CONVERT gives the value in the type asked for", "statement": "CONVERT of a value to a type gives the same value in that type, under a column of that type, or an error if it does not fit; TRY_CONVERT gives the same, and the NULL of the type in place of an error; a type that is not known is refused before anything runs; a character set changes none of this.", "quantifier": "every value, every type a statement can name, every character set, TRY or not", "why_tests_cant": "The outcome depends on the value, its type, the type asked for and the character set together; tests convert a few literals.", "anchors": ["src/sql/execution/expressions/convert_expression.rs:ConvertExpression::evaluate", "src/sql/execution/expression_parser.rs:ExpressionParser::parse_expression"]}
{"id": "C133", "title": "The figures of the performance monitor say what was reported to it", "statement": "The counters count what was reported since the last reset; the score of the buffer pool is the share of fetches that found their page; every score lies between nought and one; averages are averages of what was reported; and after a reset the figures are those of a fresh start.", "quantifier": "every history of reports and resets", "why_tests_cant": "The figures depend on the whole history and on which fields a reset clears; tests report one or two events.", "anchors": ["src/common/performance_monitor.rs:reset_metrics", "src/common/performance_monitor.rs:analyze_buffer_pool_performance", "src/common/performance_monitor.rs:analyze_lock_manager_performance", "src/common/performance_monitor.rs:record_mvcc_operation"]}
