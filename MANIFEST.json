{
 "claims": [
  {
   "property": "C01",
   "status": "proved",
   "theorems": [
    "c01_i64_roundtrip",
    "c01_i64_none_iff",
    "c01_i64_onto",
    "c01_bytes_roundtrip",
    "c01_bytes_short_iff",
    "c01_bytes_reencode",
    "c01_order_agrees"
   ],
   "note": "Full: both encodings, all RIDs, all i64 values, all byte buffers."
  },
  {
   "property": "C02",
   "status": "partial",
   "theorems": [
    "c02_watermark_is_oldest_registered",
    "c02_watermark_when_idle_partial",
    "c02_watermark_when_idle_refuted",
    "c02_watermark_never_ahead",
    "c02_watermark_monotone",
    "c02_split_registration_refuted",
    "c02_transactions",
    "c02_transactions_monotone"
   ],
   "note": "Proved in full for histories of begin/commit/abort (c02_transactions, c02_transactions_monotone). For the raw oracle API 'at every moment' is false: after a bare get_next_ts the idle watermark lags (c02_watermark_when_idle_refuted), and issuing and registering in two calls can move it back (c02_split_registration_refuted); everything else is proved."
  },
  {
   "property": "C03",
   "status": "proved",
   "theorems": [
    "c03_issued_increasing",
    "c03_issued_after_commit",
    "c03_transactions",
    "c03_wraparound_refuted"
   ],
   "note": "Proved for every history in which the u64 counter does not overflow; c03_wraparound_refuted shows the overflow hypothesis is needed."
  },
  {
   "property": "C04",
   "status": "proved",
   "theorems": [
    "c04_fifo_behaves_like_bounded_list",
    "c04_fifo_never_over_capacity"
   ],
   "note": "Full refinement to a bounded list, all capacities and call sequences (remove_from_cache_only is test-only and not modelled)."
  },
  {
   "property": "C05",
   "status": "proved",
   "theorems": [
    "c05_lru_behaves_like_recency_list",
    "c05_lru_never_over_capacity"
   ],
   "note": "Full refinement of the pointer implementation to a recency list, including absence of dangling dereferences and leaks."
  },
  {
   "property": "C06",
   "status": "proved",
   "theorems": [
    "c06_lfu_histories",
    "c06_lfu_never_over_capacity",
    "c06_lfu_counts_uses"
   ],
   "note": "All capacities, call sequences and hash-map iteration orders (the iteration order is an argument of every call)."
  },
  {
   "property": "C07",
   "status": "partial",
   "theorems": [
    "c07_heap_lfu_histories_partial",
    "c07_heap_lfu_never_over_capacity_partial",
    "c07_heap_lfu_counts_uses",
    "c07_heap_lfu_zero_capacity_refuted"
   ],
   "note": "Proved for every non-zero capacity; refuted at capacity zero, where an inserted entry is stored anyway."
  },
  {
   "property": "C08",
   "status": "partial",
   "theorems": [
    "c08_lruk_histories",
    "c08_lruk_never_over_capacity",
    "c08_lruk_rank_partial",
    "c08_lruk_rank_refuted"
   ],
   "note": "Victim choice proved for every K >= 1; the rank is the eviction position only for K <= 2, refuted for K = 3."
  },
  {
   "property": "C09",
   "status": "proved",
   "theorems": [
    "c09_evict_only_evictable",
    "c09_evict_finds_one",
    "c09_size_counts_evictable",
    "c09_size_is_number_of_evictions",
    "c09_counter_never_negative"
   ],
   "note": "All K and all call sequences; marks are read off calls and answers only."
  },
  {
   "property": "C10",
   "status": "proved",
   "theorems": [
    "c10_evicts_lruk_victim"
   ],
   "note": "Victim order over the complete recorded access lists."
  },
  {
   "property": "C11",
   "status": "partial",
   "theorems": [
    "c11_reads_partial",
    "c11_fetch_partial",
    "c11_unwritten_refuted",
    "c11_write_error_refuted",
    "c11_write_page_refuted",
    "c11_batch_refuted",
    "c11_batch_order_refuted"
   ],
   "note": "Proved for every sequential history without failing writes, batch loads or write_page on closed pages. Refuted: an unwritten page is lost on eviction, a failing eviction write silently loses data, write_page on a page not in memory does nothing, a batch load without a frame gives a detached copy and answers in page-id order."
  },
  {
   "property": "C12",
   "status": "partial",
   "theorems": [
    "c12_pinned_partial",
    "c12_race_refuted",
    "c12_two_copies_refuted",
    "c12_delete_refuted"
   ],
   "note": "Proved for every sequential history and any I/O results, without batch loads. Refuted for calls that overlap (find/evict/pin, two loads at once); a deleted page can be fetched again."
  },
  {
   "property": "C13",
   "status": "partial",
   "theorems": [
    "c13_frames_partial",
    "c13_leak_refuted",
    "c13_leak_always_refuted"
   ],
   "note": "Proved for histories whose fetches all succeed. Refuted: a fetch that fails after taking a frame never gives it back."
  },
  {
   "property": "C14",
   "status": "partial",
   "theorems": [
    "c14_unique_partial",
    "c14_clone_refuted",
    "c14_reopen_refuted",
    "c14_reopen_fetch_refuted"
   ],
   "note": "Proved for one pool under every interleaving. Refuted: clones have their own counter; a reopened pool starts at 0 again."
  },
  {
   "property": "C15",
   "status": "partial",
   "theorems": [
    "c15_flushed_partial",
    "c15_small_buffer_refuted",
    "c15_refused_refuted",
    "c15_sync_error_refuted",
    "c15_write_error_refuted",
    "c15_race_refuted",
    "c15_inflight_refuted"
   ],
   "note": "Proved for calls one after another that all returned Ok and a buffer that holds the pages below the flush threshold (the default does). Refuted in general: a write the buffer refuses returns Ok and is dropped, a failed sync or page write drops pages accepted earlier, and with two tasks an older flush overwrites a newer one or a flush returns Ok before the pages are in the file."
  },
  {
   "property": "C16",
   "status": "partial",
   "theorems": [
    "c16_once_partial",
    "c16_nocache_partial",
    "c16_tier_refuted",
    "c16_dedup_refuted",
    "c16_unflushed_refuted"
   ],
   "note": "Proved for a page with one content, flushed before it is read, under any later schedule, and with the cache off until the next write of the page. Refuted in general: stale copies stay in higher cache tiers and when another page has the same content; with the cache off unflushed writes are invisible."
  },
  {
   "property": "C17",
   "status": "proved",
   "theorems": [
    "c17_accounting",
    "c17_drain",
    "c17_exact"
   ],
   "note": "Staging buffer (memory/write_staging_buffer.rs). For every history the counted bytes lie between the bytes held and the maximum, the dirty count is the number of held pages, refused writes change nothing and a drain hands over exactly the last accepted contents; exact for equal-length contents."
  },
  {
   "property": "C18",
   "status": "partial",
   "theorems": [
    "c18_latest",
    "c18_bound_partial",
    "c18_bound_refuted",
    "c18_kept_partial",
    "c18_kept_refuted",
    "c18_adjacent"
   ],
   "note": "Latest content, table agreement and adjacency hold in every run. The bound on pending pages holds while the maximum is not changed; lowering it and then merging into a pending page leaves more pending (refuted). The page just written is pending when the clock advanced; with equal clock readings it can be dropped (refuted). The choice of pages removed under memory pressure is an argument, not modelled."
  },
  {
   "property": "C19",
   "status": "proved",
   "theorems": [
    "c19_ranges",
    "c19_gaps",
    "c19_gap_size_refuted",
    "c19_duplicates_refuted",
    "c19_aligned"
   ],
   "note": "Proved for every finite set of pages (duplicate-free lists). A page listed twice gets two overlapping ranges; gap sizes wrap for gaps of 2^52 pages or more (both shown)."
  },
  {
   "property": "C20",
   "status": "partial",
   "theorems": [
    "c20_granted_locks_compatible_partial",
    "c20_refuted"
   ],
   "note": "Proved for histories in which a transaction asks again for a resource only after its earlier request there was granted, and not for S over IS or X over IX; refuted in general: an X request over an own IX lock is granted beside another IX holder."
  },
  {
   "property": "C21",
   "status": "proved",
   "theorems": [
    "c21_matrix",
    "c21_row_needs_table"
   ],
   "note": "The code's matrix agrees with the read/write meaning of the modes for all pairs; a granted row lock implies a sufficient table lock of the same transaction."
  },
  {
   "property": "C22",
   "status": "partial",
   "theorems": [
    "c22_finish_releases_all_partial",
    "c22_unlock_releases_partial",
    "c22_kept_after_commit_refuted",
    "c22_waiter_stays_refuted",
    "c22_rows_before_table_refuted"
   ],
   "note": "Proved for transactions with polite requests that never had to wait; refuted in general: duplicate grants and waiting requests survive commit and abort, and the rows-before-table rule compares a page id with a table id."
  },
  {
   "property": "C23",
   "status": "proved",
   "theorems": [
    "c23_detector_sound_and_complete"
   ],
   "note": "For every waits-for graph and every enumeration order of the hash map; the victim is the youngest member of a real cycle."
  },
  {
   "property": "C24",
   "status": "partial",
   "theorems": [
    "c24_repeatable_read",
    "c24_read_committed",
    "c24_read_uncommitted",
    "c24_finished",
    "c24_refuted"
   ],
   "note": "The discipline holds for the mode given to unlock under RR, RC and RU; refuted: an unlock with a wrong mode and SERIALIZABLE/SNAPSHOT escape it."
  },
  {
   "property": "C25",
   "status": "partial",
   "theorems": [
    "c25_snapshot_reads_partial",
    "c25_torn_read_refuted",
    "c25_read_committed_goes_back_refuted"
   ],
   "note": "Proved for every calm history (aborts clean, no GC, whole commits, honest updates) at the snapshot levels. Refuted for reads that overlap an abort and for READ COMMITTED."
  },
  {
   "property": "C26",
   "status": "partial",
   "theorems": [
    "c26_no_dirty_reads_partial",
    "c26_no_dirty_reads_atomic_partial",
    "c26_plain_heap_refuted",
    "c26_plain_heap_read_committed_refuted",
    "c26_sql_update_refuted"
   ],
   "note": "Proved for every history in which updates name their own transaction, with commits in progress, aborts, GC and non-atomic reads. Refuted for TableHeap::get_tuple_with_txn and for the SQL UPDATE, which names transaction 0."
  },
  {
   "property": "C27",
   "status": "partial",
   "theorems": [
    "c27_repeatable_partial",
    "c27_commit_in_progress_refuted"
   ],
   "note": "Proved for every calm history; refuted when a transaction begins during another one's commit."
  },
  {
   "property": "C28",
   "status": "partial",
   "theorems": [
    "c28_abort_unseen_partial",
    "c28_abort_undone_partial",
    "c28_double_update_refuted",
    "c28_row_blocked_refuted",
    "c28_insert_stays_refuted"
   ],
   "note": "Proved for clean aborts in calm histories. Refuted for a transaction that wrote a row twice."
  },
  {
   "property": "C29",
   "status": "partial",
   "theorems": [
    "c29_no_overwrite_partial",
    "c29_lost_update_refuted"
   ],
   "note": "Writes to a row with a running writer are refused; but updates after a concurrent transaction's commit are accepted (lost update)."
  },
  {
   "property": "C30",
   "status": "partial",
   "theorems": [
    "c30_prune_harmless_partial",
    "c30_gc_refuted",
    "c30_prune_aborted_refuted"
   ],
   "note": "Pruning finished transactions is harmless in calm histories; garbage_collection and pruning of aborted transactions are not."
  },
  {
   "property": "C31",
   "status": "partial",
   "theorems": [
    "c31_reads_partial",
    "c31_reads_refuted",
    "c31_huge_update_refuted"
   ],
   "note": "Holds (and no call panics for tuples below 64 KiB) when no row is inserted after a row other than the newest one grew; refuted in general: the grown row is overwritten by the next insert, and an update of 64 KiB or more panics."
  },
  {
   "property": "C32",
   "status": "partial",
   "theorems": [
    "c32_round_trip_partial",
    "c32_header_round_trip",
    "c32_round_trip_refuted"
   ],
   "note": "Round trip proved for orderly histories in which metadata does not get longer, and for all headers; refuted in general: a commit timestamp on a full page makes the image unreadable."
  },
  {
   "property": "C33",
   "status": "partial",
   "theorems": [
    "c33_heap_partial",
    "c33_links_partial",
    "c33_insert_accepted_partial",
    "c33_reported_rid_partial",
    "c33_first_insert_refuted",
    "c33_reported_rid_refuted",
    "c33_grow_refuted"
   ],
   "note": "Proved for every history in which no row is put on a page after an older row of that page was made longer (c33_heap_partial: reads, scan, counts; c33_links_partial; c33_insert_accepted_partial). Refuted without it (c33_grow_refuted); the scan's reported RID is wrong after a deletion (c33_reported_rid_refuted, right without deletions: c33_reported_rid_partial); the first INSERT into a heap made without a page is refused (c33_first_insert_refuted). Pages are assumed to stay in the buffer pool (see C62)."
  },
  {
   "property": "C34",
   "status": "partial",
   "theorems": [
    "wal_commit_durable_partial",
    "wal_commit_durable_refuted",
    "wal_first_commit_refuted",
    "wal_commit_lost_when_stopped"
   ],
   "note": "Proved for every schedule of appends, flush steps, write and sync failures, shutdowns, OS write-backs, crashes and restarts: when a commit append returns in a process whose log writes have not failed and that was not shut down (and that is not record 0 after recovery), it and every earlier record are on the device and stay there. Refuted as stated: after a failed flush or a shutdown commits return although nothing is written, and the first record after recovery counts as flushed."
  },
  {
   "property": "C35",
   "status": "partial",
   "theorems": [
    "wal_lsns_partial",
    "wal_lsns_restart",
    "wal_lsns_refuted"
   ],
   "note": "Within a process: numbers 0,1,2,... in append order and increasing in the file, under all schedules and failures. Refuted across restarts: numbering always starts at 0 again, so one file gets two records with one number."
  },
  {
   "property": "C36",
   "status": "partial",
   "theorems": [
    "log_reads_back",
    "log_reads_back_torn",
    "log_after_torn_refuted",
    "log_long_record_refuted"
   ],
   "note": "Proved for every list of valid records of at most 1,000,000 bytes each and every cut of the last one, for any self-delimiting tuple encoding (a hypothesis). Refuted for logs that go on after a torn record (later records are lost; universally quantified) and for longer records."
  },
  {
   "property": "C37",
   "status": "partial",
   "theorems": [
    "recovery_partial",
    "recovery_undoes",
    "recovered_rows_unseen_refuted",
    "recovery_aborted_refuted",
    "recovery_second_process_refuted"
   ],
   "note": "For every log of one process that follows the rules of wf (and when no page refuses a row) recovery leaves exactly the rows of the committed transactions, whatever order the hash map gives. The full claim is refuted: recovered rows carry no commit timestamp and are seen by nobody else, aborted transactions come back, and a second process's committed records are not redone."
  },
  {
   "property": "C38",
   "status": "partial",
   "theorems": [
    "c38_scan_partial",
    "c38_distinct_partial",
    "c38_pair_twice_refuted",
    "c38_odd_order_refuted",
    "c38_null_refuted"
   ],
   "note": "Proved for every sequence of inserts of keys of one type at every even order (the database uses 4), and at every order with distinct keys. False for odd orders with equal keys, NULL keys, and pairs handed in twice: witnesses given."
  },
  {
   "property": "C39",
   "status": "partial",
   "theorems": [
    "c39_deletes_partial",
    "c39_first_delete_partial",
    "c39_missed_refuted",
    "c39_order_refuted"
   ],
   "note": "Proved: every delete removes exactly what it says, for any run of deletes after any inserts; the first delete answers true exactly if the entry is present. False in general: merging inner nodes drops subtrees, so later deletes miss present entries and later inserts break the order."
  },
  {
   "property": "C40",
   "status": "partial",
   "theorems": [
    "c40_full_partial",
    "c40_range_partial",
    "c40_seek_partial",
    "c40_endless_refuted",
    "c40_reset_refuted"
   ],
   "note": "Proved for iterators without bounds and for ranges whose upper bound is an entry's key or that are empty. False otherwise: for every other range the iterator provably never ends; a reset iterator returns nothing."
  },
  {
   "property": "C41",
   "status": "partial",
   "theorems": [
    "c41_bounds_partial",
    "c41_scan_partial",
    "c41_point_lookup",
    "c41_one_sided_refuted",
    "c41_or_refuted",
    "c41_and_or_refuted",
    "c41_other_column_refuted",
    "c41_endless_refuted"
   ],
   "note": "Proved for conjunctions of comparisons of the indexed column and for ORs of two-sided ones; point lookups exact. False for one-sided ranges, one-sided ORs, OR below AND, and conditions on other columns: witnesses given."
  },
  {
   "property": "C42",
   "status": "partial",
   "theorems": [
    "hash_index_partial",
    "hash_index_refuses_partial",
    "hash_index_split_refuted",
    "hash_index_remove_refuted",
    "hash_index_evicted_refuted"
   ],
   "note": "Right answers for every hash function, sizes and call sequence as long as no bucket is split at an index beyond its local depth and no two buckets are merged. Refuted in general: such splits put keys where lookups do not look, merging deletes the buddy's page, and nothing survives eviction because the pages' bytes are never written."
  },
  {
   "property": "C43",
   "status": "proved",
   "theorems": [
    "c43_limit_offset",
    "c43_limit_offset_errors"
   ],
   "note": "LIMIT n OFFSET m over any child executor returns rows m+1..m+n in order; a failing child is reported unless LIMIT was already satisfied."
  },
  {
   "property": "C44",
   "status": "partial",
   "theorems": [
    "c44_order_by",
    "c44_order_by_terminates",
    "c44_child_error_refuted"
   ],
   "note": "Proved: a stable sort of the child's rows by the specification (NULLs first, DESC reversed). Refuted: when the child fails midway the rows read so far are returned and the failure is lost."
  },
  {
   "property": "C45",
   "status": "partial",
   "theorems": [
    "c45_topn_largest_partial",
    "c45_topn_terminates",
    "c45_order_refuted",
    "c45_ascending_refuted",
    "c45_null_refuted",
    "c45_child_error_refuted"
   ],
   "note": "Proved: with non-NULL keys the min(k,n) rows with the largest keys are kept. Refuted: output order, ascending sorts, NULL keys, child failures."
  },
  {
   "property": "C46",
   "status": "partial",
   "theorems": [
    "c46_distinct_partial",
    "c46_null_collision_refuted"
   ],
   "note": "Proved for rows without NULLs: first occurrence of every row, in order. Refuted with NULLs: different rows can share a key and one is dropped."
  },
  {
   "property": "C47",
   "status": "partial",
   "theorems": [
    "c47_inner",
    "c47_cross",
    "c47_left",
    "c47_right_partial",
    "c47_full_partial",
    "c47_right_full_sound",
    "c47_errors_reported",
    "c47_right_empty_left_refuted",
    "c47_right_duplicates_refuted"
   ],
   "note": "Inner, cross and left joins proved in full; right and full joins proved when the left side is non-empty and partnerless right rows are distinct, and proved to lose only partnerless right rows otherwise. Refuted: right join with an empty left side; duplicate partnerless right rows."
  },
  {
   "property": "C48",
   "status": "partial",
   "theorems": [
    "c48_hash_join_partial",
    "c48_duplicate_keys_refuted",
    "c48_null_keys_refuted",
    "c48_right_error_refuted"
   ],
   "note": "Equals the nested-loop equi-join when right keys are distinct and non-NULL. Refuted: duplicate right keys, NULL keys, failing right child."
  },
  {
   "property": "C49",
   "status": "partial",
   "theorems": [
    "c49_groups_partial",
    "c49_no_rows_partial",
    "c49_count_null_refuted",
    "c49_sum_overflow_refuted",
    "c49_sum_empty_refuted",
    "c49_error_skips_refuted",
    "c49_child_error_refuted"
   ],
   "note": "Proved for all rows whose sums are of one integer type and in range, whose extremes are comparable and whose counted expressions are not NULL. Refuted: COUNT(x) counts NULLs, SUM wraps, SUM over no rows is 0, an error in one aggregate silently skips the later ones, a failing child gives an empty answer. AVG is C100."
  },
  {
   "property": "C50",
   "status": "partial",
   "theorems": [
    "c50_where_logic",
    "c50_where_partial",
    "c50_between",
    "c50_null_arith_refuted",
    "c50_case_unknown_refuted",
    "c50_in_char_refuted",
    "c50_distinct_width_refuted",
    "c50_filter_executor"
   ],
   "note": "Proved in full for comparisons, AND/OR/NOT, IS tests, COALESCE and BETWEEN; for all expression forms outside the cases the engine treats differently from SQL. Those cases are refuted: arithmetic on NULL, CASE on UNKNOWN, IN across CHAR/VARCHAR, IS DISTINCT FROM across integer widths."
  },
  {
   "property": "C51",
   "status": "partial",
   "theorems": [
    "insert_values_partial",
    "insert_bulk_partial",
    "rows_have_arity",
    "generated_keys_fresh",
    "insert_null_refuted",
    "insert_default_refuted",
    "generated_key_clash_refuted",
    "generated_key_type_refuted"
   ],
   "note": "Through the table API a row gets the table's arity, its defaults and generated keys, or the insert fails for a stated reason; arity holds in every history; fewer than 2^32 generated keys are distinct. Refuted: a NULL given for a NOT NULL column is stored, SQL never applies the default of a column left out (it stores NULL, even for NOT NULL), a generated key can equal one a row already has, and is INTEGER whatever the column type."
  },
  {
   "property": "C52",
   "status": "partial",
   "theorems": [
    "c52_acked_partial",
    "c52_sole_partial",
    "c52_overtaken_refuted",
    "c52_workers_refuted"
   ],
   "note": "Proved for writes that returned Ok before the sync was submitted. Refuted for writes that were only submitted: a sync overtakes queued writes by priority, and with equal priorities by another worker."
  },
  {
   "property": "C53",
   "status": "partial",
   "theorems": [
    "commit_reports_partial",
    "commit_flush_failure_refuted",
    "commit_big_transaction_refuted",
    "commit_unstamped_refuted",
    "commit_after_abort_refuted"
   ],
   "note": "Holds when every row of the write set can be stamped and every page flushed (then: true iff committed, false leaves the rows alone, locks released, the next reader sees the rows). Refuted for all states otherwise: a flush that fails, or a write set on more pages than the pool has frames, makes commit answer false although the transaction is committed and its rows are visible; a row that cannot be stamped leaves the answer true but the row invisible; committing a rolled-back transaction answers false but leaves a commit record in the log."
  },
  {
   "property": "C54",
   "status": "partial",
   "theorems": [
    "c54_arith_exact",
    "c54_arith_total",
    "c54_neg_partial",
    "c54_neg_refuted"
   ],
   "note": "Binary arithmetic proved exact-or-error; unary minus wraps on the least value of the type (refuted there, proved elsewhere)."
  },
  {
   "property": "C55",
   "status": "partial",
   "theorems": [
    "c55_like_partial",
    "c55_answer_right_partial",
    "c55_non_ascii_refuted",
    "c55_null_refuted"
   ],
   "note": "Proved for all ASCII values with any pattern and escape character (c55_like_partial), and that any answer given is right (c55_answer_right_partial). Refuted: values with multi-byte characters panic (c55_non_ascii_refuted); NULL operands compare as the text NULL (c55_null_refuted)."
  },
  {
   "property": "C56",
   "status": "partial",
   "theorems": [
    "c56_optimize_partial",
    "c56_fresh_index_partial",
    "c56_projection_refuted",
    "c56_index_refuted",
    "c56_topn_refuted"
   ],
   "note": "Proved for all plans without directly nested projections over tables with no index on the first column, with the rules the engine runs; and that a freshly made index returns the table's rows. Refuted in general: nested projections are merged by dropping the outer one, an index misses rows inserted after it was made, TopN rewriting loses the direction."
  },
  {
   "property": "C57",
   "status": "partial",
   "theorems": [
    "c57_on_condition_partial",
    "c57_swapped_refuted",
    "c57_one_table_refuted"
   ],
   "note": "Proved for equalities written left-table-first. Refuted: operands the other way round fail, conditions on one table compare the wrong column."
  },
  {
   "property": "C58",
   "status": "partial",
   "theorems": [
    "c58_reports_are_deadlocks_partial",
    "c58_false_report_refuted",
    "c58_missed_deadlock_refuted"
   ],
   "note": "Reports are true in histories of S and X requests, each for something its transaction has no request for yet (plain); refuted in both directions in general."
  },
  {
   "property": "C59",
   "status": "partial",
   "theorems": [
    "c59_unlock_hangs",
    "c59_unlock_with_waiters_refuted",
    "c59_dead_upgrade_refuted"
   ],
   "note": "Refuted: the releasing thread blocks on the waiting request's own mutex. c59_unlock_hangs characterises when, for every reachable state."
  },
  {
   "property": "C60",
   "status": "partial",
   "theorems": [
    "c60_lock_stays",
    "c60_own_request_refuted",
    "c60_waiting_upgrade_refuted"
   ],
   "note": "No operation of another transaction ever removes a granted lock; a further request of the holder can."
  },
  {
   "property": "C61",
   "status": "partial",
   "theorems": [
    "c61_own_rows_partial",
    "c29_no_overwrite_partial",
    "c61_sql_update_own_row_refuted",
    "c61_sql_update_others_row_refuted"
   ],
   "note": "Holds for callers naming their own transaction; refuted for the SQL UPDATE executor."
  },
  {
   "property": "C62",
   "status": "partial",
   "theorems": [
    "c62_image_after_insert_partial",
    "c62_reload_refuted",
    "c62_stale_image_refuted"
   ],
   "note": "Refuted: a page fetched again after leaving the buffer pool has no rows and no links, whatever it held; its image also misses everything since the last insert. Proved: decoding the image written right after an insert would give all rows."
  },
  {
   "property": "C63",
   "status": "partial",
   "theorems": [
    "c63_returns_partial",
    "c63_miss_refuted",
    "c63_restart_refuted",
    "c63_dedup_refuted"
   ],
   "note": "With work stealing off every read returns. With work stealing on, as by default, a read that misses the cache is queued on a scheduler whose queues nothing serves: it never returns, for every state; so after a restart no page of an existing file can be read."
  },
  {
   "property": "C64",
   "status": "partial",
   "theorems": [
    "c64_order_partial",
    "c64_workers_refuted",
    "c64_timeout_refuted"
   ],
   "note": "Proved for one worker. Refuted with several workers (the default is four), and, for a caller that waits, when the first write timed out but still runs."
  },
  {
   "property": "C65",
   "status": "proved",
   "theorems": [
    "c65_read"
   ],
   "note": "For every schedule of workers, priorities, faults, cancellations and device writes."
  },
  {
   "property": "C66",
   "status": "partial",
   "theorems": [
    "log_read_at_partial",
    "log_read_at_refuted"
   ],
   "note": "Reading at an offset always reads 1024 bytes: proved when they exist and the record fits in them; every record in the last 1023 bytes of the log is unreadable (universally quantified)."
  },
  {
   "property": "C67",
   "status": "partial",
   "theorems": [
    "session_one_transaction_partial",
    "session_statement_partial",
    "session_rollback_partial",
    "autocommit_insert_partial",
    "session_sql_begin_refuted",
    "session_sql_begin_leaks_refuted",
    "session_sql_commit_refuted"
   ],
   "note": "Proved for protocol begin/commit/rollback requests with arbitrary other clients; rollback is proved for inserted rows (see C28 for updates), all-or-nothing for statements that insert. Refuted for SQL text: BEGIN, INSERT, ROLLBACK through execute_sql all succeed and the row stays; the transaction BEGIN starts is running for ever; COMMIT as text inside a protocol transaction leaves the session stuck in the finished transaction with its locks."
  },
  {
   "property": "C68",
   "status": "partial",
   "theorems": [
    "insert_columns_partial",
    "insert_select_ignores_list_refuted"
   ],
   "note": "Proved for INSERT ... VALUES. Refuted for INSERT ... SELECT: the column list has no influence beyond its types."
  },
  {
   "property": "C69",
   "status": "partial",
   "theorems": [
    "insert_foreign_key_partial",
    "foreign_key_dangling_refuted",
    "foreign_key_generated_refuted"
   ],
   "note": "Proved for rows as SQL INSERT stores them (columns that are not also the primary key). Refuted for later DELETE of the parent, UPDATE of the child, inserts through the API and generated keys."
  },
  {
   "property": "C70",
   "status": "partial",
   "theorems": [
    "failed_insert_partial",
    "failed_insert_refuted"
   ],
   "note": "What a failed INSERT leaves is the rows before the failing one; a one-row INSERT that fails leaves nothing. Refuted for several rows."
  },
  {
   "property": "C71",
   "status": "partial",
   "theorems": [
    "generated_keys_unique_partial",
    "insert_duplicate_refuted"
   ],
   "note": "Keys are unique in histories that leave them to the engine and generate at most 2^32. Refuted otherwise: no declared key, UNIQUE or CHECK is enforced (the validator in catalog/constraints.rs is not called)."
  },
  {
   "property": "C72",
   "status": "partial",
   "theorems": [
    "compress_coded_partial",
    "compress_none_partial",
    "compress_none_ff_refuted",
    "compress_none_run_refuted",
    "compress_none_drop_refuted",
    "compress_none_magic_refuted",
    "compress_none_zeros_refuted"
   ],
   "note": "Proved for LZ4 and Zstd at all levels (given codecs that round-trip) and for no compression when the data does not start with 0xF0 or 0xF1 and has no byte 0xFF except as its last byte, or as its last but one when the last is neither 0x00 nor 0xFE. Refuted without compression otherwise: 0xFF 0x00 loses a byte, 0xFF c d becomes c copies of d, 0xFF 0xFE is dropped, a leading 0xF0 panics, six bytes become up to 4 GiB of zeros."
  },
  {
   "property": "C73",
   "status": "partial",
   "theorems": [
    "read_into_exact",
    "read_new_exact_partial",
    "read_new_length_refuted",
    "read_into_succeeds_partial",
    "read_tail_refuted",
    "write_exact",
    "write_then_read"
   ],
   "note": "Every successful read returns the file's bytes and every write is exact or a prefix, for all short transfers and faults. Refuted: with direct I/O read_aligned returns more than was asked for, and the bytes at the end of a file whose length is not a multiple of the alignment cannot be read."
  },
  {
   "property": "C74",
   "status": "partial",
   "theorems": [
    "write_page_partial",
    "read_page_exact",
    "read_page_succeeds",
    "append_read_back",
    "write_page_block_refuted",
    "write_page_wrap_refuted"
   ],
   "note": "Proved for page numbers below 2^52 and alignments that divide a page (the disk manager uses 4096). Refuted for larger alignments (the next page is zeroed) and for page 2^52 (overwrites page 0)."
  },
  {
   "property": "C75",
   "status": "partial",
   "theorems": [
    "update_exact_partial",
    "delete_exact_partial",
    "update_own_row_refuted",
    "update_halfway_refuted",
    "update_others_row_refuted"
   ],
   "note": "Proved for transactions with snapshot reads after any calm history, without a running transaction 0. Refuted: an UPDATE fails on rows the transaction itself wrote, a failed UPDATE leaves the rows before changed, and one that meets an uncommitted row of transaction 0 destroys its update."
  },
  {
   "property": "C76",
   "status": "partial",
   "theorems": [
    "cast_integers",
    "cast_text_round_trip",
    "cast_typed",
    "cast_null_own",
    "cast_decimal_partial",
    "cast_decimal_saturates",
    "cast_keeps_value_refuted"
   ],
   "note": "Integer to integer exact or refused; whole numbers and booleans survive a trip through text; results are typed and in range. Refuted in full: integers above 2^53 (2^24 for float) change silently, decimals too large for an integer become its largest value, timestamps above 2^63 wrap."
  },
  {
   "property": "C77",
   "status": "partial",
   "theorems": [
    "cast_join_agrees_partial",
    "cast_where_rounds",
    "cast_join_agrees_refuted"
   ],
   "note": "Agreement whenever the WHERE form gives a value and is not decimal to integer. Refuted: CAST(2.5 AS INTEGER) is 3 in WHERE and 2 in a join condition; CAST('5' AS INTEGER) is an error in WHERE and 5 in a join condition."
  },
  {
   "property": "C78",
   "status": "partial",
   "theorems": [
    "C78_paged_index_map_partial",
    "C78_reachable_reads_partial",
    "C78_order_one_refuted",
    "C78_header_evicted_refuted",
    "C78_page_evicted_refuted",
    "C78_allocation_failure_refuted"
   ],
   "note": "Proved for every history of insertions and reads, both insertion variants, order at least two, pages resident and allocations that succeed. Refuted: order one, an evicted header page (the tree looks empty and accepted keys are lost), an evicted tree page (panic), allocations that fail during a split."
  },
  {
   "property": "C79",
   "status": "partial",
   "theorems": [
    "C79_removal_small_partial",
    "C79_removal_spared_partial",
    "C79_removal_hangs_refuted",
    "C79_redistribution_refuted",
    "C79_order_three_refuted"
   ],
   "note": "Proved for every history whose map never exceeds the order, and for every history whose removals leave their leaf at least half full. Refuted otherwise: a removal can hang (a leaf merged with itself), redistribution under a root with one key misplaces pointers, keys are lost at order three."
  },
  {
   "property": "C80",
   "status": "partial",
   "theorems": [
    "C80_concurrent_inserts_partial",
    "C80_concurrent_inserts_refuted"
   ],
   "note": "Proved when the insertion in between allocates no page, in every reachable tree. Refuted when it splits the leaf the other one had found: both are accepted and one key is not found."
  },
  {
   "property": "C81",
   "status": "partial",
   "theorems": [
    "c81_names",
    "c81_stable",
    "c81_failed",
    "c81_if_not_exists",
    "c81_oids_partial",
    "c81_oid_shared_refuted",
    "c81_self_reference_refuted"
   ],
   "note": "Names, definitions and indexes refine a map of databases to maps, for every history; failed statements change nothing; OIDs are unique in one database and pages in all. Refuted: databases number their tables independently while the transaction manager keeps one heap per OID; a foreign key to the table itself is always refused."
  },
  {
   "property": "C82",
   "status": "partial",
   "theorems": [
    "c82_rebuild_partial",
    "c82_restart_forgets_refuted",
    "c82_restart_refuted",
    "c82_pages_reused_refuted",
    "c82_rebuild_databases_refuted",
    "c82_rebuilt_pages_refuted",
    "c82_rebuilt_rows_refuted"
   ],
   "note": "Refuted for every history: after a restart the catalog is empty and old pages are given out again. Partial: an explicit rebuild keeps the tables of a single database, also over the next start; refuted with two databases, for new pages, and for rows of tables that grew."
  },
  {
   "property": "C83",
   "status": "partial",
   "theorems": [
    "c83_index_partial",
    "c83_composite_refuted",
    "c83_deleted_refuted"
   ],
   "note": "With one key column of one type and no deleted rows the new index holds exactly the rows (on top of C33 and C38). Refuted for several key columns (the index stays empty) and after a delete (wrong RIDs)."
  },
  {
   "property": "C84",
   "status": "partial",
   "theorems": [
    "c84_any_partial",
    "c84_all_partial",
    "c84_all_no_null_partial",
    "c84_in_constants_partial",
    "c84_all_null_first_refuted",
    "c84_all_order_refuted",
    "c84_in_expressions_refuted"
   ],
   "note": "ANY is the three-valued disjunction; IN over constants likewise; ALL is the conjunction only when no UNKNOWN comparison precedes a FALSE one (refuted otherwise: the list order matters). An item of an IN list that is not a bare constant, such as -1 or a column, is replaced with NULL when the statement is parsed, so x IN (-1) never answers TRUE (refuted). Partial: operands the engine evaluates as SQL does (C50), VARCHAR against CHAR excluded."
  },
  {
   "property": "C85",
   "status": "partial",
   "theorems": [
    "c85_constant_item_partial",
    "c85_subquery_blind_refuted",
    "c85_exists_constant_refuted",
    "c85_in_subquery_refuted",
    "c85_scalar_refuted"
   ],
   "note": "Refuted: no subquery in a condition is executed. Its select list is evaluated on the outer row, so the statement's answer does not depend on the rows of the subquery's table: EXISTS keeps every row, NOT EXISTS none, IN compares with a column of the outer row, a scalar or aggregate subquery keeps no row. Proved: constant select lists over a non-empty subquery are answered correctly."
  },
  {
   "property": "C86",
   "status": "partial",
   "theorems": [
    "c86_substring_partial",
    "c86_substring_bytes_refuted",
    "c86_substring_bigint_refuted",
    "c86_position_partial",
    "c86_position_bytes_refuted",
    "c86_position_substring_partial",
    "c86_overlay_partial",
    "c86_overlay_refuted",
    "c86_null_partial"
   ],
   "note": "On ASCII text SUBSTRING, POSITION and OVERLAY return exactly the characters or position the specification says, for every INTEGER argument. Positions are byte offsets: with a non-ASCII character SUBSTRING and OVERLAY panic and POSITION counts bytes (refuted for all such strings). A BIGINT start is cut to 32 bits; OVERLAY fails on NULL and BIGINT. POSITION and SUBSTRING agree with each other on all strings. evaluate_join copies are not modelled."
  },
  {
   "property": "C87",
   "status": "partial",
   "theorems": [
    "c87_trim_partial",
    "c87_trim_what_refuted",
    "c87_case_partial",
    "c87_functions_refuted"
   ],
   "note": "TRIM removes exactly the characters of the set at the sides asked for, for all Unicode strings; the standard form TRIM(LEADING x FROM s) ignores x. UPPER and LOWER are modelled on ASCII letters. Every other scalar function the planner accepts fails on each row."
  },
  {
   "property": "C88",
   "status": "partial",
   "theorems": [
    "c88_messages_partial",
    "c88_one_read_partial",
    "c88_one_read_possible_partial",
    "c88_cut_request_partial",
    "c88_long_query_refuted",
    "c88_smuggled_request_refuted",
    "c88_second_request_refuted"
   ],
   "note": "Serialisation is lossless and prefix-free for all messages; when each read returns one request, requests are answered once and in order. Refuted otherwise: the server takes each read of at most 1024 bytes for a request, so longer queries are never executed, text inside a long query can run as a request of its own, and a second request in one read is dropped. Values nested in vectors, arrays and structs are not modelled."
  },
  {
   "property": "C89",
   "status": "partial",
   "theorems": [
    "c89_small_answer_partial",
    "c89_long_answer_refuted",
    "c89_forged_answer_refuted",
    "c89_stale_answer_refuted"
   ],
   "note": "Answers of up to 4096 bytes are received for every way of cutting them into reads. Answers of 8192 bytes or more are never received; afterwards the next call returns the rest of the old answer, which the content of a row can forge; a request of more than 1024 bytes makes all later answers late by one."
  },
  {
   "property": "C90",
   "status": "partial",
   "theorems": [
    "c90_prepare_refuted",
    "c90_execute_refuted"
   ],
   "note": "Refuted for every database and history: PREPARE executes the statement and never returns a statement id; EXECUTE never finds a statement."
  },
  {
   "property": "C91",
   "status": "partial",
   "theorems": [
    "c91_floor_partial",
    "c91_ceil_partial",
    "c91_ceil_boundary_refuted",
    "c91_2038_refuted",
    "c91_plain_refuted",
    "c91_integer_partial",
    "c91_negative_scale_refuted"
   ],
   "note": "FLOOR proved exact for all timestamps (months and years up to 2^31), CEIL exact off boundaries; refuted: CEIL of an exact boundary, months and years after 2038, CEIL(x) without field, negative scales. DECIMAL arguments (floating point) not modelled."
  },
  {
   "property": "C92",
   "status": "partial",
   "theorems": [
    "c92_extract_refuted",
    "c92_extract_text_partial",
    "c92_at_time_zone_refuted",
    "c92_order_partial",
    "c92_before_1970_refuted"
   ],
   "note": "EXTRACT and AT TIME ZONE fail for every TIMESTAMP value (refuted universally); EXTRACT from a date text proved; literal order proved from 1970 on and refuted before. chrono's parsers are parameters."
  },
  {
   "property": "C93",
   "status": "partial",
   "theorems": [
    "c93_aliased_partial",
    "c93_all_aliased_partial",
    "c93_single_partial",
    "c93_unqualified_partial",
    "c93_on_partial",
    "c93_star",
    "c93_ambiguous_refuted",
    "c93_unknown_table_refuted",
    "c93_no_alias_refuted",
    "c93_star_qualified_refuted",
    "c93_duplicate_alias_refuted",
    "c93_quoted_refuted",
    "c93_case_refuted"
   ],
   "note": "Proved for every legal FROM clause: references through aliases, unambiguous unqualified names, single tables, ON conditions and SELECT *. Refuted: without aliases b.c is the first table's c, a reference to a table that is not in FROM is accepted, ambiguous names are not refused, SELECT t.* returns every table's columns, duplicate aliases are accepted, names are case sensitive. Not covered: derived tables, nested joins, subquery scopes."
  },
  {
   "property": "C94",
   "status": "partial",
   "theorems": [
    "c94_columns_partial",
    "c94_canonical_partial",
    "c94_position_refuted",
    "c94_repeated_refuted",
    "c94_alias_refuted",
    "c94_bare_column_refuted",
    "c94_nested_refuted",
    "c94_joined_refuted",
    "c94_clash_refuted"
   ],
   "note": "True for SELECT lists made of as many grouping columns as GROUP BY has, then aggregates whose functions differ (any such list, table and groups); grouping columns are right in any order. False otherwise: an aggregate placed before the columns shows a grouping column, the last of several aggregates of the same function shows an earlier one, an alias on a grouping column shows the count or drops all rows, a column without GROUP BY is accepted, SUM(x)+z is not an aggregate, two joined columns of one name are confused, a grouping column named SUM_... captures SUM."
  },
  {
   "property": "C95",
   "status": "partial",
   "theorems": [
    "c95_having_filter_partial",
    "c95_order_by_output_partial",
    "c95_having_count_refuted",
    "c95_having_sum_refuted",
    "c95_having_unlisted_refuted",
    "c95_having_column_refuted",
    "c95_having_not_refuted",
    "c95_having_repeated_refuted",
    "c95_order_by_count_refuted",
    "c95_order_by_hidden_refuted"
   ],
   "note": "The groups kept are right for comparisons, AND and OR over aggregates of the SELECT list with different functions, and ordering by the name of a result column sorts by it. False otherwise: with HAVING the items shown are evaluated on the group's row (COUNT is always 1), aggregates not listed are refused, grouping columns are looked up at their place in the table, NOT is not rewritten, repeated functions are confused; ORDER BY COUNT gives every row the key 1 and ORDER BY SUM(x) drops the grouping."
  },
  {
   "property": "C96",
   "status": "partial",
   "theorems": [
    "c96_comparable_partial",
    "c96_null",
    "c96_fraction_refuted",
    "c96_saturates_refuted",
    "c96_asymmetric_refuted",
    "c96_bigint_refuted",
    "c96_float_refuted",
    "c96_text_refuted"
   ],
   "note": "False in general: a comparison casts its left operand to the right operand's type first. So 5.5 = 5 and 1000.5 = 127 are true, 5 < 5.5 is true but 5.5 > 5 is false, a BIGINT of more than 53 bits equals another number, and 10 > '9' depends on which side is the literal. Proved for every operator and all numbers of the same type, integers of any two types, an integer of at most 53 (24) bits against a decimal (float), a float against a decimal, and a whole decimal or float in range against an integer."
  },
  {
   "property": "C97",
   "status": "partial",
   "theorems": [
    "c97_mod_integer_partial",
    "c97_remainder_unique",
    "c97_mod_null",
    "c97_mod_literal_refuted",
    "c97_mod_types_refuted",
    "c97_mod_panics_refuted",
    "c97_concat",
    "c97_concat_null_refuted",
    "c97_concat_char_refuted"
   ],
   "note": "Proved: the remainder of two INTEGERs, NULL for a zero divisor, concatenation of VARCHARs. Refuted: % gives NULL (or an error) for every other pair of integer types, so for every x % c with a literal c up to 32767; the smallest INTEGER % -1 panics; || with NULL or a CHAR is an error."
  },
  {
   "property": "C98",
   "status": "partial",
   "theorems": [
    "c98_select_partial",
    "c98_position_refuted",
    "c98_mixed_keys_refuted",
    "c98_mixed_alias_refuted",
    "c98_nulls_order_refuted",
    "c98_fetch_refuted",
    "c98_text_name_refuted"
   ],
   "note": "Proved end to end (planning and running the executors) for queries whose sort keys are all result column names, or without DISTINCT all hidden table columns. False: ORDER BY a number is ignored; an alias and a hidden column together are refused, or sorted by the wrong column; NULLS LAST, PERCENT and WITH TIES are ignored; the text of an unnamed item can capture a sort key. The optimizer is C56, grouping C94/C95, literal casts C96."
  },
  {
   "property": "C99",
   "status": "partial",
   "theorems": [
    "c99_arith_partial",
    "c99_bigint_refuted",
    "c99_float_refuted",
    "c99_null_refuted",
    "c99_decimal_refuted"
   ],
   "note": "Proved for all operators and all operands that the result type can hold (every DECIMAL, FLOAT, TINYINT, SMALLINT and INTEGER for a DECIMAL result), within the range of the exponents. Refuted: BIGINTs beyond 53 bits (INTEGERs beyond 24 bits with FLOAT) are rounded before the operation, so that every such number has a decimal it differs from by 0; NULL operands are errors; DECIMAL is binary, so 0.1 + 0.7 is not 0.8."
  },
  {
   "property": "C100",
   "status": "partial",
   "theorems": [
    "c100_avg_partial",
    "c100_no_rows",
    "c100_type_refuted",
    "c100_overflow_refuted",
    "c100_bigint_refuted",
    "c100_order_refuted",
    "c100_modifiers_refuted",
    "c100_distinct_refuted"
   ],
   "note": "Proved for all rows, groupings and lists of SUM, COUNT and AVG over INTEGER columns whose sums are in range, BIGINT columns whose sums are below 2^53 and DECIMAL columns whose sums are exact. Refuted: AVG over TINYINT, SMALLINT and FLOAT columns is always NULL; sums of INTEGERs wrap around; sums of BIGINTs are rounded before the division; the mean of DECIMALs depends on the order of the rows; DISTINCT and FILTER in an aggregate call are ignored."
  },
  {
   "property": "C101",
   "status": "partial",
   "theorems": [
    "c101_array",
    "c101_accepted",
    "c101_index_partial",
    "c101_slice_partial",
    "c101_mixed_refuted",
    "c101_bigint_refuted",
    "c101_min_refuted",
    "c101_null_refuted",
    "c101_nested_refuted",
    "c101_bad_bound_refuted",
    "c101_stride_refuted"
   ],
   "note": "Proved for all arrays below 2^31 elements, all rows and all indexes and bounds above -2^31 and below 2^31. Refuted: elements of different types are kept unconverted; BIGINT indexes are cut to 32 bits, so every index k + m*2^32 gives element k; the bound -2^31 gives an empty part; NULL arrays and indexes are errors; a[i][j] is always refused; a bound that cannot be planned is silently taken as 0 or -1; steps are ignored."
  },
  {
   "property": "C102",
   "status": "partial",
   "theorems": [
    "c102_descending_partial",
    "c102_groups_ascend",
    "c102_terminates",
    "c102_ascending_refuted",
    "c102_null_refuted",
    "c102_child_error_refuted"
   ],
   "note": "Proved for descending orders on non-NULL keys of fixed types (any group keys, any arrival order, any n). False for ascending orders, the default (the plan drops the directions and the largest rows are returned), with NULL sort keys, and when the input fails: no error is ever reported, the answer is then empty."
  },
  {
   "property": "C103",
   "status": "partial",
   "theorems": [
    "c103_row_number_partial",
    "c103_other_functions_refuted",
    "c103_only_first_window",
    "c103_second_window_refuted",
    "c103_more_expressions_refuted",
    "c103_child_error_refuted"
   ],
   "note": "Proved for ROW_NUMBER functions that share one window with non-NULL order keys. False for all other functions (the query fails), for functions with different windows (only the first function's window is used), for PARTITION BY / ORDER BY with several expressions (only one per function is kept), and when the input fails (empty answer)."
  },
  {
   "property": "C104",
   "status": "partial",
   "theorems": [
    "c104_constraints_partial",
    "c104_unknown_column_refused",
    "c104_fk_actions_column",
    "c104_composite_unique_refuted",
    "c104_table_check_refuted",
    "c104_composite_fk_refuted",
    "c104_fk_actions_refuted",
    "c104_second_check_refuted",
    "c104_primary_key_null_refuted"
   ],
   "note": "Proved for declarations with one primary key (any number of columns), one-column UNIQUE and FOREIGN KEY, no table CHECK and no conflicting options. Refuted otherwise: UNIQUE (a, b) is recorded as two single-column constraints and forbids legal rows; table CHECKs, multi-column foreign keys and the actions of table-level foreign keys are dropped without an error; of two CHECKs on a column the first is lost; PRIMARY KEY NULL admits NULL keys."
  },
  {
   "property": "C105",
   "status": "partial",
   "theorems": [
    "c105_integer_types_partial",
    "c105_precision",
    "c105_integer_types_refuted",
    "c105_length_refuted"
   ],
   "note": "Signed types of up to 64 bits fit; every unsigned type except MEDIUMINT UNSIGNED, SIGNED and the 128/256-bit types are accepted and stored in a type that cannot hold their upper range. DECIMAL precision and scale are kept and checked; the length of VARCHAR(n) and CHAR(n) is not recorded."
  },
  {
   "property": "C106",
   "status": "partial",
   "theorems": [
    "c106_delete_partial",
    "c106_update_partial",
    "c106_insert_partial",
    "c106_delete_joins_refused",
    "c106_delete_dropped_refuted",
    "c106_update_dropped_refuted",
    "c106_insert_dropped_refuted",
    "c106_delete_limit_refuted",
    "c106_update_limit_refuted",
    "c106_insert_limit_refuted"
   ],
   "note": "Without LIMIT the plans do what the statements say, and DELETE refuses joins and several tables. Refuted otherwise: LIMIT, ORDER BY, USING, FROM, joins of UPDATE, ON CONFLICT, OR and RETURNING are accepted and dropped; with LIMIT n every selected row is deleted, rewritten or inserted whenever there are more than n."
  },
  {
   "property": "C107",
   "status": "partial",
   "theorems": [
    "c107_unique_sound",
    "c107_exact_partial",
    "c107_primary_key_refuted",
    "c107_composite_key_refuted",
    "c107_check_refuted",
    "c107_check_inverted_refuted",
    "c107_refused_row_remembered_refuted"
   ],
   "note": "For every history accepted rows never share a UNIQUE value or break NOT NULL; exact without key and checks as long as no row was refused. Refuted: only the last primary key is remembered, keys of several columns are never checked, checks are matched by three literal texts, and a refused row's unique values block later legal rows."
  },
  {
   "property": "C108",
   "status": "partial",
   "theorems": [
    "c108_equality",
    "c108_hash",
    "c108_order",
    "c108_meaning",
    "c108_total_partial",
    "c108_nan_refuted",
    "c108_types_refuted"
   ],
   "note": "Equality, hash and order laws proved for all values; totality holds without not-a-number and is refuted with it: NaN is incomparable with every number. Numbers of different types are ordered by type, not by value."
  },
  {
   "property": "C109",
   "status": "partial",
   "theorems": [
    "c109_scan_partial",
    "c109_index_partial",
    "c109_left_refuted",
    "c109_child_refuted",
    "c109_other_child_refuted",
    "c109_panic_refuted",
    "c109_wrong_index_refuted"
   ],
   "note": "Inner joins over a plain table scan are right, without a fitting index or with one on the table's first column that is the key. Refuted: the join type is ignored, the right child's own conditions are dropped, any other right child gives no rows, the index is chosen by its number of columns (wrong column: lost rows; several columns or not the first column: panic)."
  },
  {
   "property": "C110",
   "status": "partial",
   "theorems": [
    "c110_similar_partial",
    "c110_default_escape",
    "c110_line_feed_refuted",
    "c110_operators_refuted",
    "c110_repetition_refuted",
    "c110_class_refuted",
    "c110_null_refuted",
    "c110_empty_escape_refuted"
   ],
   "note": "Proved for patterns of literals, escaped characters, _, % and classes of single characters, on values without line feeds, negated or not, for every escape character that is not itself special. Refuted: _ and % do not match a line feed; | * + ? ( ) { } are compared literally; a range a-z in a class is the three characters a, - and z; [^c] contains ^ and c; NULL is matched as the text NULL; ESCAPE '' panics."
  },
  {
   "property": "C111",
   "status": "partial",
   "theorems": [
    "c111_searched_partial",
    "c111_lazy",
    "c111_unknown_refuted",
    "c111_simple_partial",
    "c111_null_refuted",
    "c111_types_refuted",
    "c111_literal_refuted",
    "c111_accepted",
    "c111_refused_refuted",
    "c111_rewrite",
    "c111_rows"
   ],
   "note": "Proved: with TRUE/FALSE conditions, or values of one type, the first true branch is taken and only it is evaluated; rewriting the children keeps their places; exactly the CASEs with one result type are accepted. Refuted: a NULL condition fails the statement; CASE NULL WHEN NULL matches; a value of another type never matches, so CASE x WHEN 1 never finds the 1 of an INTEGER column (literals up to 127 are TINYINT); THEN 1 ELSE 1000 and ELSE NULL are refused."
  },
  {
   "property": "C112",
   "status": "partial",
   "theorems": [
    "c112_header_trip",
    "c112_leaf_calls",
    "c112_leaf_trip",
    "c112_leaf_full",
    "c112_root_refuted",
    "c112_kind_refuted",
    "c112_leaf_read_refuted",
    "c112_room_refuted",
    "c112_inner_calls",
    "c112_inner_trip_partial",
    "c112_inner_trip_refuted",
    "c112_image_refuted",
    "c112_lost_refuted",
    "c112_reload_refuted",
    "c112_reload_panics"
   ],
   "note": "Proved: the header's and the leaf's own byte forms round-trip (leaf: exactly when it fits, in the documented layout), calls never panic and keep size and lists in step. Refuted: nothing puts these bytes into the page's data array, so every page image written is its kind and zeros and no reader can recover the contents; a reloaded header names no root; leaf and inner pages panic on reload; inner serialization drops all keys and children; the leaf's bytes put the size where the kind byte belongs; the root mark is not written; 510 pairs never fit."
  },
  {
   "property": "C113",
   "status": "partial",
   "theorems": [
    "c113_line",
    "c113_words",
    "c113_discipline",
    "c113_interrupt",
    "c113_lines_partial",
    "c113_lines_refuted",
    "c113_quote_refuted",
    "c113_blank_refuted",
    "c113_begin_refuted",
    "c113_eof_refuted",
    "c113_client_line",
    "c113_client_refuted"
   ],
   "note": "Proved for every session: one-line statements run as typed, the shell's words in any case, one transaction at a time each ended once with an abort after a failed commit, Ctrl-C forgets only the unfinished statement. Refuted: lines are joined with nothing between them (two words become one); a semicolon at a line end inside a literal ends the statement; 'begin ;', 'BEGIN TRANSACTION;' and 'begin; x;' open no transaction; end of input leaves the open transaction neither committed nor aborted; the client takes EXIT for a query and leaves on Ctrl-C. ASCII text only."
  },
  {
   "property": "C114",
   "status": "partial",
   "theorems": [
    "c114_shown_partial",
    "c114_distinct",
    "c114_null_refuted",
    "c114_char_partial",
    "c114_char_refuted",
    "c114_date_partial",
    "c114_date_refuted",
    "c114_decimal_refuted",
    "c114_scale",
    "c114_list_refuted",
    "c114_table",
    "c114_cells"
   ],
   "note": "Proved: each value is shown by the text the specification gives (numerals, decimals within half a unit, clocks, hex, nested lists), different values of a column print differently for every exact type, scales are respected, and the writer prints every row and message once and in order. Refuted: NULL and the text 'NULL' print alike; CHAR prints padded to 255 bytes or cut to 255 characters; no date before 1970 prints; whole decimals from 2^63 on all print as 9223372036854775807 and tiny ones as 0; a list of one text with a comma prints as a list of two. FLOAT, POINT, STRUCT, NaN, infinity and -0 are left out."
  },
  {
   "property": "C115",
   "status": "partial",
   "theorems": [
    "c115_answers",
    "c115_insert_partial",
    "c115_reuse_refuted",
    "c115_nonunique_refuted",
    "c115_past_end_refuted",
    "c115_alone",
    "c115_kept",
    "c115_apart",
    "c115_race_refuted",
    "c115_twice_refuted",
    "c115_fits_partial",
    "c115_fits_refuted",
    "c115_too_big"
   ],
   "note": "Every history of a page is answered as the pairs held demand, except that an insertion needs a slot never used before (c115_answers, c115_insert_partial without removals). False: a removed pair's slot is never used again (c115_reuse_refuted), a second value for a key is refused although the page is described as supporting it (c115_nonunique_refuted), inserting at the slot past the end poisons the page (c115_past_end_refuted), two threads can both be told their insertion succeeded while one pair is lost (c115_race_refuted), or both insert one key (c115_twice_refuted). For every schedule: what was there stays and nothing is invented (c115_kept), insertions at different slots are all kept (c115_apart), a thread alone does what insert does (c115_alone). Pairs of all sizes fit except three (c115_fits_partial, c115_fits_refuted)."
  },
  {
   "property": "C116",
   "status": "partial",
   "theorems": [
    "c116_same_partial",
    "c116_arith_partial",
    "c116_reversed_refuted",
    "c116_narrow_refuted",
    "c116_round_refuted",
    "c116_bin_refuted",
    "c116_bin_const_refuted",
    "c116_columns"
   ],
   "note": "Proved for all expression trees and rows when every operation is one whose two evaluations agree (comparisons and other functions of operand values, INTEGER/BIGINT/DECIMAL arithmetic except a DECIMAL on the left of minus or divide by a whole number, roundings of left columns). Refuted otherwise, mostly for all rows: DECIMAL - INTEGER and DECIMAL / INTEGER are exchanged, TINYINT/SMALLINT/FLOAT arithmetic is always an error, CEIL/FLOOR of a right column is always an error, % and || re-read their columns from a two-value row. From SQL the ON clause is rebuilt from column equalities, so these are reached through hand-built plans and the expression API. CASE, COALESCE, subqueries and aggregates are not in this model."
  },
  {
   "property": "C117",
   "status": "partial",
   "theorems": [
    "c117_path",
    "c117_missing_partial",
    "c117_string_refuted",
    "c117_struct",
    "c117_position_partial",
    "c117_struct_name_refuted",
    "c117_json_refuted",
    "c117_number_refuted",
    "c117_nested_refuted",
    "c117_column_refuted",
    "c117_cast_refuted"
   ],
   "note": "The access expression on a JSON text is proved right for all documents and paths that lead somewhere (the JSON library is a parameter that reads back this document's objects as it wrote them). Paths that lead nowhere are errors only if no string of the document contains JSON (refuted otherwise). From SQL almost nothing works, for all inputs: a STRUCT field cannot be read by name, values of type JSON cannot be accessed at all, two-step paths are refused, e[1.5] reads the first field, e[c] uses the column's name, any text can be cast to JSON. Reading a STRUCT field by position is proved."
  },
  {
   "property": "C118",
   "status": "partial",
   "theorems": [
    "c118_plain_partial",
    "c118_timestamp_partial",
    "c118_midnight_partial",
    "c118_insert_refuted",
    "c118_compare_refuted",
    "c118_before_1970_refuted",
    "c118_time_refuted",
    "c118_digits_refuted",
    "c118_updated_number"
   ],
   "note": "Proved for plain texts in DATE, TIME and TIMESTAMP columns (insert and all comparisons; instants from 1970 on), for TIMESTAMP literals and for DATE literals in TIMESTAMP columns. Refuted for all inputs: a DATE or TIME literal can never be inserted into, or compared with, a DATE or TIME column; dates before 1970 become the largest timestamps; a TIME literal is accepted by a TIMESTAMP column; texts of digits are read as day or second numbers. The chrono parsers are parameters. UPDATE assignments and BETWEEN are not in this model."
  },
  {
   "property": "C119",
   "status": "partial",
   "theorems": [
    "c119_typed_partial",
    "c119_update_refuted",
    "c119_values_refused",
    "c119_select_null_refuted",
    "c119_key_refuted"
   ],
   "note": "Proved over all histories of SQL statements in which keys are INTEGER and the expressions of UPDATE give values of the assigned column's type; INSERT with VALUES converts or fails. False: UPDATE stores a value of any type as it is (for every table, column and value of another type); INSERT ... SELECT turns a value that cannot be converted into NULL and succeeds; a generated key is an INTEGER in a column of any type."
  },
  {
   "property": "C120",
   "status": "partial",
   "theorems": [
    "c120_between_partial",
    "c120_between_numbers_partial",
    "c120_in_partial",
    "c120_in_numbers_partial",
    "c120_between_dates_refuted",
    "c120_between_digits_refuted",
    "c120_in_types_refuted"
   ],
   "note": "Proved for BETWEEN with bounds of the column's kind and for IN with literals of the column's type or numbers that are not FLOATs (any list, NULLs included). False: BETWEEN does not read a quoted bound as a date or number, though >= and <= do, so no date of 1997-2024 is between two dates of this millennium; IN never finds a literal of another kind (a quoted date in a DATE column, a VARCHAR literal in a CHAR column), and NOT IN keeps every row. Items that are not literals are C84; decimals are finite."
  },
  {
   "property": "C121",
   "status": "partial",
   "theorems": [
    "c121_in_order_partial",
    "c121_health_partial",
    "c121_health_refuted",
    "c121_blind_refuted",
    "c121_page_order"
   ],
   "note": "PchkModel over PtreeModel: validate_tree, validate_leaf_links, health_check and the three traversals. For every order of at least two and every history of insertions, reads and removals that leave half a leaf: the in-order traversal is the map's keys ascending (c121_in_order_partial); trees of at most two levels pass the health check with the right counts (c121_health_partial); every tree of three or more levels is reported broken although it answers like the map (c121_health_refuted, false alarm: an internal page made by a split has its first pointer twice); the page traversals list a page twice exactly then (c121_page_order). Damage done by concurrent insertions or redistribution passes the check (c121_blind_refuted). Missing from the partial theorems: order below two, failing allocations, evicted pages, removals that rebalance."
  },
  {
   "property": "C122",
   "status": "partial",
   "theorems": [
    "c122_obeyed_partial",
    "c122_refused",
    "c122_ignored_refuted",
    "c122_with_refuted",
    "c122_top_refuted",
    "c122_distinct_on_refuted",
    "c122_limit_by_refuted",
    "c122_qualify_refuted",
    "c122_sort_by_refuted"
   ],
   "note": "Proved for queries of any depth of parentheses with ORDER BY/OFFSET/LIMIT/FETCH at each level around a SELECT of C98; UNION and TABLE are refused at any depth. False of the code: WITH, TOP, INTO, QUALIFY, FOR UPDATE, the keys of LIMIT BY and DISTINCT ON and the direction of SORT BY are dropped without an error in every query."
  },
  {
   "property": "C123",
   "status": "partial",
   "theorems": [
    "c123_values_partial",
    "c123_lengths",
    "c123_point_refuted",
    "c123_large_refuted",
    "c123_first_row_refuted"
   ],
   "note": "Proved for tables whose first row has INTEGER numbers, texts and truth values and whose other rows have the same kinds or NULL; rows of different lengths are refused. False of the code: every number with a point is cut to a whole one without an error, numbers beyond INTEGER fail, and a column whose first cell is an expression (also -1) or NULL fails at its first value."
  },
  {
   "property": "C124",
   "status": "partial",
   "theorems": [
    "c124_create_partial",
    "c124_use_partial",
    "c124_rollback",
    "c124_refused",
    "c124_no_other_effect",
    "c124_alter_refuted",
    "c124_view_refuted",
    "c124_alter_view_refuted",
    "c124_show_refuted",
    "c124_existing_refuted",
    "c124_space_refuted",
    "c124_parts_refuted",
    "c124_schema_refuted",
    "c124_savepoint_refuted",
    "c124_unknown_savepoint_refuted"
   ],
   "note": "Holds for CREATE DATABASE of a new database and USE of an existing one with a one-word name, for a plain ROLLBACK and for what is refused (DROP among others, which leaves everything as it was). Refuted for every ALTER TABLE, CREATE VIEW, ALTER VIEW, CREATE SCHEMA and SHOW: success is reported and nothing is changed or shown. Refuted also for CREATE DATABASE of one that exists, USE of one that does not, names with a space (cut at the space) or with several parts, and savepoints: ROLLBACK TO SAVEPOINT undoes the whole transaction and accepts any name."
  },
  {
   "property": "C125",
   "status": "partial",
   "theorems": [
    "c125_in_place_partial",
    "c125_star",
    "c125_unknown",
    "c125_other_column_refuted",
    "c125_no_rows_refuted"
   ],
   "note": "Holds when every column HAVING mentions is shown in the position it has in the table (so for SELECT *). Refuted otherwise: the condition's positions are those of the table but it is tested on the shown row, so SELECT b ... HAVING a op v tests b, and a column whose position lies beyond the SELECT list makes every row fail. Conditions with aggregates are not modelled."
  },
  {
   "property": "C126",
   "status": "partial",
   "theorems": [
    "c126_counters",
    "c126_averages",
    "c126_extremes",
    "c126_percentile_partial",
    "c126_batch_refuted",
    "c126_errors_refuted",
    "c126_health_refuted",
    "c126_health_range",
    "c126_reset",
    "c126_rate_refuted",
    "c126_cas_max",
    "c126_store_max_refuted",
    "c126_pending"
   ],
   "note": "Counters, averages, extremes (one recording after another), percentiles of single-page operations, reset of the counters and the completion tracker hold for every history. Refuted: batches enter no latency bucket so percentiles of batches are 0; the error count is the number of successful uncached reads while failing reads are not counted; rates after a reset are divided by the time since creation; load-then-store loses the maximum in some schedule (the tracker's compare-and-exchange does not)."
  },
  {
   "property": "C127",
   "status": "partial",
   "theorems": [
    "c127_order",
    "c127_scalar",
    "c127_null",
    "c127_kinds",
    "c127_text_refuted",
    "c127_lists_partial",
    "c127_list_null_refuted",
    "c127_list_order_refuted",
    "c127_min_max",
    "c127_min_max_null",
    "c127_min_kinds_refuted",
    "c127_sort",
    "c127_sort_total"
   ],
   "note": "Proved for scalars of one kind, NULL and different kinds; equality of lists without NULLs. Refuted: order of lists, NULL inside lists, VARCHAR against CHAR, least/greatest across kinds. The sort order is proved total over all values that are not lists."
  },
  {
   "property": "C128",
   "status": "partial",
   "theorems": [
    "c128_grow",
    "c128_grow_full",
    "c128_split",
    "c128_split_full",
    "c128_splits",
    "c128_split_image",
    "c128_split_image_refuted",
    "c128_merge_refuted",
    "c128_merge_high_refuted",
    "c128_shrink",
    "c128_shrink_refuted",
    "c128_integrity",
    "c128_integrity_refuted",
    "c128_merge_noticed"
   ],
   "note": "Proved for growing, splitting, halving and the integrity check on consistent directories. Refuted for merging (for every mergeable bucket), for the converse of the integrity check and for the split image at depth 0."
  },
  {
   "property": "C129",
   "status": "partial",
   "theorems": [
    "c129_refused",
    "c129_made_partial",
    "c129_unique_refuted",
    "c129_taken_refuted",
    "c129_history",
    "c129_generated_partial",
    "c129_generated_refuted"
   ],
   "note": "Proved: what is refused, what is made when the name is free (apart from UNIQUE), the invariant over histories, generated names without underscores. Refuted: UNIQUE is dropped, a taken name is reported as done, generated names with underscores coincide."
  },
  {
   "property": "C130",
   "status": "partial",
   "theorems": [
    "c130_level",
    "c130_level_unique",
    "c130_read_only_refuted",
    "c130_body_refuted"
   ],
   "note": "Level and independence of other transactions proved for all modes and states. Refuted: READ ONLY has no effect, the body of BEGIN ... END is dropped."
  },
  {
   "property": "C131",
   "status": "partial",
   "theorems": [
    "c131_get",
    "c131_get_only",
    "c131_size",
    "c131_length_partial",
    "c131_length_refuted",
    "c131_value_text_partial",
    "c131_value_empty_refuted",
    "c131_value_plain",
    "c131_value_path_refuted",
    "c131_value_int",
    "c131_value_int_element_refuted"
   ],
   "note": "Proved for vectors, for texts of ASCII characters, for the text of a non-empty element and for integers written plainly. Refuted: length() counts bytes, so every text with a character outside ASCII comes out longer than it is; value() ignores its path; an empty element has its own tags as its text; of an element no integer can be had. The check of the argument types before evaluation (validate) is not modelled."
  },
  {
   "property": "C132",
   "status": "partial",
   "theorems": [
    "c132_planned",
    "c132_integers",
    "c132_typed",
    "c132_try",
    "c132_null",
    "c132_charset_refuted",
    "c132_using_refuted",
    "c132_try_charset_refuted"
   ],
   "note": "Proved for every call without a character set, over the model of casts of C76 and C77 (decimals, printing and parsing of dates are its parameters; styles are kept by the code and never read, so they are left out). Refuted: with a character set the type is forgotten and the value comes out unchanged under a column of another type; TRY_CONVERT fails for a character set it does not know."
  },
  {
   "property": "C133",
   "status": "partial",
   "theorems": [
    "c133_counts",
    "c133_buffer_score",
    "c133_lock_score_bounds",
    "c133_disk_score_bounds",
    "c133_lock_reset_refuted",
    "c133_average_refuted",
    "c133_latency_refuted"
   ],
   "note": "Proved for the counters a reset clears, for the score of the buffer pool and for the bounds of the scores of the locks and of the disk. Refuted: a reset keeps the count of locks granted at once while it clears the requests, so that the score of the locks is the best there is even if the only request since had to wait; the average length of version chains is the last one; latencies survive a reset. Scores are rationals instead of f64, counters do not wrap; the score of version chains, inserts, queries and the printed summaries are not modelled."
  }
 ]
}
