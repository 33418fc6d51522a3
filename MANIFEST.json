{
 "claims": [
  {
   "property": "C01",
   "status": "proved",
   "theorems": [
    "C01_log_round_trip",
    "C01_padding_ignored"
   ],
   "note": "Byte-level encoder of MemTable::flush and decoder MemTable::load, for every record list; compression callback is a parameter that round-trips."
  },
  {
   "property": "C02",
   "status": "proved",
   "theorems": [
    "C02_truncated_log",
    "C02_load_terminates"
   ],
   "note": "Every truncation point of the encoded file."
  },
  {
   "property": "C03",
   "status": "partial",
   "theorems": [
    "C03_zero_tail_loader",
    "C03_zero_tail_refuted"
   ],
   "note": "The full statement is refuted: the log-file loader reads every record and then reports a checksum error (for a tail of 36 bytes or more), upon which loading the manifest discards the file and creates an empty one."
  },
  {
   "property": "C04",
   "status": "proved",
   "theorems": [
    "C04_crc32_8_is_crc32",
    "C04_crc32_1_is_crc32",
    "C04_crc32_8_chain",
    "C04_crc32_detects_bursts"
   ],
   "note": "Against a bit-by-bit definition of CRC-32."
  },
  {
   "property": "C05",
   "status": "proved",
   "theorems": [
    "C05_damaged_lengths",
    "C05_damaged_length_checksum",
    "C05_damaged_body",
    "C05_damaged_body_checksum",
    "C05_record_parts"
   ],
   "note": "Each field, as stated; for damage across the border of two fields see C84, for the flag word C43."
  },
  {
   "property": "C06",
   "status": "proved",
   "theorems": [
    "C06_page_buffering"
   ],
   "note": "File content equals the concatenation of the encodings for every page limit and every grouping into syncs."
  },
  {
   "property": "C07",
   "status": "partial",
   "theorems": [
    "C07_sequential_partial",
    "C07_interleaved_partial",
    "C07_checkpoint_race_refuted"
   ],
   "note": "The full statement is refuted: a write between the two steps of a checkpoint makes the next sync cut a record in two. It holds when no write lands between them, or when every record fits the page buffer."
  },
  {
   "property": "C08",
   "status": "proved",
   "theorems": [
    "C08_parse_round_trip",
    "C08_load_round_trip"
   ],
   "note": "Byte-level; the load loop with its repairs of unset marks; default mode (not log-section-only truncation)."
  },
  {
   "property": "C09",
   "status": "proved",
   "theorems": [
    "C09_incremental_is_full"
   ],
   "note": "Every history of versions and outcomes, every initial disk content and cache buffer content; write failures are C44."
  },
  {
   "property": "C10",
   "status": "partial",
   "theorems": [
    "C10_crash_during_update",
    "C10_first_store_refuted",
    "C10_second_crash_refuted"
   ],
   "note": "Proved for a process that has completed one synchronous store. The full statement is refuted: the first store of a new database, and a crash in the first store after a crash that tore the backup."
  },
  {
   "property": "C11",
   "status": "proved",
   "theorems": [
    "C11_latest_write",
    "C11_latest_write_whole"
   ],
   "note": "Every run of sets, deletions, batches, syncs, checkpoints and flushes that keeps to the conditions of `allowed` in DbProofs.v; sequence numbers below 2^64-2. C11_latest_write represents the tables by their contract (last record of the key); C11_latest_write_whole has the real table section below, with compactions, splits, merges and reloads at any time."
  },
  {
   "property": "C12",
   "status": "partial",
   "theorems": [
    "C12_snapshot_latest",
    "C12_snapshot_checkpoint",
    "C12_checkpoint_in_batch_refuted"
   ],
   "note": "Proved for snapshots of the newest data and at any acknowledged checkpoint, for every later execution. The tables are one store here: with several tables, a compaction after the snapshot was opened breaks its reads (C58). The full statement is refuted for a checkpoint taken while a batch is being written."
  },
  {
   "property": "C13",
   "status": "proved",
   "theorems": [
    "C13_consecutive",
    "C13_next_number"
   ],
   "note": "One process lifetime, from a new database; across closes and crashes see C70 and C76."
  },
  {
   "property": "C14",
   "status": "partial",
   "theorems": [
    "C14_stale_number_rejected_partial",
    "C14_stale_number_accepted_refuted",
    "C14_stale_number_loses_refuted"
   ],
   "note": "The full statement is refuted: a write that finds the newest log file full is compared with nothing. It holds whenever the newest log file has room."
  },
  {
   "property": "C15",
   "status": "partial",
   "theorems": [
    "C15_marks_ordered",
    "C15_never_synced_refuted",
    "C15_synced_lowered_refuted"
   ],
   "note": "Order proved whenever both numbers are reported; refuted: after a flush beyond the last sync the flushed number exists and the synced one does not, and such a flush can lower the synced number."
  },
  {
   "property": "C16",
   "status": "partial",
   "theorems": [
    "C16_nearest_partial",
    "C16_nearest_no_deletion_partial",
    "C16_stale_value_refuted",
    "C16_empty_table_refuted",
    "C16_batch_hides_refuted",
    "C16_snapshot_hides_refuted"
   ],
   "note": "The full statement is refuted: a purged key in a partly flushed log file, an empty table in the middle of a level, a batch being written, and (through a snapshot) a key written later each hide the right key. Proved for all histories without these four situations, over log files, level-0 tables and all upper levels, at the present (no snapshot)."
  },
  {
   "property": "C17",
   "status": "partial",
   "theorems": [
    "C17_prefix_partial",
    "C17_stop",
    "C17_three_tables_refuted"
   ],
   "note": "Proved for all histories when no level has more than two neighbouring tables with keys of the prefix. The full statement is refuted: with three such tables the third is not searched."
  },
  {
   "property": "C18",
   "status": "partial",
   "theorems": [
    "C18_both_directions_partial",
    "C18_single_record_refuted",
    "C18_end_position_refuted"
   ],
   "note": "Any mixture of calls is proved when every log file and table in the range shows at least two keys. The full statement is refuted: a log file or table with one key can be skipped after turning round twice, and a failing next() can leave the iterator without a current key."
  },
  {
   "property": "C19",
   "status": "partial",
   "theorems": [
    "C19_seek_partial",
    "C19_seek_both_directions_partial",
    "C19_smaller_refuted",
    "C19_stale_refuted",
    "C19_deleted_refuted",
    "C19_below_range_refuted",
    "C19_above_range_refuted",
    "C19_flushed_refuted"
   ],
   "note": "Proved for targets on whose side every source has a key. The full statement is refuted in six ways: wrong side with SMALLER, stale value and deleted key when seeking beyond the last key, leaving the range below and above, and losing a source whose keys beyond the target are already flushed."
  },
  {
   "property": "C20",
   "status": "partial",
   "theorems": [
    "C20_consecutive_partial",
    "C20_both_directions_partial",
    "C20_gap_refuted",
    "C20_gap_between_files_refuted",
    "C20_seek_refuted",
    "C20_seek_smaller_refuted",
    "C20_zero_refuted"
   ],
   "note": "Proved when the numbers have no gaps (assigned by the database), the maximum is not 0, and the iterator is moved by next, prev, gotoBegin, gotoEnd; also shown: it is a cursor over the records of the range, complete for unflushed records and current values. Refuted for numbers with gaps (two ways), for seekSN beyond the range, and for a maximum of 0; seekSN SMALLER lands on the maximum."
  },
  {
   "property": "C21",
   "status": "proved",
   "theorems": [
    "C21_latest_in_tables"
   ],
   "note": "Every execution in level-extension mode; non-empty keys; sizes, cut points and cancellation points are arbitrary."
  },
  {
   "property": "C22",
   "status": "partial",
   "theorems": [
    "C22_deleted_stays_deleted_partial",
    "C22_flushed_deletion_refuted",
    "C22_merged_deletion_refuted"
   ],
   "note": "The full statement is refuted: deletions are not entered in the bloom filter by a flush nor by a table merge, so that lookups skip the table. It holds when lookups do not use filters."
  },
  {
   "property": "C23",
   "status": "partial",
   "theorems": [
    "C23_success_has_record_partial",
    "C23_success_without_record_refuted"
   ],
   "note": "Proved in the multi-level mode from every reachable state. The full statement is refuted in the single-level mode, persistently after a cancelled compaction and a restart."
  },
  {
   "property": "C24",
   "status": "proved",
   "theorems": [
    "C24_no_false_negatives",
    "C24_saved_no_false_negatives",
    "C24_empty_rejects",
    "C24_bitmap_laws"
   ],
   "note": "For every hash function (hash pairs are arbitrary)."
  },
  {
   "property": "C25",
   "status": "proved",
   "theorems": [
    "C25_merge"
   ],
   "note": "Failing writes, whose result the code ignores, are not modelled."
  },
  {
   "property": "C26",
   "status": "proved",
   "theorems": [
    "C26_split"
   ],
   "note": "From every reachable state; cut decisions arbitrary."
  },
  {
   "property": "C27",
   "status": "partial",
   "theorems": [
    "C27_own_slots_partial",
    "C27_one_by_one_partial",
    "C27_shared_slot_refuted",
    "C27_unprotected_slot_refuted"
   ],
   "note": "Proved for every interleaving when no two key hashes in use share a slot, and with any collisions when operations run one at a time. The full statement is refuted: after another hash took the slot, a reader still holding an older document puts it back and the next read is outdated; and the mutex is chosen by a different modulus than the slot, so two threads can write one slot under different mutexes."
  },
  {
   "property": "C28",
   "status": "proved",
   "theorems": [
    "C28_numbers_unique",
    "C28_numbers_consecutive"
   ],
   "note": "Fewer than 2^64 numbers issued (the counter wraps). Any number of threads, any interleaving, spurious failures of the weak compare-and-swap included."
  },
  {
   "property": "C29",
   "status": "partial",
   "theorems": [
    "C29_never_used_after_free_partial",
    "C29_freed_partial",
    "C29_leak_refuted",
    "C29_double_free_refuted",
    "C29_snapshot_lost_refuted",
    "C29_hang_refuted",
    "C29_evicted_refuted"
   ],
   "note": "Without memtable eviction and without log-store snapshots: never used after it was deleted, deleted at most once, and deleted at the end if no release was halfway when the file was marked as removed. The full statement is refuted: a release halfway at that moment leaks the file; with a log-store snapshot the file can be deleted twice or while the snapshot uses it; with eviction the deleting thread can wait forever, or delete the file while another thread is still purging it."
  },
  {
   "property": "C30",
   "status": "partial",
   "theorems": [
    "C30_batch_invisible",
    "C30_batch_acknowledged",
    "C30_steps_are_the_call",
    "C30_first_batch_refuted",
    "C30_log_only_refuted",
    "C30_flush_during_batch_refuted"
   ],
   "note": "Proved for every interleaving of other operations after the first write, in the normal mode; refuted for the first batch of a database, in log-section-only mode, and for a flush of everything during a batch."
  },
  {
   "property": "C31",
   "status": "proved",
   "theorems": [
    "C31_invalid_batch",
    "C31_accepted_batch_completes"
   ],
   "note": "Numbers below 2^64-2; LogMgr::setMulti from a state reached by allowed operations."
  },
  {
   "property": "C32",
   "status": "proved",
   "theorems": [
    "C32_progress",
    "C32_all_finish"
   ],
   "note": "Any number of threads with global batches (databases added in any order) or single writes; from every reachable state somebody can go on and all can finish."
  },
  {
   "property": "C33",
   "status": "proved",
   "theorems": [
    "C33_list"
   ],
   "note": "Every interleaving of writes, checkpoints, syncs, flushes, compactions of level 0 starting and ending, and snapshot markers dropped by ForestDB; level extension mode with a fixed number of partitions, at least one."
  },
  {
   "property": "C34",
   "status": "partial",
   "theorems": [
    "C34_flush_moves",
    "C34_flush_reads",
    "C34_tables_hold",
    "C34_unsynced_lost_refuted",
    "C34_gap_lost_refuted"
   ],
   "note": "Proved for flushes of everything and up to an existing synced record; the full statement is refuted for a number beyond the last sync and for a number no record has."
  },
  {
   "property": "C35",
   "status": "partial",
   "theorems": [
    "C35_merged_partial",
    "C35_smaller_number_refuted",
    "C35_sync_only_refuted",
    "C35_sync_lost_refuted",
    "C35_reused_handle_refuted"
   ],
   "note": "Proved when requests are only joined by requests that cover them and the database stays open while they wait. The full statement is refuted: the options and the number of the last request replace those of the merged ones, so a larger number, a flush, or a sync is dropped and reported as success; and a request for a closed database is carried out on another one opened at the same address."
  },
  {
   "property": "C36",
   "status": "proved",
   "theorems": [
    "C36_total_order",
    "C36_lexicographic",
    "C36_operators",
    "C36_huge_keys_refuted"
   ],
   "note": "Keys shorter than 2 GiB, as the property says; beyond that size the comparison is wrong (C36_huge_keys_refuted)."
  },
  {
   "property": "C37",
   "status": "proved",
   "theorems": [
    "C37_exclusive",
    "C37_lock_outcome",
    "C37_locks_released",
    "C37_work_under_locks",
    "C37_locked_untouched",
    "C37_one_compaction_per_level"
   ],
   "note": "Any number of jobs and any interleaving of their steps with operations and flushes. The table numbers in one request are distinct (C28)."
  },
  {
   "property": "C38",
   "status": "partial",
   "theorems": [
    "C38_no_overrun",
    "C38_flush_partial",
    "C38_recognisable_partial",
    "C38_read_partial",
    "C38_residue_refuted",
    "C38_thread_buffer_refuted"
   ],
   "note": "Full statement refuted twice: a flush that ends on a unit boundary less than 8 bytes after the previous flush leaves a unit of unmarked zero bytes after the stream (C38_residue_refuted), and the read buffer belongs to the thread, so reading a second database with a larger buffer size writes past it (C38_thread_buffer_refuted). Proved: append and flush never leave their buffers; after a flush the file is the stream followed by nothing, recognisable padding or one unit of zeros, and only recognisable padding if every flush adds at least 8 bytes; reads are exact if the thread's buffer has the size of the object."
  },
  {
   "property": "C39",
   "status": "proved",
   "theorems": [
    "C39_round_trip"
   ],
   "note": "Levels >= 1 come back in the same order, level 0 (unordered hash partitions) in reverse; counters are corrected to the actual number."
  },
  {
   "property": "C40",
   "status": "proved",
   "theorems": [
    "C40_meta_round_trip",
    "C40_table_record_round_trip"
   ],
   "note": "Including the sticky status variable of the serializer and compressed values."
  },
  {
   "property": "C41",
   "status": "partial",
   "theorems": [
    "C41_crash_keeps_synced_partial",
    "C76_crash_recovers_synced",
    "C76_synced_is_prefix",
    "C76_sync_succeeds",
    "C41_crash_in_sync"
   ],
   "note": "The first theorem: the bytes of one log file, without the manifest. The others: any number of log files, tables, manifest, repeated crashes between calls and (C41_crash_in_sync) in a sync, with records as units. The full statement is false for a crash in the middle of a flush (C73), for sync(false) followed by sync(true) and a power failure (C75), for batches after some reopenings (C71), and for a zero-filled tail (C03)."
  },
  {
   "property": "C42",
   "status": "partial",
   "theorems": [
    "C42_reads_partial",
    "C42_rollback_partial",
    "C42_next_number_partial",
    "C42_defined_partial",
    "C42_bytes",
    "C42_default_ttl_refuted",
    "C42_overwrite_refuted",
    "C42_open_iterator_refuted"
   ],
   "note": "Proved for all histories of writes, syncs, rollbacks, evictions and reopenings over any number of files, in log-store mode (logFileTtl_sec not 0) without allowOverwriteSeqNum, with no reader holding the file that is cut and records present. The full statement is refuted: with the default logFileTtl_sec = 0 the read after a rollback dereferences null; with overwritten numbers later records survive; with an open iterator rolled-back records stay readable by key."
  },
  {
   "property": "C43",
   "status": "partial",
   "theorems": [
    "C43_flag_damage_refuted",
    "C43_unknown_flags_partial",
    "C43_only_type_partial"
   ],
   "note": "The full statement is refuted: the flag word is covered by neither checksum. Proved: unknown first bytes are reported; a flag word that still says record and keeps the compression bit changes nothing but the type."
  },
  {
   "property": "C44",
   "status": "partial",
   "theorems": [
    "C44_covered_partial",
    "C44_retry_partial",
    "C44_failed_store_refuted"
   ],
   "note": "The full statement is refuted: after a store that fails part-way, a store that writes only the difference can leave damaged bytes. Proved: after any number of failed stores (each having written any part) the next store restores a file that loads as the current manifest, provided its write reaches down to the first byte the failed ones touched, in particular when nothing changed between the retries."
  },
  {
   "property": "C45",
   "status": "partial",
   "theorems": [
    "C45_no_removal_partial",
    "C45_concurrent_removal_refuted"
   ],
   "note": "The full statement is refuted: a log file removed while the manifest is written leaves a wrong count. Proved: as long as the walk meets at least as many files as were counted, the file loads back as the counters and the first so many files."
  },
  {
   "property": "C46",
   "status": "proved",
   "theorems": [
    "C46_table_manifest_crash"
   ],
   "note": "Disk operations of store and copyFile; adversarial content of unsynced files."
  },
  {
   "property": "C47",
   "status": "partial",
   "theorems": [
    "C47_failed_flush_partial",
    "C47_failed_write_refuted",
    "C47_failed_create_refuted"
   ],
   "note": "The full statement is refuted: a failing table write does not stop the flush. Proved: for any set of refused records the flush has the effect of a flush of the records neither refused nor preceded by a refused record of the same partition; nothing that was in the tables is lost or changed."
  },
  {
   "property": "C48",
   "status": "proved",
   "theorems": [
    "C48_latest_in_level_zero"
   ],
   "note": "At rest: no compaction is running and none was cancelled."
  },
  {
   "property": "C49",
   "status": "partial",
   "theorems": [
    "C49_window_partial",
    "C49_compaction_window_refuted"
   ],
   "note": "The full statement is refuted: in the window a lookup reports success without a record, and a deleted key returns with its old value. Proved: in every state of the window, lookups in the other partitions are unaffected, and a record delivered in the compacted partition is a flushed record of the key (not always the newest)."
  },
  {
   "property": "C50",
   "status": "proved",
   "theorems": [
    "C50_one_direction"
   ],
   "note": "Iterators without a snapshot, built-in key order, no write in between (C51)."
  },
  {
   "property": "C51",
   "status": "proved",
   "theorems": [
    "C51_writes_invisible",
    "C51_writes_invisible_both"
   ],
   "note": "One-direction calls, and any mixture under the condition of C18. Writes get numbers after the last visible one (C13, C14 without allowOverwriteSeqNum). Taken from the code, not modelled: the file and the table snapshot stay alive while the iterator is open."
  },
  {
   "property": "C52",
   "status": "partial",
   "theorems": [
    "C52_quiet_prefix_partial",
    "C52_later_write_refuted",
    "C52_flushed_lost_refuted"
   ],
   "note": "Proved: while no record with the prefix is written or flushed after the snapshot was opened, the prefix search delivers the newest write of every key with the prefix, and only writes of the snapshot. The full statement is refuted: the log part of a prefix search ignores the snapshot, so later writes show and flushed records of the snapshot vanish."
  },
  {
   "property": "C53",
   "status": "partial",
   "theorems": [
    "C53_log_files_unique_partial",
    "C53_log_files_spurious_refuted"
   ],
   "note": "Proved when the compare-and-swap does not fail spuriously (e.g. x86). The full statement is refuted: setMaxLogFileNum uses compare_exchange_weak without a loop and its result is ignored, so after a spurious failure the next file gets the same number."
  },
  {
   "property": "C54",
   "status": "partial",
   "theorems": [
    "C54_references_balanced_partial",
    "C54_retry_refuted"
   ],
   "note": "Proved when every retried pass failed at its first file. The full statement is refuted: a retry does not clear the list, so files of a failed pass stay on it without a reference and are released twice."
  },
  {
   "property": "C55",
   "status": "partial",
   "theorems": [
    "C55_seen_means_all_partial",
    "C55_old_barrier_refuted",
    "C55_empty_database_refuted"
   ],
   "note": "Proved for readers that start after the batch set the barrier of their database, all databases non-empty. The full statement is refuted: a reader that loaded the barrier before the batch began sees a record that later readers do not see; in an empty database nothing is hidden."
  },
  {
   "property": "C56",
   "status": "partial",
   "theorems": [
    "C56_written_partial",
    "C56_group_refuted",
    "C56_failed_write_refuted",
    "C56_empty_refuted"
   ],
   "note": "Proved for distinct paths, writable databases, non-empty batches and writes that do not fail. The full statement is refuted: of two stores of one database group only one gets its batch; a write failing in the middle is reported as success; an empty batch is undefined behaviour."
  },
  {
   "property": "C57",
   "status": "partial",
   "theorems": [
    "C57_listed_partial",
    "C57_flushed_refuted",
    "C57_compaction_refuted"
   ],
   "note": "Proved for checkpoints whose last record is not flushed yet, as long as no compaction of level 0 runs and no markers are dropped. The full statement is refuted: a checkpoint taken when everything is flushed is never listed, and a compaction of one partition removes all flushed checkpoints from the list."
  },
  {
   "property": "C58",
   "status": "partial",
   "theorems": [
    "C58_snapshot_partial",
    "C58_log_gone_refuted",
    "C58_newer_data_refuted",
    "C58_empty_partition_refuted",
    "C58_later_compaction_refuted"
   ],
   "note": "Proved for reachable states with compactions: reads are right, also after further writes, flushes and reclaims, when the record of the checkpoint is unflushed or its log file still exists, and the partition of the key has one table that had a record at the checkpoint. The full statement is refuted: null pointer when the log file of the checkpoint is gone; newer data while a partition is compacted; an error for a partition that was empty at the checkpoint; errors after a later compaction, also for snapshots of the newest data."
  },
  {
   "property": "C59",
   "status": "partial",
   "theorems": [
    "C59_answered_once",
    "C59_all_finish",
    "C59_shutdown_refuted"
   ],
   "note": "Proved for every interleaving of requests, threads, user operations, open and close: at most once, and every request is answered when nothing waits or runs, which the threads alone can always reach. The full statement is refuted: shutdown drops the waiting requests without calling their handlers."
  },
  {
   "property": "C60",
   "status": "partial",
   "theorems": [
    "C60_writer_sleep",
    "C60_compaction_share",
    "C60_equal_refuted",
    "C60_reversed_refuted"
   ],
   "note": "Proved for start < limit and numbers small enough not to be cut off at 32 bits. The full statement is refuted for other settings: start = limit divides by zero, limit < start never throttles."
  },
  {
   "property": "C61",
   "status": "partial",
   "theorems": [
    "C61_valid_choices_partial",
    "C61_stale_destination_refuted",
    "C61_stale_victim_refuted",
    "C61_stale_merge_refuted"
   ],
   "note": "The full statement is refuted: tables are chosen before they are locked and nothing checks afterwards that they are still in use. Proved for executions in which every job finds its tables as it chose them."
  },
  {
   "property": "C62",
   "status": "proved",
   "theorems": [
    "C62_flushed_log_loads",
    "C62_flushed_entries_survive"
   ],
   "note": "All buffer and alignment sizes with the alignment at least 8 and dividing the buffer size; appends cut into arbitrary pieces; failed writes excluded."
  },
  {
   "property": "C63",
   "status": "partial",
   "theorems": [
    "C63_synced_partial",
    "C63_truncated_refuted"
   ],
   "note": "Refuted after a truncation: the synced position is not lowered, so later fsync calls do nothing until the file is longer than before. Proved without truncation."
  },
  {
   "property": "C64",
   "status": "partial",
   "theorems": [
    "C64_append_crash_refuted",
    "C62_flushed_entries_survive"
   ],
   "note": "Refuted: the rest of an overwritten padding follows part of an entry and loads with a checksum error. The flushed entries themselves are still returned (C62_flushed_entries_survive)."
  },
  {
   "property": "C65",
   "status": "partial",
   "theorems": [
    "C65_nonempty_partial",
    "C65_empty_refuted"
   ],
   "note": "Proved for databases with records. Refuted for an empty database: a failed rollback(100) makes the next write number 101 and a successful sync does not store it."
  },
  {
   "property": "C66",
   "status": "partial",
   "theorems": [
    "C66_clean_partial",
    "C66_power_failure_refuted"
   ],
   "note": "Clean reopening proved. Refuted for a power failure: the shortened file is not fsynced."
  },
  {
   "property": "C67",
   "status": "partial",
   "theorems": [
    "C67_files_stay_partial",
    "C67_iterator_refuted",
    "C67_remover_refuted"
   ],
   "note": "Proved when no reader holds a file that a rollback removes and the background remover takes no name during a rollback. Refuted in general: numbers and names are used again after a rollback, and a late reader or remover deletes the new file."
  },
  {
   "property": "C68",
   "status": "partial",
   "theorems": [
    "C68_reopen_partial",
    "C68_gap_refuted"
   ],
   "note": "Proved for consecutive numbers. Refuted when the caller's numbers have a gap between two log files (truncateInconsecutiveLogs is on by default)."
  },
  {
   "property": "C69",
   "status": "partial",
   "theorems": [
    "C69_earlier_partial",
    "C69_checkpoint_refuted"
   ],
   "note": "Markers before the last record kept are kept (proved on bytes). Refuted: the marker of a checkpoint at the target itself is cut off."
  },
  {
   "property": "C70",
   "status": "partial",
   "theorems": [
    "C70_number_reused_refuted",
    "C70_reused_after_sync_crash_refuted",
    "C70_next_number_partial",
    "C70_numbers_distinct_partial"
   ],
   "note": "Proved for the runs of C76. The full statement is refuted: after a flush beyond the last sync (the default of the automatic flusher), close and reopen, the next write gets a number already in the tables; also after a crash in the middle of a sync of two log files."
  },
  {
   "property": "C71",
   "status": "partial",
   "theorems": [
    "C71_batch_unreadable_refuted",
    "C71_synced_batch_lost_refuted",
    "C71_first_batch_lost_refuted",
    "C76_reads",
    "C76_sync_succeeds",
    "C76_close_keeps"
   ],
   "note": "Proved for the runs of C76. The full statement is refuted: the first batch after an empty database was reopened gets the number 2^64-1, is never written to the log and is lost although sync returned OK; a batch after such a reopening is acknowledged and unreadable; a batch written and synced after a crash in the middle of a log write is lost at the next reopening."
  },
  {
   "property": "C72",
   "status": "partial",
   "theorems": [
    "C72_first_sync_refuted",
    "C72_second_sync_refuted",
    "C76_reads"
   ],
   "note": "Proved for the runs of C76. The full statement is refuted: the marks of a recovered log file come from the manifest, so a later flush skips recovered records that were newer than the manifest."
  },
  {
   "property": "C73",
   "status": "partial",
   "theorems": [
    "C73_synced_lost_refuted",
    "C73_not_a_prefix_refuted",
    "C73_crash_in_flush_partial"
   ],
   "note": "Proved for flushes that stay below the last sync and remove log files oldest first. The full statement is refuted twice: with a reader holding the oldest log file a synced record is lost; a flush beyond the last sync leaves a state that is no prefix."
  },
  {
   "property": "C74",
   "status": "partial",
   "theorems": [
    "C74_number_not_found_refuted",
    "C74_snapshot_refuted",
    "C74_by_number_partial",
    "C74_only_written_partial",
    "C74_snapshot_partial"
   ],
   "note": "Proved for the runs of C76. The full statement is refuted: a recovered empty log file and the next new one start at the same number."
  },
  {
   "property": "C75",
   "status": "partial",
   "theorems": [
    "C75_earlier_not_fsynced_refuted",
    "C76_crash_recovers_synced"
   ],
   "note": "Proved (C76_crash_recovers_synced with pw = true) if every sync is called with fsync. The full statement is refuted: files completed by sync(false) are never fsynced later."
  },
  {
   "property": "C76",
   "status": "proved",
   "theorems": [
    "C76_crash_recovers_synced",
    "C76_synced_is_prefix",
    "C76_sync_succeeds",
    "C76_close_keeps",
    "C76_reads",
    "C70_next_number_partial"
   ],
   "note": "The conditions are those of the inductive definition preach (RecoverProofs7.v) and allowed (DbProofs.v); without them see C70-C75."
  },
  {
   "property": "C77",
   "status": "partial",
   "theorems": [
    "C77_half_batch_refuted",
    "C77_whole_batches_partial",
    "C77_whole_batches_in_flush_partial"
   ],
   "note": "Proved for crashes between calls and in a flush that stays below the last sync and removes log files oldest first. The full statement is refuted for a crash in a sync: the log has no mark where a batch ends, so half of it is recovered and stays."
  },
  {
   "property": "C78",
   "status": "proved",
   "theorems": [
    "C78_search",
    "C78_next",
    "C78_answers"
   ],
   "note": "For every reachable state under the guard of SkipSpec.v: indexes filled by plain insertion have distinct keys, queries lie between head and tail. Compare-and-swap fails only when values differ (otherwise C82)."
  },
  {
   "property": "C79",
   "status": "proved",
   "theorems": [
    "C79_insert",
    "C79_duplicate",
    "C79_erase",
    "C79_one_entry_per_key",
    "C79_nothing_lost",
    "C79_no_null",
    "C79_released"
   ],
   "note": "As C78."
  },
  {
   "property": "C80",
   "status": "partial",
   "theorems": [
    "C80_same_entry_again_refuted",
    "C80_next_forward_partial",
    "C80_next_not_back_partial"
   ],
   "note": "The full statement is refuted: the step can return the entry it started from while the next one is being erased. Proved: it never goes back, and it moves forward unless an entry at or after its key has been erased."
  },
  {
   "property": "C81",
   "status": "partial",
   "theorems": [
    "C81_unset_prevs_refuted",
    "C81_use_after_free_refuted",
    "C81_never_safe_to_free_refuted",
    "C81_serial_safe_partial",
    "C81_serial_gone_partial",
    "C81_serial_free_partial"
   ],
   "note": "The full statement is refuted in three ways. Proved when calls do not overlap: no unset memory is used, an erasure fails only if the entry is gone already, and an erased entry whose count is zero can be freed."
  },
  {
   "property": "C82",
   "status": "partial",
   "theorems": [
    "C82_lost_insertion_refuted",
    "C82_left_locked_refuted"
   ],
   "note": "The statement is refuted: an insertion reports success though the entry is not in the index; a node stays locked after all calls returned. C79 is the positive part, for compare-and-swap that does not fail spuriously."
  },
  {
   "property": "C83",
   "status": "proved",
   "theorems": [
    "C83_one_writer",
    "C83_no_reader_beside_writer",
    "C83_fits",
    "C83_given_back"
   ],
   "note": "Bound: fewer than 4096 threads, as the lock word has 12 bits for waiting writers."
  },
  {
   "property": "C84",
   "status": "partial",
   "theorems": [
    "C84_checksum_border_refuted",
    "C84_lengths_onward_partial"
   ],
   "note": "The full statement is refuted: the checksum stands before the bytes it covers, so that bursts across that border can cancel. Proved for damage from the lengths into the body checksum."
  },
  {
   "property": "C85",
   "status": "proved",
   "theorems": [
    "C85_ordered_set"
   ],
   "note": "Nodes are numbers and 0 is the null pointer; the parent pointer and the two balance bits packed into one word are two fields, storing a balance factor outside -1..2 is a failure of the model."
  },
  {
   "property": "C86",
   "status": "proved",
   "theorems": [
    "C86_logarithmic"
   ],
   "note": "A round is one turn of a loop of avltree.cc; each call has at most three loops."
  },
  {
   "property": "C87",
   "status": "partial",
   "theorems": [
    "C87_valid_partial",
    "C87_use_after_free_refuted",
    "C87_null_handle_refuted"
   ],
   "note": "The full statement is refuted in two ways (a close that overlaps an open). Proved if no close overlaps another open or close; opens may overlap each other."
  },
  {
   "property": "C88",
   "status": "partial",
   "theorems": [
    "C88_closed_partial",
    "C88_never_closed_refuted",
    "C88_weak_refuted"
   ],
   "note": "The full statement is refuted: two closes at the same time, or one spurious failure of the weak compare-and-swap, leave the database open for ever. Proved if no close overlaps another call and without spurious failures."
  },
  {
   "property": "C89",
   "status": "proved",
   "theorems": [
    "C89_wakeup_served",
    "C89_not_blocked"
   ],
   "note": "Sequentially consistent atomics; the bound is 13 steps of the worker."
  },
  {
   "property": "C90",
   "status": "proved",
   "theorems": [
    "C90_terminates",
    "C90_at_most_one_pass"
   ],
   "note": "Holds with spurious failures of the weak compare-and-swaps."
  },
  {
   "property": "C91",
   "status": "partial",
   "theorems": [
    "C91_request_taken_partial",
    "C91_delayed_first_refuted"
   ],
   "note": "The full statement is refuted: if a request with a delay is first in the queue, the pass started for a request without delay takes the first and then sleeps. Proved if no request has a delay."
  },
  {
   "property": "C92",
   "status": "partial",
   "theorems": [
    "C92_stuck_refuted",
    "C92_lost_wakeup_refuted",
    "C92_never_started_refuted"
   ],
   "note": "The statement is refuted: depending on which compare-and-swap fails, the worker never works again and takes a processor for ever, a wake-up is lost, or the worker is never started. C89 and C90 are the positive parts."
  },
  {
   "property": "C93",
   "status": "partial",
   "theorems": [
    "C93_sleeps_partial",
    "C93_one_reclaimer_partial",
    "C93_spins_refuted"
   ],
   "note": "The full statement is refuted: two databases opened at the same time create two log reclaimers, of which one is never registered and spins. Proved for registered and started workers, and for one reclaimer if the calls do not overlap."
  },
  {
   "property": "C94",
   "status": "proved",
   "theorems": [
    "C94_each_piece_once",
    "C94_never_twice",
    "C94_max_positive"
   ],
   "note": "In the model with any number of writers and calls. What a single write does is the subject of other properties (C25, C26, C47); its result is ignored by the caller."
  },
  {
   "property": "C95",
   "status": "proved",
   "theorems": [
    "C95_exclusive",
    "C95_no_stray_work"
   ],
   "note": "The payload of a working writer is that of a call that still holds it; calls that have returned or were given up hold none."
  },
  {
   "property": "C96",
   "status": "proved",
   "theorems": [
    "C96_never_stuck"
   ],
   "note": "Stated as the existence of a finishing execution from every reachable state using only the call itself and its leased writers. A call that was given up has ended already."
  },
  {
   "property": "C97",
   "status": "proved",
   "theorems": [
    "C97_round_trip"
   ],
   "note": "Names as the statement says; what happens to other names is part of C98."
  },
  {
   "property": "C98",
   "status": "partial",
   "theorems": [
    "C98_one_to_one_partial",
    "C98_zero_byte_refuted",
    "C98_long_name_refuted",
    "C98_crash_refuted"
   ],
   "note": "The full statement is refuted: a name with a zero byte is stored whole and read back cut, so it loses its files or takes those of another name; a name of more than 255 bytes makes the next opening write outside a buffer; after a crash while a name is added, the list can fail its check, which is ignored, and names take the numbers of others. Proved for all histories with names of 1 to 255 bytes without zero bytes and crashes at other moments."
  },
  {
   "property": "C99",
   "status": "proved",
   "theorems": [
    "C99_reads_back",
    "C99_later"
   ],
   "note": "Calls of ForestDB and the file system succeed, no compression."
  },
  {
   "property": "C100",
   "status": "partial",
   "theorems": [
    "C100_any_order_refuted",
    "C100_apart_partial",
    "C100_one_file_partial"
   ],
   "note": "The statement is refuted: the smallest key recorded for a file is the first key given, so with unsorted records over several files lookups go to the wrong file. Proved for any order as long as everything fits in one file, and for several files if they do not overlap and each but the first begins with its smallest key."
  },
  {
   "property": "C101",
   "status": "partial",
   "theorems": [
    "C101_from_files_partial",
    "C101_number_zero_refuted"
   ],
   "note": "The full statement is refuted: the search for the file with the smallest key always yields number 0 (nothing is smaller than the empty string it starts from), so a file with number 0 that is not the smallest is registered with an empty smallest key and its records are not found. Proved if no file has number 0 or the one with number 0 has the smallest keys."
  },
  {
   "property": "C102",
   "status": "partial",
   "theorems": [
    "C102_later_are_larger",
    "C102_distinct_partial",
    "C102_mixed_refuted"
   ],
   "note": "That later numbers are larger is proved (for the number passed to the new log section). Distinctness is refuted if some records have numbers given by the user and others not, and proved if none has."
  },
  {
   "property": "C103",
   "status": "proved",
   "theorems": [
    "C103_once",
    "C103_not_early",
    "C103_cancelled"
   ],
   "note": "Over all interleavings of any number of databases and timers."
  },
  {
   "property": "C104",
   "status": "partial",
   "theorems": [
    "C104_kept_partial",
    "C104_defined_partial",
    "C104_starts_due_partial",
    "C104_defined_refuted",
    "C104_starts_due_refuted"
   ],
   "note": "That no timer is forgotten is proved without restriction. That passes are well defined and start a due timer is refuted after a cancellation: removing a cancelled timer advances the iterator twice, past the end of the list if it was the last (closing a database with a pending delayed flush does this), or over a live timer, which is then delayed to the next pass. Proved as long as nothing was cancelled. With the list of the usual C++ library the step past the end wraps around harmlessly."
  },
  {
   "property": "C105",
   "status": "partial",
   "theorems": [
    "C105_second_partial",
    "C105_in_time_partial",
    "C105_in_time_refuted"
   ],
   "note": "Refuted: a pass that starts a timer does not look at the timers after it, and then sleeps up to a second even if one of them is due. Proved: it never sleeps longer than a second, and a pass that starts nothing wakes up before the next timer."
  },
  {
   "property": "C106",
   "status": "partial",
   "theorems": [
    "C106_no_freed_partial",
    "C106_no_freed_refuted"
   ],
   "note": "Refuted: closing does not wait for a callback that has started, and the callback then uses the freed logger. Proved if no database is closed while its callback executes."
  },
  {
   "property": "C107",
   "status": "partial",
   "theorems": [
    "C107_followed_partial",
    "C107_followed_refuted"
   ],
   "note": "Refuted for a request that comes between the wake-up and the end of the callback of the previous timer: it is queued and no new timer is set (the flusher then finds it only when it wakes up for other reasons). Proved for requests that find no callback executing."
  },
  {
   "property": "C108",
   "status": "proved",
   "theorems": [
    "C108_changes",
    "C108_first_reopen",
    "C108_completes"
   ],
   "note": "For all histories of the operations of the table section and of changes of the number of partitions, completed or cut short. The order condition is a hypothesis of a completed change; C108_first_reopen proves it for the first opening after a close during which partitions had two tables. Failures to create the new tables are not modelled."
  },
  {
   "property": "C109",
   "status": "partial",
   "theorems": [
    "C109_second_reopen_refuted",
    "C109_interrupted_refuted",
    "C108_changes"
   ],
   "note": "The statement is refuted: after a second opening, or after a change that was interrupted by a crash, the newer table of a partition is compacted before the older one, and old values and deleted keys come back. C108_changes is the guarded positive statement."
  },
  {
   "property": "C110",
   "status": "proved",
   "theorems": [
    "C110_samples"
   ],
   "note": "The iterator over sequence numbers is modelled by the list of records it delivers; lookups of liveness may give different answers over time."
  },
  {
   "property": "C111",
   "status": "proved",
   "theorems": [
    "C111_enough",
    "C111_positions"
   ],
   "note": "C111_overwritten (an Example) shows that with overwritten keys fewer samples than keys may be returned, as the documentation allows."
  },
  {
   "property": "C112",
   "status": "partial",
   "theorems": [
    "C112_window_partial",
    "C112_level_added_refuted",
    "C112_migration_refuted",
    "C112_next_source_refuted"
   ],
   "note": "The full statement is refuted by two races: a level added during the lookup, and two successive compactions of one partition between listing and reading level 0. C112_window_partial proves it for all other interleavings (and under the condition on bloom filters of C22)."
  },
  {
   "property": "C113",
   "status": "partial",
   "theorems": [
    "C113_mended_partial",
    "C113_separates_partial",
    "C113_duplicate_refuted",
    "C113_far_refuted",
    "C113_min_key_refuted",
    "C113_race_refuted",
    "C113_tombstone_refuted"
   ],
   "note": "The full statement is refuted: newer version in the second table, overlap with more than the neighbour, corrected min key that changes the order, a lookup between two steps of the repair, moved tombstones with bloom filters. Proved for all levels without these, at every moment of every sequence of repairs."
  },
  {
   "property": "C114",
   "status": "partial",
   "theorems": [
    "C114_crash_partial",
    "C114_crash_refuted"
   ],
   "note": "Refuted for a crash between the two commits (the removal is committed first); proved for all other moments."
  },
  {
   "property": "C115",
   "status": "partial",
   "theorems": [
    "C115_session_partial",
    "C115_opens_alike",
    "C115_after_close_or_crash_partial",
    "C115_same_directory",
    "C115_flush_refuted",
    "C115_flush_deletes_refuted"
   ],
   "note": "Proved for every call but flushLogs, for every directory whose newest listed log file exists, in particular after any close or crash of C76. The full statement is refuted: flushLogs on a read-only handle returns OK, changes tables and manifest, and deletes log files."
  },
  {
   "property": "C116",
   "status": "partial",
   "theorems": [
    "C116_reader_writes_nothing_partial",
    "C116_synced_write_lost_refuted"
   ],
   "note": "Proved for readers that do not call flushLogs. The full statement is refuted: flushLogs of a read-only handle stores the manifest of the reader, and a log file the writer has synced since is removed at the next opening."
  },
  {
   "property": "C117",
   "status": "proved",
   "theorems": [
    "C117_get_latest",
    "C117_get_by_number",
    "C117_evictions_invisible",
    "C117_never_undefined"
   ],
   "note": "One call at a time; the conditions on writes are those of C01. Eviction of any eligible file at any moment covers every schedule of the reclaimer between calls. Reopening is not part of the runs."
  },
  {
   "property": "C118",
   "status": "partial",
   "theorems": [
    "C118_snapshot_unfreed_partial",
    "C118_snapshot_null_refuted",
    "C118_open_snapshot_null_refuted"
   ],
   "note": "The statement is refuted: a snapshot get dereferences the null memtable of a freed log file. Proved: as long as none of the log files of the snapshot has been freed, its answers are those of a database that never freed anything."
  },
  {
   "property": "C119",
   "status": "partial",
   "theorems": [
    "C119_sync_with_writers_partial",
    "C119_dies_in_sync_partial",
    "C119_reads_during_sync",
    "C119_first_write_refuted",
    "C119_new_file_refuted"
   ],
   "note": "The full statement is refuted: a first record put into an empty log file between the flush and the marking of that file by a sync is marked as synced without being on disk, and later syncs and closing skip it. Proved for all interleavings in which syncs begin after the first write, a new log file comes with its first record, no batch begins during a sync, and flushes do not run during a sync; crashes of the process at any moment, power failures between syncs. Overwriting by number is excluded (C121)."
  },
  {
   "property": "C120",
   "status": "partial",
   "theorems": [
    "C120_half_batch_refuted",
    "C119_dies_in_sync_partial"
   ],
   "note": "The statement is refuted by a batch that begins after the sync has read the barrier. For batches that begin while no sync is running, C119_dies_in_sync_partial gives a state after an initial part of the acknowledged writes (a batch is acknowledged as a whole), so nothing of an unacknowledged batch survives."
  },
  {
   "property": "C121",
   "status": "partial",
   "theorems": [
    "C121_overwrite_lost_refuted"
   ],
   "note": "The statement is refuted by a concrete run; C121_case shows the same calls without the overlap. Overwriting is excluded by the hypotheses of C119 and C76."
  },
  {
   "property": "C122",
   "status": "proved",
   "theorems": [
    "C122_get_atomic"
   ],
   "note": "Single writes and one flush at a time; the theorem also covers batches under the guards named with C123. Within the model of GetRaceModel.v (memtable and tables as contracts, increasing numbers)."
  },
  {
   "property": "C123",
   "status": "partial",
   "theorems": [
    "C123_batch_atomic_partial",
    "C123_quiet_choice",
    "C123_key_twice_refuted",
    "C123_empty_file_refuted",
    "C123_half_batch_refuted"
   ],
   "note": "The full statement is refuted by three concrete runs: a batch with a key twice, a get that asks an empty log file, and a flush beyond the last sync that reads the largest number while a batch is running. Proved for batches without repeated keys that do not begin while a get is between reading the number of an empty file and its lookup, and flushes up to an acknowledged record; C123_quiet_choice shows that an undisturbed flush meets that guard."
  },
  {
   "property": "C124",
   "status": "partial",
   "theorems": [
    "C124_overlap_partial",
    "C124_beyond_partial",
    "C124_null_refuted"
   ],
   "note": "The full statement is refuted: after a sync during which a flush beyond the last sync removed the synced file, the next flush dereferences null. Proved: runs in which flushes below the last sync overlap syncs in any way (flushes beyond it only between syncs) have no undefined call and right reads at every moment; and a flush beyond the last sync started during a sync is itself carried out correctly. Batches do not begin during a sync; crashes are not covered here (C119, C120)."
  },
  {
   "property": "C125",
   "status": "partial",
   "theorems": [
    "C125_safe_partial",
    "C125_one_owner_partial",
    "C125_no_leak_partial",
    "C125_free_partial",
    "C125_resize_zero_refuted"
   ],
   "note": "The full statement is refuted: resize(0) followed by free() frees twice, and the header does not forbid it. Proved for all programs that also avoid resize(0)."
  },
  {
   "property": "C126",
   "status": "partial",
   "theorems": [
    "C126_set_partial",
    "C126_alloc_partial",
    "C126_resize_partial",
    "C126_huge_refuted"
   ],
   "note": "The full statement is refuted for sizes of 2^32 bytes and more, which are cut without an error. Proved for all smaller sizes."
  },
  {
   "property": "C127",
   "status": "proved",
   "theorems": [
    "C127_copy",
    "C127_source",
    "C127_owner",
    "C127_move"
   ],
   "note": "For all states reached by programs following the rules of C125, and all continuations."
  },
  {
   "property": "C128",
   "status": "partial",
   "theorems": [
    "C128_clone_partial",
    "C128_move_partial",
    "C128_leak_refuted",
    "C128_refuse_refuted"
   ],
   "note": "The full statement is refuted: clone leaks metadata of a record that empty() calls empty, and refuses one with an empty-string key. Proved for records that own nothing and have null key and value pointers."
  },
  {
   "property": "C129",
   "status": "partial",
   "theorems": [
    "C129_ends_partial",
    "C129_cut_partial",
    "C129_newest_partial",
    "C129_kept_partial",
    "C129_hole_refuted",
    "C129_later_record_refuted"
   ],
   "note": "The full statement is refuted for the moment between the shortening of the file and the writing of the manifest. Proved: the other moments; what exactly reads find at that moment; that rollback is atomic if no log file begins after n; that no record up to n is lost at any moment. Log-store mode (logFileTtl_sec > 0), no power failure."
  },
  {
   "property": "C130",
   "status": "partial",
   "theorems": [
    "C130_get_partial",
    "C130_seq_partial",
    "C130_iterator_partial",
    "C130_without_partial",
    "C130_iterator_refuted",
    "C130_iterator_next_refuted",
    "C130_nearest_refuted",
    "C130_synced_refuted",
    "C130_snapshot_refuted"
   ],
   "note": "The full statement is refuted for iterators and nearest-key searches (a key first written after n leaves an empty node; the iterator is undefined there), for synced writes (they are taken from memory too) and for snapshots. Proved: reads by key and by number right after the call; that opening an iterator is defined if every key that loses a write keeps an older one in the same log file, and always without discardDirty. Missing: writes, syncs and flushes after the call."
  },
  {
   "property": "C131",
   "status": "partial",
   "theorems": [
    "C131_safe_partial",
    "C131_closed_partial",
    "C131_refused_partial",
    "C131_exists_partial",
    "C131_names_partial",
    "C131_quiet_partial",
    "C131_order_refuted",
    "C131_reopened_refuted",
    "C131_beside_refuted"
   ],
   "note": "The full statement is refuted: a named database used or closed after the last close of its group reads a deleted logger, also through a group opened again later; a DB::open beside a group is never closed. Proved: for callers that close the named databases before the group and do not mix DB::open with a group, no deleted object is read, everything is closed at the end, and DBGroup::open is refused exactly when it should; for every order, a held handle's database exists, names and databases correspond, and without logging nothing deleted is read."
  },
  {
   "property": "C132",
   "status": "partial",
   "theorems": [
    "C132_min_partial",
    "C132_bound_partial",
    "C132_tables_partial",
    "C132_count_partial",
    "C132_count_bound_partial",
    "C132_gap_refuted",
    "C132_batch_refuted"
   ],
   "note": "The full statement is refuted for numbers chosen by the caller and while a batch is written. Proved outside of batches: exact for numbers given by the database; for any numbers, LOG_NOT_EXIST is right, the number reported is above everything flushed and not above the smallest one left, the count is never too small, and getLastFlushedSeqNum is right."
  },
  {
   "property": "C133",
   "status": "partial",
   "theorems": [
    "C133_safe_partial",
    "C133_plain_partial",
    "C133_unused_partial",
    "C133_no_new_partial",
    "C133_ends_partial",
    "C133_bound_partial",
    "C133_request_partial",
    "C133_long_refuted",
    "C133_reclaim_refuted",
    "C133_handler_refuted",
    "C133_reuse_refuted",
    "C133_others_refuted"
   ],
   "note": "The full statement is refuted: handlers longer than ten seconds, log-store databases closed during a reclaim, a handler closing its own database, a reused address, and other databases waiting. Proved for all executions where no wait expires and no freed database is on the reclaimer's list: no use after free, the free finds nobody at work, nobody starts new work, the close ends with the jobs, requests go to the right database if addresses are not reused."
  },
  {
   "property": "C134",
   "status": "proved",
   "theorems": [
    "C134_layout",
    "C134_size",
    "C134_read_back",
    "C134_write_back",
    "C134_portable",
    "C134_order"
   ],
   "note": ""
  },
  {
   "property": "C135",
   "status": "partial",
   "theorems": [
    "C135_synced_lost_refuted",
    "C135_new_file_lost_refuted",
    "C135_new_database_refuted",
    "C135_undisturbed_partial",
    "C135_idle_partial",
    "C135_next_sync_partial"
   ],
   "note": "The full statement is refuted: an fsynced record is lost. Proved for all runs: the handle's answers and memory are as without the second thread; the closing of a duplicate with the handle's memory loses nothing; if the duplicate wrote the manifest only, the next sync mends it. Missing: interleaving inside one call."
  },
  {
   "property": "C136",
   "status": "partial",
   "theorems": [
    "C136_compacted_partial",
    "C136_split_partial",
    "C136_fixed_partial",
    "C136_urgent_partial",
    "C136_none_missed_partial",
    "C136_merged_partial",
    "C136_locked_refuted",
    "C136_disabled_refuted"
   ],
   "note": "The full statement is refuted in two points: a table that another job works on can be chosen to be merged, and keeps others from being merged; with compactionFactor 0 tables are compacted again and again. The rest is proved for all levels. Missing: rounding of the factors 1.5, 0.2, 0.4, 1.6 in floating point; table stacks."
  },
  {
   "property": "C137",
   "status": "partial",
   "theorems": [
    "C137_reason",
    "C137_requested",
    "C137_requested_ratio",
    "C137_done_partial",
    "C137_delayed",
    "C137_off",
    "C137_idle_partial",
    "C137_idle_never_partial",
    "C137_idle_two_refuted",
    "C137_interrupted_refuted"
   ],
   "note": "The full statement is refuted in two points: with two tables in a partition, as usual without further levels, idle traffic never leads to a compaction; an interrupted compaction is not taken up again while keys are loaded in order (that compaction is delayed then is documented). The reasons of a compaction, requests by the user included, are proved in full. So is that requests lead to a compaction. Missing: completeness of the other reasons while keys are loaded in order, and of idle traffic with two tables (refuted)."
  },
  {
   "property": "C138",
   "status": "partial",
   "theorems": [
    "C138_foreign_refuted",
    "C138_independent_partial"
   ],
   "note": "The full statement is refuted: after one document with cut-off metadata, which the library itself never writes, deletions are read as insertions. Proved: independence for all sequences of documents without cut-off headers, hence for all that the library writes."
  }
 ]
}