# Formal model of eBay/Jungle in Rocq (Coq 8.16.1)

## 1. Shape of the development

`rocq/theories` (logical name `Verif`, 288 files) is organised by area.  Each area has

* a *model* file (`XxxModel.v`): small total Gallina functions, each with a comment citing the C++
  file and lines it models and naming every simplification;
* where the statement needs vocabulary of its own, a *specification* file (`XxxSpec.v`) that does
  not use the model's helpers;
* *proof* files (`XxxProofs.v`);
* a *property* file (`XxxProps.v`): the theorems named after the property ids, each followed by
  `Print Assumptions`, with `Example`s that show that the hypotheses are met by a non-trivial case.

`properties.jsonl` has 138 properties, `MANIFEST.json` claims 472 theorems for them.

How statements are named:

* `Cnn_xxx`: the claim as the property states it;
* `Cnn_xxx_partial`: the strongest restricted form that was proved; the restriction is a
  hypothesis of the theorem and the note in MANIFEST.json (and section 5) says what is missing;
* `Cnn_xxx_refuted`: the property, or a part of it, is false of the code: an explicit execution of
  the model, computed by `vm_compute`, that violates it.  A property with a refutation is listed as
  `partial`, never as `proved`.

Techniques: round trips by computation on lists of bytes (codecs, log format, manifests);
invariants by induction over sequences of operations (log section, table section, rollback,
checkpoints); small-step machines with any number of threads and an invariant over every
interleaving (numbers, reference counts, booster, global batches, flusher, background jobs);
refinement to a list of writes, to a sorted list with a cursor, or to one byte stream (memtable,
database handle, iterators, direct I/O).  No bound on sizes, depths, numbers of files, threads or
steps appears in any theorem, except the width of the machine's integers where the code depends on
it (for example sequence numbers below 2^64 - 2).

## 2. Trusted base

* Coq's kernel, version 8.16.1, including `vm_compute` (used in examples and refutations and in the
  check of the CRC tables), and the operating system and compiler that run it.
* Axioms: none.  `Print Assumptions` prints `Closed under the global context` for each of the 472
  theorems in MANIFEST.json.  (The axioms that `coqchk` lists for the libraries loaded, all from
  `Coq.ssr.ssrunder`, are loaded with the standard library's tactics and used by no theorem.)
* The reading of the C++ code: that each definition of the model computes what the lines cited in
  its comment compute, up to the simplifications named there.  Nothing is extracted from or run
  against the C++ code.
* The order in which atomic steps of concurrent threads are interleaved is sequentially consistent
  in the models; weaker memory orders are not modelled.
* Disk: bytes handed to `fsync` survive, bytes that were not may survive or not (C10, C46, C63,
  C66); an `ftruncate` or `write` that reports success has done its work in the page cache.

## 3. What is modelled

| Area | Files | C++ code | Main simplifications |
|------|-------|----------|----------------------|
| Checksum | Crc32* | crc32.cc, all of it, with its 2048 table constants | none |
| Keys, byte order | Key*, Endian* | SizedBuf::cmp, endian_encode.h | custom comparators left out |
| Log format | LogFormat*, LogSpec, LogDamageProofs | memtable.cc: flush (record layout), loadRecord, load, loadCheckpoint | compression callback is a parameter |
| Log writer | LogWriter* | memtable.cc: flush (page buffer), checkpoint, appendFlushMarker; log_file.cc: flushMemTable | one file; write errors left out |
| Files | File* | fileops_base.h memory serializer, RwSerializer in file mode | |
| Record metadata | Meta* | table_file.cc: userMetaToRawMeta, rawMetaToUserMeta, readInternalMeta | |
| Bloom filter | Bloom* | bloomfilter.cc | the hash function is a parameter |
| Log manifest | LogManifest* | log_manifest.cc: storeInternal, load, backup/clone | default mode in `load`; log-section-only load is in RollbackModel |
| Table manifest | TableManifest* | table_manifest.cc: store, load, backup | |
| Memtable | MemTable* | memtable.cc: assignSeqNum, putNewRecord, addToByKeyIndex, addToBySeqIndex, getRecordByKey(Internal), getNearest, prefix, discardDirty, getLogsToFlush, checkpoint list, load | the skiplist is a sorted list here (its concurrent code: next rows); one thread |
| Concurrent index | Skip* | skiplist.cc: insert, insert_nodup, erase, the five searches, next, begin/end, grab/release, is_safe_to_free, with any number of threads | a step is one shared read or write; the node lock is a flag held for a read or a write; the height of a node is a parameter; skiplist_prev is a search for the next smaller key |
| Ordered tree of the iterators | Avl* | avltree.cc, avltree.h: init, first/last/next/prev, the three searches, insert, remove, the four rotations | a node is a number and 0 the null pointer; the word that packs the parent pointer with two balance bits is two fields; what an entry holds is changed only by the next insertion, as the iterators do |
| Opening and closing one path in several threads | Handle* | db_mgr.cc openExisting, assignNew, close; jungle.cc DB::open, DB::close | one path; the work of opening and closing the files is one step; the map is one optional entry; a weak compare-and-swap may fail only where an action says so |
| Background workers | Worker*, WorkerReg* | event_awaiter.h; worker_mgr.cc loop, run, stop, invoke, destroy, addWorker, getWorker; flusher.cc queue and the start and end of a pass; db_mgr.cc addLogReclaimer | one worker is followed, the others appear as the taking of requests; the body of a pass is reduced to its effect on the queue and the flag; updates of the global configuration are left out |
| Table writers | TableWriter* | table_writer.h/.cc; the loops of table_set_batch.cc:215-291, table_compaction.cc:415-491, table_split.cc:254-317; db_config.cc getMaxParallelWriters | the content of a write is a counter; a thread may look at its payload at any time instead of being woken; the stop signal is left out (writers are stopped after all workers) |
| Node lock | RwLock* | skiplist.cc: _sl_read_lock_an, _sl_write_lock_an | one lock word, any number of threads below 4096 |
| Log section | LogMgr*, Db* | log_mgr.cc: setSN, setMulti, addNewLogFile, get, getSN, syncInternal, flush, checkpoint, openSnapshot; jungle.cc: set, get, batches, snapshots | each call runs alone except that atomic batches are split into steps |
| Table section | Lsm*, Merge* | table_mgr.cc: get, init and reload (not adjustNumL0Partitions); table_set_batch.cc; table_compaction.cc; table_split.cc; table_file.cc: lookups and their filters | a table file is a map with tombstones (ForestDB is trusted); L0-only mode separately in Merge* |
| Whole database | Full* | the two together, flush hands over records | |
| Iterators | Iter*, LeafIter*, DbIter*, SeqIter*, LiveIter* | iterator.cc, log_iterator.cc, table_iterator.cc, memtable_iterator.cc, table_file_iterator.cc | custom comparators left out |
| Nearest and prefix search | Nearest*, Prefix* | jungle.cc, log_mgr.cc, table_mgr.cc, table_file.cc: getNearest, getPrefix | |
| Lookup booster | Booster* | table_lookup_booster.cc and its users in table_file.cc | any number of threads |
| File numbers | Number* | table_manifest.cc issueTableNumber, log_manifest.cc issue/setMaxLogFileNum | any number of threads |
| Reference counts | RefCount*, SnapRef* | log_manifest.h LogFileInfo; log_mgr.cc openSnapshot, closeSnapshot | one file / one snapshot, any number of threads |
| Global batches | GlobalBatch*, GlobalVisProofs | global_batch.cc | |
| Checkpoints | Checkpoint* | jungle.cc checkpoint, getCheckpoints, openSnapshot; table_mgr.cc and table_file.cc snapshot markers | fixed number of partitions |
| Asynchronous flush | Flusher*, Throttle* | flusher.cc, flusher.h, the sleeping times | |
| Background jobs | TableLock* | table_helper.cc TableStack, lockTable; how jobs choose tables | effects of jobs from LsmModel |
| Direct I/O | DirectIO* | fileops_directio.cc | one thread per handle, one int width |
| Rollback, reopening of the log section | Rollback*, RollbackRef* | log_mgr.cc rollback, close, init; log_file.cc truncate, purgeMemTable, loadMemTable; memtable.cc findOffsetOfSeq; log_manifest.cc load (log-section-only), reclaimExpiredLogFiles, getLogFileInfoBySeq; db_mgr.cc file removal | no checkpoints or batches in the state model |
| Timers of delayed flushes | Timer* | simple_thread_pool.h:108-286,467-606; jungle.cc:486-555,1016-1052 | one-time tasks only, no worker threads (the default used), the pool is not shut down; time in microseconds does not wrap |
| Change of the number of level-0 partitions | Adjust* | adjustNumL0Partitions, table_mgr.cc:325-445, and its call at 252-265; compactLevelItr with doNotRemoveOldFile | On the table section of LsmModel.v; an interrupted change is any sequence of its compactions, complete or partial, followed by any operation; failures while the new tables are created are not modelled. |
| Sample keys | Sampler* | sampler.cc | The sequence-number iterator is a sorted list of records; failures of the iterator are not modelled. |
| Lookup during compaction | ReaderModel/Spec/Proofs[2-4]/Props.v | table_mgr.cc:559-656, 827-842 | Reading the number of levels, taking the list of tables of a level, and reading these tables are one step each; the operations of other threads are the atomic ones of LsmModel.v. |
| Overlapping tables | RepairModel/Spec/Proofs[2-3]/Props.v | table_manifest.cc:174-260, 626-650; table_split.cc:519-680 | One level; a write is visible to lookups at once and durable after the next commit of its file; lookup boosters are not modelled. |
| Read-only handles | ReadOnly*.v | jungle.cc:50-183, 472-484, 1015-1050; log_mgr.cc:62-202, 234, 333-335, 610, 699, 1206, 1315, 1361-1593, 1755-1776, 2108; table_mgr.cc:311; table_compaction.cc:762 | on top of RecoverModel (records, decoded manifests, tables as contract); system log, restoration of a manifest from backup and compactions below level 0 left out; the second process shares the directory, its flush is one step |
| Log-store mode, memtables freed and reloaded | Reclaim*.v | log_manifest.cc:35-150, 677-709, 742-800; log_manifest.h:76-190; log_file.cc:180-259, 363-374, 532-570, 708-750; log_mgr.cc:385-450, 599-682, 833-900, 1198-1310; jungle.cc:635-672 | on top of RecoverModel, one call at a time; the age condition of the reclaimer and the limit on loaded files are replaced by eviction of any file that satisfies the other conditions at any moment; reopening left out |
| Sync with concurrent writers | SyncRace*.v | log_mgr.cc:489-550, 614-616, 697, 1198-1310; log_file.cc:404-521, 627-647; memtable.cc:1236-1460 | on top of RecoverModel; a write or one record of a batch is one step, the writing of one log file is one step (cut in the middle only by a crash), fsync and the setting of the marks of a file are one step; creation of a log file can be a step of its own; flushes do not run during a sync; the file system does not fail |
| Gets beside writers, batches and a flush | GetRace*.v | jungle.cc:635-672; log_mgr.cc:706-760, 859-938, 1361-1582; log_manifest.cc:711-740, 826-846, 882-904; log_file.cc:649-669 | log files as records plus flushed mark (memtable lookups by the contract proved for C11), increasing numbers, tables as contract with an atomic batch, syncs left out (they change nothing a get sees), no log-store mode, no snapshots, no purgeOnly |
| A flush of the log beside a sync | FlushRace*.v | log_mgr.cc:1198-1310, 1361-1590 | as SyncRace*.v; the flush is one step |
| SizedBuf and Record: ownership, copies, sizes | Buf*.v | sized_buf.h:28-160, 283-494; record.h:97-166; keyvalue.h:112-217 | pointers into the middle of a block; failing allocations; KV by itself (its calls are those of Record for key and value) |
| Death of the process during rollback | RollCrash*.v | log_mgr.cc:226-331; log_manifest.cc:296-449, 509-560; log_file.cc:180-209, 261-324 | power failure (C66), death inside one write, writers beside the rollback, skipManifestSync |
| Discarding unsynced writes | Discard*.v | jungle.cc:465-470; log_mgr.cc:1312-1359; log_manifest.cc:742-800, 848-863; memtable.cc:88-142, 515-562; memtable_iterator.cc:34-81, 198-226; log_iterator.cc:37-233 | a sync running at the same time; operations after the discarding; iterators open during it; prev and seek |
| Life of the handles of a group | GroupLife*.v | db_group.cc:19-165; jungle.cc:50-188, 256-279, 1015-1050; db_mgr.cc:297-372 | threads; failing opens; snapshots; background workers; the compare-and-swap is strong |
| Numbers and counts reported | SeqInfo*.v | jungle.cc:395-399, 915-932; log_mgr.cc:1800-1834, 1873-1933 | log files removed while the functions run; the table part of getStats |
| Background workers and close | BgClose*.v | db_mgr.cc:297-372; flusher.cc:38-76, 139-296; compactor.cc:102-270; jungle.cc:1012-1069; log_mgr.cc:2076-2128; table_mgr.cc:941-968; log_reclaimer.cc:51-78 | what decides which database a worker picks; the work itself; user threads using a handle while it is closed |
| Byte order of numbers | Endian*.v | endian_encode.h:60-117; internal_helper.h:405-449 | machines with other byte orders than little and big |
| Two threads opening one path | DupOpen*.v | jungle.cc:55-176, 1012-1050; log_mgr.cc:2076-2131 | db_manifest; tables of the duplicate; interleaving inside one call |
| Choice of the table to compact | Victim*.v | table_compact_condition.cc:36-345, 649-760 | table stacks; floating-point rounding of the factors; debug parameters; level 0 (391-640) |
| Decision to compact level 0 | L0Cond*.v | table_compact_condition.cc:391-646 | the search for the one or two tables (table_mgr.cc:787-865); sums that wrap |
| Reads after metadata not written by the library | ForeignMeta*.v | table_file.cc:700-767, internal_helper.cc:193-257, internal_helper.h:41 | as for MetaModel.v |
| Bulk builder | Builder* | jungle_builder.cc, jungle_builder.h | ForestDB and file calls succeed, no compression; what the new log section does with its first sequence number is not followed |
| Groups of named databases | DbGroup* | db_manifest.cc: addNewKVS, getKVSID, store, load; db_group.cc open; jungle.cc:85-137 | the two hash maps are lists; the write-and-cut of the file is one step, except in a crash during it, when the file may have any content |
| Closing, crashing, reopening with tables | Recover* | log_mgr.cc init, close, removeStaleFiles, syncInternal, flush (disk effects); log_manifest.cc load, store; log_file.cc load, flushMemTable; memtable.cc load, flush (what is written) | log file contents as record lists, manifest as decoded content, tables durable when a flush hands them over |

## 4. What is not modelled

* ForestDB (third party): a table file is trusted to be an ordered map with snapshots.
* The worker threads of the thread pool, semaphores (other than where they are the subject),
  the loggers, statistics, the command handler, tools and benchmarks.
* Custom key comparison functions, custom hash functions for prefixes, log compression other than
  as a parameter, encryption-like callbacks.
* I/O errors, except where a property is about them (C38, C44, C47, C56, C62).
* Memory management inside the library (allocation failure, which internal buffer owns what), except reference counts. SizedBuf and Record themselves are modelled (Buf*.v).
* Table files opened by older versions (format version 0 and 1 of manifests are
  read by the modelled code but their writers do not exist any more).

## 5. The properties

For each property: what is modelled and how it is proved, its theorems, and what is missing.

### C01. A record written to the log is read back unchanged (proved)

Modelled and proved by: byte-level encoder of MemTable::flush and decoder loadRecord; round trip by computation on lists.

Theorems: `C01_log_round_trip`, `C01_padding_ignored`.

Byte-level encoder of MemTable::flush and decoder MemTable::load, for every record list; compression callback is a parameter that round-trips.

### C02. After a crash the log recovers to a whole-record prefix (proved)

Modelled and proved by: the load loop over every prefix of the encoded file; induction over the entries.

Theorems: `C02_truncated_log`, `C02_load_terminates`.

Every truncation point of the encoded file.

### C03. A zero-filled tail after a crash does not lose synced records (partial)

Modelled and proved by: load and the status handling of LogManifest::load; witness (the CRC of 20 zero bytes is not 0).

Theorems: `C03_zero_tail_loader`, `C03_zero_tail_refuted`.

The full statement is refuted: the log-file loader reads every record and then reports a checksum error (for a tail of 36 bytes or more), upon which loading the manifest discards the file and creates an empty one.

### C04. The fast checksum is the standard CRC-32 and can be chained (proved)

Modelled and proved by: table-driven CRC against a bit-by-bit definition; linearity over xor, induction over the length.

Theorems: `C04_crc32_8_is_crc32`, `C04_crc32_1_is_crc32`, `C04_crc32_8_chain`, `C04_crc32_detects_bursts`.

Against a bit-by-bit definition of CRC-32.

### C05. Any short corruption of a stored record is detected (proved)

Modelled and proved by: the CRC as a linear feedback register on bits; injective on windows of 32 bits.

Theorems: `C05_damaged_lengths`, `C05_damaged_length_checksum`, `C05_damaged_body`, `C05_damaged_body_checksum`, `C05_record_parts`.

Each field, as stated; for damage across the border of two fields see C84, for the flag word C43.

### C06. How the log is chunked into page-sized writes does not change its bytes (proved)

Modelled and proved by: the page buffer of flush; loop invariant file ++ buffer = specification.

Theorems: `C06_page_buffering`.

File content equals the concatenation of the encodings for every page limit and every grouping into syncs.

### C07. Taking a checkpoint never makes synced records unreadable (partial)

Modelled and proved by: the same with the cold checkpoint path; witness and two guarded theorems.

Theorems: `C07_sequential_partial`, `C07_interleaved_partial`, `C07_checkpoint_race_refuted`.

The full statement is refuted: a write between the two steps of a checkpoint makes the next sync cut a record in two. It holds when no write lands between them, or when every record fits the page buffer.

### C08. The log manifest round-trips (proved)

Modelled and proved by: manifest writer and reader; round trip.

Theorems: `C08_parse_round_trip`, `C08_load_round_trip`.

Byte-level; the load loop with its repairs of unset marks; default mode (not log-section-only truncation).

### C09. Incremental manifest updates leave the same file as a full rewrite (proved)

Modelled and proved by: the differential store with its cache; invariant over versions.

Theorems: `C09_incremental_is_full`.

Every history of versions and outcomes, every initial disk content and cache buffer content; write failures are C44.

### C10. A crash during a manifest update always leaves a usable manifest (partial)

Modelled and proved by: disk with volatile and durable parts; invariant over crash points, witnesses.

Theorems: `C10_crash_during_update`, `C10_first_store_refuted`, `C10_second_crash_refuted`.

Proved for a process that has completed one synchronous store. The full statement is refuted: the first store of a new database, and a crash in the first store after a crash that tore the backup.

### C11. A read returns the latest write (in-memory part) (proved)

Modelled and proved by: log section and table section refine the list of acknowledged writes.

Theorems: `C11_latest_write`, `C11_latest_write_whole`.

Every run of sets, deletions, batches, syncs, checkpoints and flushes that keeps to the conditions of `allowed` in DbProofs.v; sequence numbers below 2^64-2. C11_latest_write represents the tables by their contract (last record of the key); C11_latest_write_whole has the real table section below, with compactions, splits, merges and reloads at any time.

### C12. A snapshot read returns the latest write at or before the snapshot point (partial)

Modelled and proved by: the same for reads at a snapshot.

Theorems: `C12_snapshot_latest`, `C12_snapshot_checkpoint`, `C12_checkpoint_in_batch_refuted`.

Proved for snapshots of the newest data and at any acknowledged checkpoint, for every later execution. The tables are one store here: with several tables, a compaction after the snapshot was opened breaks its reads (C58). The full statement is refuted for a checkpoint taken while a batch is being written.

### C13. Automatically assigned sequence numbers are consecutive and never reused (proved)

Modelled and proved by: invariant over all runs.

Theorems: `C13_consecutive`, `C13_next_number`.

One process lifetime, from a new database; across closes and crashes see C70 and C76.

### C14. An explicit sequence number that is not larger than the current maximum is rejected (partial)

Modelled and proved by: the check of setSN; witness for a full file.

Theorems: `C14_stale_number_rejected_partial`, `C14_stale_number_accepted_refuted`, `C14_stale_number_loses_refuted`.

The full statement is refuted: a write that finds the newest log file full is compared with nothing. It holds whenever the newest log file has room.

### C15. Flushed, synced and maximum sequence numbers stay ordered (partial)

Modelled and proved by: marks of log files over all runs; witnesses.

Theorems: `C15_marks_ordered`, `C15_never_synced_refuted`, `C15_synced_lowered_refuted`.

Order proved whenever both numbers are reported; refuted: after a flush beyond the last sync the flushed number exists and the synced one does not, and such a flush can lower the synced number.

### C16. Nearest-key search returns the closest live version (partial)

Modelled and proved by: nearest search over memtables, level 0 and upper levels; guarded refinement, four witnesses.

Theorems: `C16_nearest_partial`, `C16_nearest_no_deletion_partial`, `C16_stale_value_refuted`, `C16_empty_table_refuted`, `C16_batch_hides_refuted`, `C16_snapshot_hides_refuted`.

The full statement is refuted: a purged key in a partly flushed log file, an empty table in the middle of a level, a batch being written, and (through a snapshot) a key written later each hide the right key. Proved for all histories without these four situations, over log files, level-0 tables and all upper levels, at the present (no snapshot).

### C17. Prefix search visits every key with the prefix (partial)

Modelled and proved by: prefix search; guarded refinement, witness.

Theorems: `C17_prefix_partial`, `C17_stop`, `C17_three_tables_refuted`.

Proved for all histories when no level has more than two neighbouring tables with keys of the prefix. The full statement is refuted: with three such tables the third is not searched.

### C18. Iteration by key yields each live key once, in order, with its newest version (partial)

Modelled and proved by: the merging iterator over arbitrary sources is a cursor over a sorted list; witnesses.

Theorems: `C18_both_directions_partial`, `C18_single_record_refuted`, `C18_end_position_refuted`.

Any mixture of calls is proved when every log file and table in the range shows at least two keys. The full statement is refuted: a log file or table with one key can be skipped after turning round twice, and a failing next() can leave the iterator without a current key.

### C19. Seeking an iterator lands on the right record or reports out of range (partial)

Modelled and proved by: seek of the merging iterator; guarded theorem, six witnesses.

Theorems: `C19_seek_partial`, `C19_seek_both_directions_partial`, `C19_smaller_refuted`, `C19_stale_refuted`, `C19_deleted_refuted`, `C19_below_range_refuted`, `C19_above_range_refuted`, `C19_flushed_refuted`.

Proved for targets on whose side every source has a key. The full statement is refuted in six ways: wrong side with SMALLER, stale value and deleted key when seeking beyond the last key, leaving the range below and above, and losing a source whose keys beyond the target are already flushed.

### C20. Iteration by sequence number stays inside the requested range (partial)

Modelled and proved by: iteration by number; guarded theorem, five witnesses.

Theorems: `C20_consecutive_partial`, `C20_both_directions_partial`, `C20_gap_refuted`, `C20_gap_between_files_refuted`, `C20_seek_refuted`, `C20_seek_smaller_refuted`, `C20_zero_refuted`.

Proved when the numbers have no gaps (assigned by the database), the maximum is not 0, and the iterator is moved by next, prev, gotoBegin, gotoEnd; also shown: it is a cursor over the records of the range, complete for unflushed records and current values. Refuted for numbers with gaps (two ways), for seekSN beyond the range, and for a maximum of 0; seekSN SMALLER lands on the maximum.

### C21. Multi-level lookup returns the newest version (proved)

Modelled and proved by: levels of tables with every background operation; lookup = newest flushed version.

Theorems: `C21_latest_in_tables`.

Every execution in level-extension mode; non-empty keys; sizes, cut points and cancellation points are arbitrary.

### C22. A deleted key stays deleted when bloom filters are enabled (partial)

Modelled and proved by: bloom-filtered lookup; witnesses, theorem with filters off.

Theorems: `C22_deleted_stays_deleted_partial`, `C22_flushed_deletion_refuted`, `C22_merged_deletion_refuted`.

The full statement is refuted: deletions are not entered in the bloom filter by a flush nor by a table merge, so that lookups skip the table. It holds when lookups do not use filters.

### C23. A table-level read never reports success without a value (partial)

Modelled and proved by: lookups report success only with a record; witness in single-level mode.

Theorems: `C23_success_has_record_partial`, `C23_success_without_record_refuted`.

Proved in the multi-level mode from every reachable state. The full statement is refuted in the single-level mode, persistently after a cancelled compaction and a restart.

### C24. Bloom filters have no false negatives (proved)

Modelled and proved by: bit array and index arithmetic; induction over the added keys.

Theorems: `C24_no_false_negatives`, `C24_saved_no_false_negatives`, `C24_empty_rejects`, `C24_bitmap_laws`.

For every hash function (hash pairs are arbitrary).

### C25. Merging two tables keeps exactly the newest live version of each key (proved)

Modelled and proved by: two-cursor merge loop; induction, stated by key lookup.

Theorems: `C25_merge`.

Failing writes, whose result the code ignores, are not modelled.

### C26. Splitting a table loses no record and routes each key to one output (proved)

Modelled and proved by: grouping of a split; induction.

Theorems: `C26_split`.

From every reachable state; cut decisions arbitrary.

### C27. The lookup shortcut never returns an outdated version (partial)

Modelled and proved by: booster slots with any number of threads; invariant, two witnesses.

Theorems: `C27_own_slots_partial`, `C27_one_by_one_partial`, `C27_shared_slot_refuted`, `C27_unprotected_slot_refuted`.

Proved for every interleaving when no two key hashes in use share a slot, and with any collisions when operations run one at a time. The full statement is refuted: after another hash took the slot, a reader still holding an older document puts it back and the next read is outdated; and the mutex is chosen by a different modulus than the slot, so two threads can write one slot under different mutexes.

### C28. Table and log file numbers are unique under concurrency (proved)

Modelled and proved by: compare-and-swap loop; invariant over all interleavings.

Theorems: `C28_numbers_unique`, `C28_numbers_consecutive`.

Fewer than 2^64 numbers issued (the counter wraps). Any number of threads, any interleaving, spurious failures of the weak compare-and-swap included.

### C29. A log file in use by a reader is never freed, and a removed one is eventually freed (partial)

Modelled and proved by: reference count machine; invariant over all interleavings, five witnesses.

Theorems: `C29_never_used_after_free_partial`, `C29_freed_partial`, `C29_leak_refuted`, `C29_double_free_refuted`, `C29_snapshot_lost_refuted`, `C29_hang_refuted`, `C29_evicted_refuted`.

Without memtable eviction and without log-store snapshots: never used after it was deleted, deleted at most once, and deleted at the end if no release was halfway when the file was marked as removed. The full statement is refuted: a release halfway at that moment leaks the file; with a log-store snapshot the file can be deleted twice or while the snapshot uses it; with eviction the deleting thread can wait forever, or delete the file while another thread is still purging it.

### C30. A batch becomes visible all at once (partial)

Modelled and proved by: batch split into steps; invariant, three witnesses.

Theorems: `C30_batch_invisible`, `C30_batch_acknowledged`, `C30_steps_are_the_call`, `C30_first_batch_refuted`, `C30_log_only_refuted`, `C30_flush_during_batch_refuted`.

Proved for every interleaving of other operations after the first write, in the normal mode; refuted for the first batch of a database, in log-section-only mode, and for a flush of everything during a batch.

### C31. A batch with an invalid record changes nothing (proved)

Modelled and proved by: validity check and insertion; all or nothing.

Theorems: `C31_invalid_batch`, `C31_accepted_batch_completes`.

Numbers below 2^64-2; LogMgr::setMulti from a state reached by allowed operations.

### C32. Concurrent multi-database batches never deadlock (proved)

Modelled and proved by: lock machine; progress from every reachable state.

Theorems: `C32_progress`, `C32_all_finish`.

Any number of threads with global batches (databases added in any order) or single writes; from every reachable state somebody can go on and all can finish.

### C33. Available checkpoints are the newest ones, sorted, without duplicates (proved)

Modelled and proved by: checkpoint list over every interleaving with flushes and compactions.

Theorems: `C33_list`.

Every interleaving of writes, checkpoints, syncs, flushes, compactions of level 0 starting and ending, and snapshot markers dropped by ForestDB; level extension mode with a fixed number of partitions, at least one.

### C34. Flushing moves the right records, each once, to the tables (partial)

Modelled and proved by: getLogsToFlush and LogMgr::flush; refinement, two witnesses.

Theorems: `C34_flush_moves`, `C34_flush_reads`, `C34_tables_hold`, `C34_unsynced_lost_refuted`, `C34_gap_lost_refuted`.

Proved for flushes of everything and up to an existing synced record; the full statement is refuted for a number beyond the last sync and for a number no record has.

### C35. A merged asynchronous flush request does what each requester asked for (partial)

Modelled and proved by: queue of requests; guarded theorem, four witnesses.

Theorems: `C35_merged_partial`, `C35_smaller_number_refuted`, `C35_sync_only_refuted`, `C35_sync_lost_refuted`, `C35_reused_handle_refuted`.

Proved when requests are only joined by requests that cover them and the database stays open while they wait. The full statement is refuted: the options and the number of the last request replace those of the merged ones, so a larger number, a flush, or a sync is dropped and reported as success; and a request for a closed database is carried out on another one opened at the same address.

### C36. Key comparison is a total order consistent with equality (proved)

Modelled and proved by: SizedBuf::cmp; total order.

Theorems: `C36_total_order`, `C36_lexicographic`, `C36_operators`, `C36_huge_keys_refuted`.

Keys shorter than 2 GiB, as the property says; beyond that size the comparison is wrong (C36_huge_keys_refuted).

### C37. Two compactions never work on the same table at the same time (proved)

Modelled and proved by: lock table under any number of jobs; invariant.

Theorems: `C37_exclusive`, `C37_lock_outcome`, `C37_locks_released`, `C37_work_under_locks`, `C37_locked_untouched`, `C37_one_compaction_per_level`.

Any number of jobs and any interleaving of their steps with operations and flushes. The table numbers in one request are distinct (C28).

### C38. Direct I/O writes exactly the logical stream (partial)

Modelled and proved by: direct I/O buffers; file and buffer together are the stream, witnesses.

Theorems: `C38_no_overrun`, `C38_flush_partial`, `C38_recognisable_partial`, `C38_read_partial`, `C38_residue_refuted`, `C38_thread_buffer_refuted`.

Full statement refuted twice: a flush that ends on a unit boundary less than 8 bytes after the previous flush leaves a unit of unmarked zero bytes after the stream (C38_residue_refuted), and the read buffer belongs to the thread, so reading a second database with a larger buffer size writes past it (C38_thread_buffer_refuted). Proved: append and flush never leave their buffers; after a flush the file is the stream followed by nothing, recognisable padding or one unit of zeros, and only recognisable padding if every flush adds at least 8 bytes; reads are exact if the thread's buffer has the size of the object.

### C39. The table manifest round-trips (proved)

Modelled and proved by: codec; round trip.

Theorems: `C39_round_trip`.

Levels >= 1 come back in the same order, level 0 (unordered hash partitions) in reverse; counters are corrected to the actual number.

### C40. Record metadata stored in tables round-trips (proved)

Modelled and proved by: codec; round trip.

Theorems: `C40_meta_round_trip`, `C40_table_record_round_trip`.

Including the sticky status variable of the serializer and compressed values.

### C41. Everything acknowledged by sync survives a crash and reopen (partial)

Modelled and proved by: synced entries of one log file load again, whatever follows them; for several files see C62, C68.

Theorems: `C41_crash_keeps_synced_partial`, `C76_crash_recovers_synced`, `C76_synced_is_prefix`, `C76_sync_succeeds`, `C41_crash_in_sync`.

The first theorem: the bytes of one log file, without the manifest. The others: any number of log files, tables, manifest, repeated crashes between calls and (C41_crash_in_sync) in a sync, with records as units. The full statement is false for a crash in the middle of a flush (C73), for sync(false) followed by sync(true) and a power failure (C75), for batches after some reopenings (C71), and for a zero-filled tail (C03).

### C42. Rolling back the log removes exactly the later writes (partial)

Modelled and proved by: cut position on bytes equals a cut on entries; invariant over all runs with rollbacks; witnesses.

Theorems: `C42_reads_partial`, `C42_rollback_partial`, `C42_next_number_partial`, `C42_defined_partial`, `C42_bytes`, `C42_default_ttl_refuted`, `C42_overwrite_refuted`, `C42_open_iterator_refuted`.

Proved for all histories of writes, syncs, rollbacks, evictions and reopenings over any number of files, in log-store mode (logFileTtl_sec not 0) without allowOverwriteSeqNum, with no reader holding the file that is cut and records present. The full statement is refuted: with the default logFileTtl_sec = 0 the read after a rollback dereferences null; with overwritten numbers later records survive; with an open iterator rolled-back records stay readable by key.

### C43. Damage to a record's type flag is detected (partial)

Theorems: `C43_flag_damage_refuted`, `C43_unknown_flags_partial`, `C43_only_type_partial`.

The full statement is refuted: the flag word is covered by neither checksum. Proved: unknown first bytes are reported; a flag word that still says record and keeps the compression bit changes nothing but the type.

### C44. A failed manifest update does not damage later ones (partial)

Theorems: `C44_covered_partial`, `C44_retry_partial`, `C44_failed_store_refuted`.

The full statement is refuted: after a store that fails part-way, a store that writes only the difference can leave damaged bytes. Proved: after any number of failed stores (each having written any part) the next store restores a file that loads as the current manifest, provided its write reaches down to the first byte the failed ones touched, in particular when nothing changed between the retries.

### C45. Updating the manifest while a log file is being removed leaves a loadable manifest (partial)

Theorems: `C45_no_removal_partial`, `C45_concurrent_removal_refuted`.

The full statement is refuted: a log file removed while the manifest is written leaves a wrong count. Proved: as long as the walk meets at least as many files as were counted, the file loads back as the counters and the first so many files.

### C46. A crash during a table manifest update leaves a usable table manifest (proved)

Modelled and proved by: disk operations of the store; invariant over crash points.

Theorems: `C46_table_manifest_crash`.

Disk operations of store and copyFile; adversarial content of unsynced files.

### C47. A failed write during a flush or compaction loses nothing that was reported as done (partial)

Theorems: `C47_failed_flush_partial`, `C47_failed_write_refuted`, `C47_failed_create_refuted`.

The full statement is refuted: a failing table write does not stop the flush. Proved: for any set of refused records the flush has the effect of a flush of the records neither refused nor preceded by a refused record of the same partition; nothing that was in the tables is lost or changed.

### C48. L0-only mode: lookups return the newest flushed version (proved)

Modelled and proved by: lookups of single-level mode.

Theorems: `C48_latest_in_level_zero`.

At rest: no compaction is running and none was cancelled.

### C49. L0-only mode: a running compaction is invisible to readers (partial)

Theorems: `C49_window_partial`, `C49_compaction_window_refuted`.

The full statement is refuted: in the window a lookup reports success without a record, and a deleted key returns with its old value. Proved: in every state of the window, lookups in the other partitions are unaffected, and a record delivered in the compacted partition is a flushed record of the key (not always the newest).

### C50. Iteration in one direction shows exactly the live keys of the range (proved)

Modelled and proved by: one-direction iteration as a cursor.

Theorems: `C50_one_direction`.

Iterators without a snapshot, built-in key order, no write in between (C51).

### C51. Writes do not disturb an open iterator (proved)

Modelled and proved by: open iterators over memtables that grow.

Theorems: `C51_writes_invisible`, `C51_writes_invisible_both`.

One-direction calls, and any mixture under the condition of C18. Writes get numbers after the last visible one (C13, C14 without allowOverwriteSeqNum). Taken from the code, not modelled: the file and the table snapshot stay alive while the iterator is open.

### C52. Prefix search through a snapshot reports the state of the snapshot (partial)

Theorems: `C52_quiet_prefix_partial`, `C52_later_write_refuted`, `C52_flushed_lost_refuted`.

Proved: while no record with the prefix is written or flushed after the snapshot was opened, the prefix search delivers the newest write of every key with the prefix, and only writes of the snapshot. The full statement is refuted: the log part of a prefix search ignores the snapshot, so later writes show and flushed records of the snapshot vanish.

### C53. A new log file never gets the number of an existing one (partial)

Theorems: `C53_log_files_unique_partial`, `C53_log_files_spurious_refuted`.

Proved when the compare-and-swap does not fail spuriously (e.g. x86). The full statement is refuted: setMaxLogFileNum uses compare_exchange_weak without a loop and its result is ignored, so after a spurious failure the next file gets the same number.

### C54. A snapshot holds one reference per log file it lists (partial)

Theorems: `C54_references_balanced_partial`, `C54_retry_refuted`.

Proved when every retried pass failed at its first file. The full statement is refuted: a retry does not clear the list, so files of a failed pass stay on it without a reference and are released twice.

### C55. A multi-database batch becomes visible in all databases at once (partial)

Theorems: `C55_seen_means_all_partial`, `C55_old_barrier_refuted`, `C55_empty_database_refuted`.

Proved for readers that start after the batch set the barrier of their database, all databases non-empty. The full statement is refuted: a reader that loaded the barrier before the batch began sees a record that later readers do not see; in an empty database nothing is hidden.

### C56. A multi-database batch that reports success was written completely (partial)

Theorems: `C56_written_partial`, `C56_group_refuted`, `C56_failed_write_refuted`, `C56_empty_refuted`.

Proved for distinct paths, writable databases, non-empty batches and writes that do not fail. The full statement is refuted: of two stores of one database group only one gets its batch; a write failing in the middle is reported as success; an empty batch is undefined behaviour.

### C57. A checkpoint stays listed until newer ones push it out (partial)

Theorems: `C57_listed_partial`, `C57_flushed_refuted`, `C57_compaction_refuted`.

Proved for checkpoints whose last record is not flushed yet, as long as no compaction of level 0 runs and no markers are dropped. The full statement is refuted: a checkpoint taken when everything is flushed is never listed, and a compaction of one partition removes all flushed checkpoints from the list.

### C58. A snapshot at a listed checkpoint shows exactly the data of that checkpoint (partial)

Theorems: `C58_snapshot_partial`, `C58_log_gone_refuted`, `C58_newer_data_refuted`, `C58_empty_partition_refuted`, `C58_later_compaction_refuted`.

Proved for reachable states with compactions: reads are right, also after further writes, flushes and reclaims, when the record of the checkpoint is unflushed or its log file still exists, and the partition of the key has one table that had a record at the checkpoint. The full statement is refuted: null pointer when the log file of the checkpoint is gone; newer data while a partition is compacted; an error for a partition that was empty at the checkpoint; errors after a later compaction, also for snapshots of the newest data.

### C59. Every asynchronous flush request is answered exactly once (partial)

Theorems: `C59_answered_once`, `C59_all_finish`, `C59_shutdown_refuted`.

Proved for every interleaving of requests, threads, user operations, open and close: at most once, and every request is answered when nothing waits or runs, which the threads alone can always reach. The full statement is refuted: shutdown drops the waiting requests without calling their handlers.

### C60. Throttling keeps its documented bounds (partial)

Theorems: `C60_writer_sleep`, `C60_compaction_share`, `C60_equal_refuted`, `C60_reversed_refuted`.

Proved for start < limit and numbers small enough not to be cut off at 32 bits. The full statement is refuted for other settings: start = limit divides by zero, limit < start never throttles.

### C61. Background jobs never undo each other's work (partial)

Theorems: `C61_valid_choices_partial`, `C61_stale_destination_refuted`, `C61_stale_victim_refuted`, `C61_stale_merge_refuted`.

The full statement is refuted: tables are chosen before they are locked and nothing checks afterwards that they are still in use. Proved for executions in which every job finds its tables as it chose them.

### C62. With direct I/O, flushed log entries load again (proved)

Theorems: `C62_flushed_log_loads`, `C62_flushed_entries_survive`.

All buffer and alignment sizes with the alignment at least 8 and dividing the buffer size; appends cut into arbitrary pieces; failed writes excluded.

### C63. With direct I/O, a successful sync makes the stream durable (partial)

Theorems: `C63_synced_partial`, `C63_truncated_refuted`.

Refuted after a truncation: the synced position is not lowered, so later fsync calls do nothing until the file is longer than before. Proved without truncation.

### C64. With direct I/O, an interrupted append does not look like corruption (partial)

Theorems: `C64_append_crash_refuted`, `C62_flushed_entries_survive`.

Refuted: the rest of an overwritten padding follows part of an entry and loads with a checksum error. The flushed entries themselves are still returned (C62_flushed_entries_survive).

### C65. A failed rollback leaves the database as it was (partial)

Theorems: `C65_nonempty_partial`, `C65_empty_refuted`.

Proved for databases with records. Refuted for an empty database: a failed rollback(100) makes the next write number 101 and a successful sync does not store it.

### C66. Rolled-back records do not come back (partial)

Theorems: `C66_clean_partial`, `C66_power_failure_refuted`.

Clean reopening proved. Refuted for a power failure: the shortened file is not fsynced.

### C67. The log files of an open database stay on disk (partial)

Theorems: `C67_files_stay_partial`, `C67_iterator_refuted`, `C67_remover_refuted`.

Proved when no reader holds a file that a rollback removes and the background remover takes no name during a rollback. Refuted in general: numbers and names are used again after a rollback, and a late reader or remover deletes the new file.

### C68. Closing and reopening keeps every record of a log-section-only database (partial)

Theorems: `C68_reopen_partial`, `C68_gap_refuted`.

Proved for consecutive numbers. Refuted when the caller's numbers have a gap between two log files (truncateInconsecutiveLogs is on by default).

### C69. Rollback keeps the checkpoints up to its target (partial)

Theorems: `C69_earlier_partial`, `C69_checkpoint_refuted`.

Markers before the last record kept are kept (proved on bytes). Refuted: the marker of a checkpoint at the target itself is cut off.

### C70. A number is given to one record only, also across close and reopen (partial)

Modelled and proved by: runs of the model with disk contents; witness runs; invariant of C76 for the guarded runs.

Theorems: `C70_number_reused_refuted`, `C70_reused_after_sync_crash_refuted`, `C70_next_number_partial`, `C70_numbers_distinct_partial`.

Proved for the runs of C76. The full statement is refuted: after a flush beyond the last sync (the default of the automatic flusher), close and reopen, the next write gets a number already in the tables; also after a crash in the middle of a sync of two log files.

### C71. A write acknowledged after reopening is readable, and durable once synced (partial)

Modelled and proved by: invariant of C76 and witness runs.

Theorems: `C71_batch_unreadable_refuted`, `C71_synced_batch_lost_refuted`, `C71_first_batch_lost_refuted`, `C76_reads`, `C76_sync_succeeds`, `C76_close_keeps`.

Proved for the runs of C76. The full statement is refuted: the first batch after an empty database was reopened gets the number 2^64-1, is never written to the log and is lost although sync returned OK; a batch after such a reopening is acknowledged and unreadable; a batch written and synced after a crash in the middle of a log write is lost at the next reopening.

### C72. What is readable after recovery stays readable through flushes (partial)

Modelled and proved by: invariant of C76 and witness runs.

Theorems: `C72_first_sync_refuted`, `C72_second_sync_refuted`, `C76_reads`.

Proved for the runs of C76. The full statement is refuted: the marks of a recovered log file come from the manifest, so a later flush skips recovered records that were newer than the manifest.

### C73. A crash during a flush loses nothing synced and keeps a prefix (partial)

Modelled and proved by: loading with the leading files missing (RecoverProofs8-9.v); witness runs.

Theorems: `C73_synced_lost_refuted`, `C73_not_a_prefix_refuted`, `C73_crash_in_flush_partial`.

Proved for flushes that stay below the last sync and remove log files oldest first. The full statement is refuted twice: with a reader holding the oldest log file a synced record is lost; a flush beyond the last sync leaves a state that is no prefix.

### C74. Reads by number and snapshots work after crash recovery (partial)

Modelled and proved by: invariant of C76, lookup by number and snapshots from it (RecoverProofs10.v); witness runs.

Theorems: `C74_number_not_found_refuted`, `C74_snapshot_refuted`, `C74_by_number_partial`, `C74_only_written_partial`, `C74_snapshot_partial`.

Proved for the runs of C76. The full statement is refuted: a recovered empty log file and the next new one start at the same number.

### C75. sync with fsync covers everything written before it (partial)

Modelled and proved by: witness run and a disk a power failure may leave.

Theorems: `C75_earlier_not_fsynced_refuted`, `C76_crash_recovers_synced`.

Proved (C76_crash_recovers_synced with pw = true) if every sync is called with fsync. The full statement is refuted: files completed by sync(false) are never fsynced later.

### C76. Any number of closes and crashes between calls: exactly the synced writes survive a crash, everything survives a close (proved)

Modelled and proved by: invariant PI (RecoverProofs.v) over guarded runs, kept by writes, syncs, flushes and opening (RecoverProofs2-7.v).

Theorems: `C76_crash_recovers_synced`, `C76_synced_is_prefix`, `C76_sync_succeeds`, `C76_close_keeps`, `C76_reads`, `C70_next_number_partial`.

The conditions are those of the inductive definition preach (RecoverProofs7.v) and allowed (DbProofs.v); without them see C70-C75.

### C77. A batch is all or nothing, also across a crash (partial)

Modelled and proved by: runs grouped by the call that acknowledged the records (preachb, RecoverProofs9.v); witness run.

Theorems: `C77_half_batch_refuted`, `C77_whole_batches_partial`, `C77_whole_batches_in_flush_partial`.

Proved for crashes between calls and in a flush that stays below the last sync and removes log files oldest first. The full statement is refuted for a crash in a sync: the log has no mark where a batch ends, so half of it is recovered and stays.

### C78. Searches in the in-memory index while other threads insert and erase (proved)

Modelled and proved by: small-step model of skiplist.cc with any number of threads (SkipModel.v); invariant of memory and of every thread's local state, kept by each step (SkipProofs.v).

Theorems: `C78_search`, `C78_next`, `C78_answers`.

For every reachable state under the guard of SkipSpec.v: indexes filled by plain insertion have distinct keys, queries lie between head and tail. Compare-and-swap fails only when values differ (otherwise C82).

### C79. Concurrent insertions and erasures in the in-memory index (proved)

Modelled and proved by: the same invariant; who holds which node flag (SkipProofs2.v).

Theorems: `C79_insert`, `C79_duplicate`, `C79_erase`, `C79_one_entry_per_key`, `C79_nothing_lost`, `C79_no_null`, `C79_released`.

As C78.

### C80. Walking the in-memory index moves forward (partial)

Modelled and proved by: a further invariant about what a restarted step has lost (SkipProofs3.v); witness run.

Theorems: `C80_same_entry_again_refuted`, `C80_next_forward_partial`, `C80_next_not_back_partial`.

The full statement is refuted: the step can return the entry it started from while the next one is being erased. Proved: it never goes back, and it moves forward unless an entry at or after its key has been erased.

### C81. Erasing from the in-memory index and freeing what was erased is safe (partial)

Modelled and proved by: witness runs; invariant of runs in which calls do not overlap (SkipProofs4.v).

Theorems: `C81_unset_prevs_refuted`, `C81_use_after_free_refuted`, `C81_never_safe_to_free_refuted`, `C81_serial_safe_partial`, `C81_serial_gone_partial`, `C81_serial_free_partial`.

The full statement is refuted in three ways. Proved when calls do not overlap: no unset memory is used, an erasure fails only if the entry is gone already, and an erased entry whose count is zero can be freed.

### C82. The in-memory index works with compare-and-swap as the language defines it (partial)

Modelled and proved by: witness runs in which one compare-and-swap fails spuriously.

Theorems: `C82_lost_insertion_refuted`, `C82_left_locked_refuted`.

The statement is refuted: an insertion reports success though the entry is not in the index; a node stays locked after all calls returned. C79 is the positive part, for compare-and-swap that does not fail spuriously.

### C83. The lock of an index node excludes writers from readers and other writers (proved)

Modelled and proved by: small-step model of the lock word; counting invariant (RwLockProofs.v).

Theorems: `C83_one_writer`, `C83_no_reader_beside_writer`, `C83_fits`, `C83_given_back`.

Bound: fewer than 4096 threads, as the lock word has 12 bits for waiting writers.

### C84. Short corruption across the border of two fields of a record (partial)

Modelled and proved by: splitting a burst at the border of two fields (LogDamage2Proofs.v); witness computed by linear algebra over GF(2), checked by the kernel.

Theorems: `C84_checksum_border_refuted`, `C84_lengths_onward_partial`.

The full statement is refuted: the checksum stands before the bytes it covers, so that bursts across that border can cancel. Proved for damage from the lengths into the body checksum.

### C85. The merge order of an iterator's sources is a correct ordered set (proved)

Modelled and proved by: pointer-level model of avltree.cc; representation predicate (tree in memory with right parent pointers and balance bits), zipper contexts for the way to the root, refinement to a plain set (AvlProofs*.v).

Theorems: `C85_ordered_set`.

Nodes are numbers and 0 is the null pointer; the parent pointer and the two balance bits packed into one word are two fields, storing a balance factor outside -1..2 is a failure of the model.

### C86. Logarithmic cost of the merge step (proved)

Modelled and proved by: height of a balanced tree against its number of nodes; the rounds given are the fuel of the loops (AvlProofs7.v, AvlProofs8.v).

Theorems: `C86_logarithmic`.

A round is one turn of a loop of avltree.cc; each call has at most three loops.

### C87. A handle from open is usable until its owner closes it (partial)

Modelled and proved by: threads as program counters over the map, its lock and the reference counts; invariant over interleavings; refutations by executions (HandleProofs.v, HandleProps.v).

Theorems: `C87_valid_partial`, `C87_use_after_free_refuted`, `C87_null_handle_refuted`.

The full statement is refuted in two ways (a close that overlaps an open). Proved if no close overlaps another open or close; opens may overlap each other.

### C88. The last close closes the database (partial)

Modelled and proved by: as C87, with the reference count tied to the handles given out and the calls under way.

Theorems: `C88_closed_partial`, `C88_never_closed_refuted`, `C88_weak_refuted`.

The full statement is refuted: two closes at the same time, or one spurious failure of the weak compare-and-swap, leave the database open for ever. Proved if no close overlaps another call and without spurious failures.

### C89. Waking a background worker is never lost (proved)

Modelled and proved by: program counters for the worker and any number of callers; invariant that a wake-up under way or finished is visible in the awaiter, in the mutex or in the worker's position; rank that decreases with every step of the worker (WorkerProofs.v, Worker2Proofs.v).

Theorems: `C89_wakeup_served`, `C89_not_blocked`.

Sequentially consistent atomics; the bound is 13 steps of the worker.

### C90. Workers end when told to (proved)

Modelled and proved by: as C89 with its own invariant and rank after the store of the terminating state (Worker2Proofs.v).

Theorems: `C90_terminates`, `C90_at_most_one_pass`.

Holds with spurious failures of the weak compare-and-swaps.

### C91. An asynchronous flush without delay does not wait for a timer (partial)

Modelled and proved by: as C89, with the queue and the position of the request in it (Worker3Proofs.v).

Theorems: `C91_request_taken_partial`, `C91_delayed_first_refuted`.

The full statement is refuted: if a request with a delay is first in the queue, the pass started for a request without delay takes the first and then sleeps. Proved if no request has a delay.

### C92. Spurious failures of a compare-and-swap do no lasting harm to workers (partial)

Modelled and proved by: executions with one spurious failure, and invariants for 'never again' (Worker4Proofs.v, WorkerProps.v).

Theorems: `C92_stuck_refuted`, `C92_lost_wakeup_refuted`, `C92_never_started_refuted`.

The statement is refuted: depending on which compare-and-swap fails, the worker never works again and takes a processor for ever, a wake-up is lost, or the worker is never started. C89 and C90 are the positive parts.

### C93. Idle background threads sleep (partial)

Modelled and proved by: potential of a worker that is left alone; registration as a second small model (Worker4Proofs.v).

Theorems: `C93_sleeps_partial`, `C93_one_reclaimer_partial`, `C93_spins_refuted`.

The full statement is refuted: two databases opened at the same time create two log reclaimers, of which one is never registered and spins. Proved for registered and started workers, and for one reclaimer if the calls do not overlap.

### C94. Parallel writes cover every piece exactly once (proved)

Modelled and proved by: invariant relating payloads, places of writers and calls, and the count of each piece (TableWriterProofs.v inv_step).

Theorems: `C94_each_piece_once`, `C94_never_twice`, `C94_max_positive`.

In the model with any number of writers and calls. What a single write does is the subject of other properties (C25, C26, C47); its result is ignored by the caller.

### C95. Leased table writers are exclusive and never work for a call that has returned (proved)

Modelled and proved by: same invariant (TableWriterProofs.v).

Theorems: `C95_exclusive`, `C95_no_stray_work`.

The payload of a working writer is that of a call that still holds it; calls that have returned or were given up hold none.

### C96. No flush, compaction or split is stuck for want of table writers (proved)

Modelled and proved by: construction of a finishing run from every state of the invariant, by induction over what is left (TableWriterProofs.v can_finish).

Theorems: `C96_never_stuck`.

Stated as the existence of a finishing execution from every reachable state using only the call itself and its leased writers. A call that was given up has ended already.

### C97. The list of named databases of a group survives being written and read (proved)

Modelled and proved by: the list in closed form (names in order of arrival), decoding by induction over it (DbGroupProofs.v round_trip).

Theorems: `C97_round_trip`.

Names as the statement says; what happens to other names is part of C98.

### C98. A name of a group denotes one database for ever (partial)

Modelled and proved by: invariant over histories: memory, file and synced file are lists of names, each a prefix of what has been handed out (DbGroupProofs.v inv_step); refutations by execution.

Theorems: `C98_one_to_one_partial`, `C98_zero_byte_refuted`, `C98_long_name_refuted`, `C98_crash_refuted`.

The full statement is refuted: a name with a zero byte is stored whole and read back cut, so it loses its files or takes those of another name; a name of more than 255 bytes makes the next opening write outside a buffer; after a crash while a name is added, the list can fail its check, which is ignored, and names take the numbers of others. Proved for all histories with names of 1 to 255 bytes without zero bytes and crashes at other moments.

### C99. A database built from sorted records holds exactly those records (proved)

Modelled and proved by: the files written are consecutive pieces of the input (BuilderProofs.v BI_step); the assembled levels satisfy the invariant of LsmProofs2.v, so all later histories are covered by lstep_keeps.

Theorems: `C99_reads_back`, `C99_later`.

Calls of ForestDB and the file system succeed, no compression.

### C100. A database built from records holds them whatever their order (partial)

Modelled and proved by: refuted by execution; positive part by an invariant of the Builder for records in any order (BuilderProofs2), and because the smallest key recorded for file 0 is never used.

Theorems: `C100_any_order_refuted`, `C100_apart_partial`, `C100_one_file_partial`.

The statement is refuted: the smallest key recorded for a file is the first key given, so with unsorted records over several files lookups go to the wrong file. Proved for any order as long as everything fits in one file, and for several files if they do not overlap and each but the first begins with its smallest key.

### C101. A database assembled from table files holds what is in them (partial)

Modelled and proved by: the assembled levels satisfy the invariant of LsmProofs2.v (BuilderProofs.v build_inv); refutation by execution.

Theorems: `C101_from_files_partial`, `C101_number_zero_refuted`.

The full statement is refuted: the search for the file with the smallest key always yields number 0 (nothing is smaller than the empty string it starts from), so a file with number 0 that is not the smallest is registered with an empty smallest key and its records are not found. Proved if no file has number 0 or the one with number 0 has the smallest keys.

### C102. Sequence numbers of a built database are distinct and below later ones (partial)

Modelled and proved by: numbering of the input by induction (BuilderProofs.v); refutation by execution.

Theorems: `C102_later_are_larger`, `C102_distinct_partial`, `C102_mixed_refuted`.

That later numbers are larger is proved (for the number passed to the new log section). Distinctness is refuted if some records have numbers given by the user and others not, and proved if none has.

### C103. A delayed flush request's timer fires once, not early, and not after cancellation (proved)

Modelled and proved by: invariant over interleavings of the timer thread, requests and close, relating the state of each task to the log of runs and cancellations

Theorems: `C103_once`, `C103_not_early`, `C103_cancelled`.

Over all interleavings of any number of databases and timers.

### C104. No timer is forgotten and the timer thread is well defined (partial)

Modelled and proved by: same invariant; case analysis of the search; concrete executions for the refutations

Theorems: `C104_kept_partial`, `C104_defined_partial`, `C104_starts_due_partial`, `C104_defined_refuted`, `C104_starts_due_refuted`.

That no timer is forgotten is proved without restriction. That passes are well defined and start a due timer is refuted after a cancellation: removing a cancelled timer advances the iterator twice, past the end of the list if it was the last (closing a database with a pending delayed flush does this), or over a live timer, which is then delayed to the next pass. Proved as long as nothing was cancelled. With the list of the usual C++ library the step past the end wraps around harmlessly.

### C105. A timer is not late because of another timer (partial)

Modelled and proved by: bound on the sleep by induction over the search; concrete execution for the refutation

Theorems: `C105_second_partial`, `C105_in_time_partial`, `C105_in_time_refuted`.

Refuted: a pass that starts a timer does not look at the timers after it, and then sleeps up to a second even if one of them is due. Proved: it never sleeps longer than a second, and a pass that starts nothing wakes up before the next timer.

### C106. Closing a database is safe while its delayed flush fires (partial)

Modelled and proved by: invariant that a closed database has no live task; concrete execution for the refutation

Theorems: `C106_no_freed_partial`, `C106_no_freed_refuted`.

Refuted: closing does not wait for a callback that has started, and the callback then uses the freed logger. Proved if no database is closed while its callback executes.

### C107. A delayed flush request is followed by a wake-up of the flusher (partial)

Modelled and proved by: invariant that after an unanswered request the task of the database is live; concrete execution for the refutation

Theorems: `C107_followed_partial`, `C107_followed_refuted`.

Refuted for a request that comes between the wake-up and the end of the callback of the previous timer: it is queued and no new timer is set (the flusher then finds it only when it wakes up for other reasons). Proved for requests that find no callback executing.

### C108. Changing the number of level-0 partitions keeps every record (proved)

Modelled and proved by: AdjustModel.v on top of LsmModel.v: one compaction that keeps its table (AdjustModel.compact_keep) preserves the invariant and the view; induction over the tables gives the contents of level 1; induction over executions (AdjustSpec.areach).

Theorems: `C108_changes`, `C108_first_reopen`, `C108_completes`.

For all histories of the operations of the table section and of changes of the number of partitions, completed or cut short. The order condition is a hypothesis of a completed change; C108_first_reopen proves it for the first opening after a close during which partitions had two tables. Failures to create the new tables are not modelled.

### C109. A change of the number of level-0 partitions never brings an old version back (partial)

Modelled and proved by: Two executions whose last step is a change of the number with the newer table listed first (refuted).

Theorems: `C109_second_reopen_refuted`, `C109_interrupted_refuted`, `C108_changes`.

The statement is refuted: after a second opening, or after a change that was interrupted by a crash, the newer table of a partition is compacted before the older one, and old values and deleted keys come back. C108_changes is the guarded positive statement.

### C110. Sample keys are different keys of the database (proved)

Modelled and proved by: SamplerModel.v: induction over the number of samples still to be found.

Theorems: `C110_samples`.

The iterator over sequence numbers is modelled by the list of records it delivers; lookups of liveness may give different answers over time.

### C111. A database in which no key was overwritten yields as many samples as requested (proved)

Modelled and proved by: SamplerModel.v with a dense list of sequence numbers: induction with the position of the cursor as invariant.

Theorems: `C111_enough`, `C111_positions`.

C111_overwritten (an Example) shows that with overwritten keys fewer samples than keys may be returned, as the documentation allows.

### C112. A lookup is not disturbed by flushes and compactions that run at the same time (partial)

Modelled and proved by: ReaderModel.v interleaves the steps of a lookup with the operations of LsmModel.v; invariant: what the lookup has passed holds no newer version than some moment since the call, and what is below still holds it; counterexample executions for the two races.

Theorems: `C112_window_partial`, `C112_level_added_refuted`, `C112_migration_refuted`, `C112_next_source_refuted`.

The full statement is refuted by two races: a level added during the lookup, and two successive compactions of one partition between listing and reading level 0. C112_window_partial proves it for all other interleavings (and under the condition on bloom filters of C22).

### C113. Tables that are found to overlap are searched completely, and their repair loses nothing (partial)

Modelled and proved by: RepairModel.v: invariant of a level that overlaps only between neighbours and flags the second of two overlapping tables, kept by every step of the repair; counterexamples for the other cases.

Theorems: `C113_mended_partial`, `C113_separates_partial`, `C113_duplicate_refuted`, `C113_far_refuted`, `C113_min_key_refuted`, `C113_race_refuted`, `C113_tombstone_refuted`.

The full statement is refuted: newer version in the second table, overlap with more than the neighbour, corrected min key that changes the order, a lookup between two steps of the repair, moved tombstones with bloom filters. Proved for all levels without these, at every moment of every sequence of repairs.

### C114. A crash during the repair of overlapping tables loses nothing (partial)

Modelled and proved by: RepairModel.v with separate contents on disk; the disk equals the state before or after the repair except between the two commits, where a counterexample is computed.

Theorems: `C114_crash_partial`, `C114_crash_refuted`.

Refuted for a crash between the two commits (the removal is committed first); proved for all other moments.

### C115. A read-only handle changes nothing and reads the same (partial)

Modelled and proved by: Read-only opening as opening without the removal of stale files; every call but flushLogs keeps the directory and the view (same files, same answers), by induction over the calls; combined with the crash-recovery invariant of C76. flushLogs by a concrete run.

Theorems: `C115_session_partial`, `C115_opens_alike`, `C115_after_close_or_crash_partial`, `C115_same_directory`, `C115_flush_refuted`, `C115_flush_deletes_refuted`.

Proved for every call but flushLogs, for every directory whose newest listed log file exists, in particular after any close or crash of C76. The full statement is refuted: flushLogs on a read-only handle returns OK, changes tables and manifest, and deletes log files.

### C116. A read-only handle of another process does not disturb the writer (partial)

Modelled and proved by: The same invariant for a reader whose directory another process has changed; loss of a synced write by a concrete run of both processes.

Theorems: `C116_reader_writes_nothing_partial`, `C116_synced_write_lost_refuted`.

Proved for readers that do not call flushLogs. The full statement is refuted: flushLogs of a read-only handle stores the manifest of the reader, and a log file the writer has synced since is removed at the next opening.

### C117. Freeing and reloading memtables is invisible in log-store mode (proved)

Modelled and proved by: ReclaimModel.v: simulation between a run that frees and reloads memtables and the same run without; each log file is live, out or reloaded, and the three give the same answers (reloading replays the records of C15-style files); then the invariant of C01.

Theorems: `C117_get_latest`, `C117_get_by_number`, `C117_evictions_invisible`, `C117_never_undefined`.

One call at a time; the conditions on writes are those of C01. Eviction of any eligible file at any moment covers every schedule of the reclaimer between calls. Reopening is not part of the runs.

### C118. Snapshots read safely in log-store mode (partial)

Modelled and proved by: Same simulation for snapshots none of whose files is freed; null dereference by two concrete runs.

Theorems: `C118_snapshot_unfreed_partial`, `C118_snapshot_null_refuted`, `C118_open_snapshot_null_refuted`.

The statement is refuted: a snapshot get dereferences the null memtable of a freed log file. Proved: as long as none of the log files of the snapshot has been freed, its answers are those of a database that never freed anything.

### C119. A sync made while other threads write is still a sync (partial)

Modelled and proved by: SyncRaceModel.v: sync split into its steps, writes in between; an invariant of the running sync (files before the current one complete on disk, later ones as at the last sync, the last one up to a record of the history) kept by every step; at the end it gives the invariant of C76, during the sync the disk is put in order by the lemma of C41. Refutations by concrete runs.

Theorems: `C119_sync_with_writers_partial`, `C119_dies_in_sync_partial`, `C119_reads_during_sync`, `C119_first_write_refuted`, `C119_new_file_refuted`.

The full statement is refuted: a first record put into an empty log file between the flush and the marking of that file by a sync is marked as synced without being on disk, and later syncs and closing skip it. Proved for all interleavings in which syncs begin after the first write, a new log file comes with its first record, no batch begins during a sync, and flushes do not run during a sync; crashes of the process at any moment, power failures between syncs. Overwriting by number is excluded (C121).

### C120. Batches stay atomic under concurrent syncs (partial)

Modelled and proved by: Concrete run of SyncRaceModel.v (stale barrier). The guard of C119 that no batch begins during a sync is what is left of the property.

Theorems: `C120_half_batch_refuted`, `C119_dies_in_sync_partial`.

The statement is refuted by a batch that begins after the sync has read the barrier. For batches that begin while no sync is running, C119_dies_in_sync_partial gives a state after an initial part of the acknowledged writes (a batch is acknowledged as a whole), so nothing of an unacknowledged batch survives.

### C121. Overwriting by sequence number during a sync (partial)

Modelled and proved by: Concrete run of SyncRaceModel.v with overwriting allowed.

Theorems: `C121_overwrite_lost_refuted`.

The statement is refuted by a concrete run; C121_case shows the same calls without the overlap. Overwriting is excluded by the hypotheses of C119 and C76.

### C122. A get is atomic beside writers and a flush (proved)

Modelled and proved by: GetRaceModel: get and flush as their atomic steps beside writers; invariant over all runs: flushed marks are closed downwards across files, the tables hold an initial part of the writes, and every log file the get has passed holds no unflushed record of the key older than its beginning; the answer is that of a state between begin and end.

Theorems: `C122_get_atomic`.

Single writes and one flush at a time; the theorem also covers batches under the guards named with C123. Within the model of GetRaceModel.v (memtable and tables as contracts, increasing numbers).

### C123. A batch is visible as a whole or not at all to concurrent gets (partial)

Modelled and proved by: the invariant of C122 with the barrier: what a get can see in a log file is acknowledged when it looks; each batch enters the history as one group. Three concrete runs refute it without the guards.

Theorems: `C123_batch_atomic_partial`, `C123_quiet_choice`, `C123_key_twice_refuted`, `C123_empty_file_refuted`, `C123_half_batch_refuted`.

The full statement is refuted by three concrete runs: a batch with a key twice, a get that asks an empty log file, and a flush beyond the last sync that reads the largest number while a batch is running. Proved for batches without repeated keys that do not begin while a get is between reading the number of an empty file and its lookup, and flushes up to an acknowledged record; C123_quiet_choice shows that an undisturbed flush meets that guard.

### C124. sync and flushLogs may be called from different threads (partial)

Modelled and proved by: SyncRaceModel with the flush also allowed while a sync is running (FlushRaceModel); invariant over all runs with overlapping syncs and flushes below the last sync (FlushRaceProofs, without the disk part of that of C119). A concrete run with a flush beyond the last sync ends in a null dereference.

Theorems: `C124_overlap_partial`, `C124_beyond_partial`, `C124_null_refuted`.

The full statement is refuted: after a sync during which a flush beyond the last sync removed the synced file, the next flush dereferences null. Proved: runs in which flushes below the last sync overlap syncs in any way (flushes beyond it only between syncs) have no undefined call and right reads at every moment; and a flush beyond the last sync started during a sync is itself carried out correctly. Batches do not begin during a sync; crashes are not covered here (C119, C120).

### C125. SizedBuf programs that follow the header's rules are memory-safe (partial)

Modelled and proved by: Heap of blocks and SizedBuf variables (BufModel). Invariant by induction over careful steps: every owner points to a live block of its kind, each block of malloc or new[] has exactly one owner. Witness for resize(0).

Theorems: `C125_safe_partial`, `C125_one_owner_partial`, `C125_no_leak_partial`, `C125_free_partial`, `C125_resize_zero_refuted`.

The full statement is refuted: resize(0) followed by free() frees twice, and the header does not forbid it. Proved for all programs that also avoid resize(0).

### C126. A SizedBuf stands for all the bytes it was made from (partial)

Modelled and proved by: bytes_of after set, alloc and resize, for sizes below 2^32; witness of 2^32 + 5 bytes.

Theorems: `C126_set_partial`, `C126_alloc_partial`, `C126_resize_partial`, `C126_huge_refuted`.

The full statement is refuted for sizes of 2^32 bytes and more, which are cut without an error. Proved for all smaller sizes.

### C127. A cloned SizedBuf is independent of its source (proved)

Modelled and proved by: The invariant of C125 and a frame lemma: a step that does not touch a buffer leaves its bytes; induction over the steps after the copy.

Theorems: `C127_copy`, `C127_source`, `C127_owner`, `C127_move`.

For all states reached by programs following the rules of C125, and all continuations.

### C128. Record::clone into an empty record gives a full copy and leaks nothing (partial)

Modelled and proved by: Record as three buffers; clone and moveTo as runs of the C125 model, with the effect on the heap; two witnesses.

Theorems: `C128_clone_partial`, `C128_move_partial`, `C128_leak_refuted`, `C128_refuse_refuted`.

The full statement is refuted: clone leaks metadata of a record that empty() calls empty, and refuses one with an empty-string key. Proved for records that own nothing and have null key and value pointers.

### C129. A rollback interrupted by the death of the process has happened or has not (partial)

Modelled and proved by: r_die: the disk at four moments of a rollback (RollCrashModel), and the next open. Opening looks at numbers only, so a file shortened behind the manifest is the opened state of C42 with one file's content replaced; reads of that state from the C42 invariant. Witnesses for the moment in between.

Theorems: `C129_ends_partial`, `C129_cut_partial`, `C129_newest_partial`, `C129_kept_partial`, `C129_hole_refuted`, `C129_later_record_refuted`.

The full statement is refuted for the moment between the shortening of the file and the writing of the manifest. Proved: the other moments; what exactly reads find at that moment; that rollback is atomic if no log file begins after n; that no record up to n is lost at any moment. Log-store mode (logFileTtl_sec > 0), no power failure.

### C130. discardDirty takes back exactly the unsynced writes from a number on (partial)

Modelled and proved by: db_discard on the database of C11 (DbModel): every memtable from the file of the number on loses its records from that number. Reads from the C11 invariant, through the memtable without its empty nodes, which satisfies the memtable invariant for the remaining writes. The key iterator of the log section is modelled with the empty list as undefined behaviour. Witnesses for new keys, synced writes and snapshots.

Theorems: `C130_get_partial`, `C130_seq_partial`, `C130_iterator_partial`, `C130_without_partial`, `C130_iterator_refuted`, `C130_iterator_next_refuted`, `C130_nearest_refuted`, `C130_synced_refuted`, `C130_snapshot_refuted`.

The full statement is refuted for iterators and nearest-key searches (a key first written after n leaves an empty node; the iterator is undefined there), for synced writes (they are taken from memory too) and for snapshots. Proved: reads by key and by number right after the call; that opening an iterator is defined if every key that loses a write keeps an older one in the same log file, and always without discardDirty. Missing: writes, syncs and flushes after the call.

### C131. The handles of a group work until their owner closes them, in any order (partial)

Modelled and proved by: The process's open databases and group objects of one path as lists, with reference counts; a caller holding any handles makes any calls with them (GroupLifeModel). Invariant: counts cover the handles, names and addresses are unique; with the careful order counts equal handles and the logger of every database is alive. Witnesses for the wrong order, for reopening and for DB::open beside a group.

Theorems: `C131_safe_partial`, `C131_closed_partial`, `C131_refused_partial`, `C131_exists_partial`, `C131_names_partial`, `C131_quiet_partial`, `C131_order_refuted`, `C131_reopened_refuted`, `C131_beside_refuted`.

The full statement is refuted: a named database used or closed after the last close of its group reads a deleted logger, also through a group opened again later; a DB::open beside a group is never closed. Proved: for callers that close the named databases before the group and do not mix DB::open with a group, no deleted object is read, everything is closed at the end, and DBGroup::open is refused exactly when it should; for every order, a held handle's database exists, names and databases correspond, and without logging nothing deleted is read.

### C132. The smallest number and the number of records reported for the log section are right (partial)

Modelled and proved by: lm_min_seq, lm_range and log_count on the log section of C11; exact values from the C11 invariant (the mark of the first file is the number up to which writes were handed to the tables; later files have no mark; every file has a record). Witnesses for numbers chosen by the caller and for a batch in progress.

Theorems: `C132_min_partial`, `C132_bound_partial`, `C132_tables_partial`, `C132_count_partial`, `C132_count_bound_partial`, `C132_gap_refuted`, `C132_batch_refuted`.

The full statement is refuted for numbers chosen by the caller and while a batch is written. Proved outside of batches: exact for numbers given by the database; for any numbers, LOG_NOT_EXIST is right, the number reported is above everything flushed and not above the smallest one left, the count is never too small, and getLastFlushedSeqNum is right.

### C133. Closing a database is safe while background workers are busy (partial)

Modelled and proved by: Threads, the map of open databases with its lock, the count of background tasks, the flush queue, the list of the log reclaimer and the waits of a close as events on objects with addresses (BgCloseModel). Invariant: while no wait expires, the count of a live object is the number of workers holding it, and every held pointer is alive. Witnesses for the four ways out of the invariant; the own-close case is a theorem about all executions.

Theorems: `C133_safe_partial`, `C133_plain_partial`, `C133_unused_partial`, `C133_no_new_partial`, `C133_ends_partial`, `C133_bound_partial`, `C133_request_partial`, `C133_long_refuted`, `C133_reclaim_refuted`, `C133_handler_refuted`, `C133_reuse_refuted`, `C133_others_refuted`.

The full statement is refuted: handlers longer than ten seconds, log-store databases closed during a reclaim, a handler closing its own database, a reused address, and other databases waiting. Proved for all executions where no wait expires and no freed database is on the reclaimer's list: no use after free, the free finds nobody at work, nobody starts new work, the close ends with the jobs, requests go to the right database if addresses are not reused.

### C134. Numbers in the files are stored most significant byte first and read back as written (proved)

Modelled and proved by: The macros reverse_order_64/32/16 as they are written, with memcpy on a little-endian machine (EndianModel); bit by bit the bytes are the base-256 digits, most significant first. The big-endian machine is a separate definition (EndianOrder).

Theorems: `C134_layout`, `C134_size`, `C134_read_back`, `C134_write_back`, `C134_portable`, `C134_order`.

### C135. Opening a path that another thread is opening does not harm what is synced (partial)

Modelled and proved by: Two threads in DB::open for one path: the crash model (RecoverModel) with a second memory loaded from the same files and then destroyed, which syncs and stores its own log manifest. Refuted by runs in which an fsynced record is lost; proved: the handle's answers and memory are as without the second thread, an idle duplicate is harmless, the next sync mends the manifest.

Theorems: `C135_synced_lost_refuted`, `C135_new_file_lost_refuted`, `C135_new_database_refuted`, `C135_undisturbed_partial`, `C135_idle_partial`, `C135_next_sync_partial`.

The full statement is refuted: an fsynced record is lost. Proved for all runs: the handle's answers and memory are as without the second thread; the closing of a duplicate with the handle's memory loses nothing; if the duplicate wrote the manifest only, the next sync mends it. Missing: interleaving inside one call.

### C136. The compactor takes a table only for a configured reason, the worst first, and misses none (partial)

Modelled and proved by: pickVictimTable for each policy, pickTableToFix and chkLPCompactCond as functions of the tables of a level with their locks and sizes (VictimModel); induction over the list of tables for the loops that keep the best so far. Refuted by two levels: a locked table chosen to be merged, and compaction with factor 0.

Theorems: `C136_compacted_partial`, `C136_split_partial`, `C136_fixed_partial`, `C136_urgent_partial`, `C136_none_missed_partial`, `C136_merged_partial`, `C136_locked_refuted`, `C136_disabled_refuted`.

The full statement is refuted in two points: a table that another job works on can be chosen to be merged, and keeps others from being merged; with compactionFactor 0 tables are compacted again and again. The rest is proved for all levels. Missing: rounding of the factors 1.5, 0.2, 0.4, 1.6 in floating point; table stacks.

### C137. A partition of level 0 is compacted when and only when the settings call for it (partial)

Modelled and proved by: chkL0CompactCond as a function of the settings, the surroundings and the sizes of the one or two tables (L0CondModel), with the 64-bit product that wraps; case analysis, and division lemmas that turn the percentages into inequalities. Refuted: idle traffic with two tables, interrupted compactions while keys are loaded in order.

Theorems: `C137_reason`, `C137_requested`, `C137_requested_ratio`, `C137_done_partial`, `C137_delayed`, `C137_off`, `C137_idle_partial`, `C137_idle_never_partial`, `C137_idle_two_refuted`, `C137_interrupted_refuted`.

The full statement is refuted in two points: with two tables in a partition, as usual without further levels, idle traffic never leads to a compaction; an interrupted compaction is not taken up again while keys are loaded in order (that compaction is delayed then is documented). The reasons of a compaction, requests by the user included, are proved in full. So is that requests lead to a compaction. Missing: completeness of the other reasons while keys are loaded in order, and of idle traffic with two tables (refuted).

### C138. How a record in a table is read does not depend on the records read before (partial)

Modelled and proved by: The status of the serializer is one variable of the process, passed from read to read as in MetaModel; reads inside the buffer keep it, by induction over the documents. Refuted: one document whose metadata is cut off.

Theorems: `C138_foreign_refuted`, `C138_independent_partial`.

The full statement is refuted: after one document with cut-off metadata, which the library itself never writes, deletions are read as insertions. Proved: independence for all sequences of documents without cut-off headers, hence for all that the library writes.

## 6. Defects found in the code

Every entry is a theorem (`_refuted`); the property gives the context.

* C03/C41: a log file whose tail is zero bytes (preallocated blocks after a power failure) is read
  completely, then reported as damaged, and the manifest loader replaces it by an empty file.
* C07: a write between the two steps of a checkpoint on a cold file makes the next sync cut a record.
* C10: the first manifest store of a new database, and the first after a crash that tore the backup,
  leave a window without a readable manifest.
* C12, C52, C58: snapshots at a checkpoint taken during a batch, prefix search through a snapshot,
  and snapshots across compactions do not show the state at the snapshot.
* C14, C15: explicit numbers are not compared when a new log file is started; marks out of order
  after flushes beyond the last sync.
* C16, C17, C19, C20: nearest, prefix, seek and sequence searches miss or invent keys in named
  situations.
* C18: turning an iterator round twice can skip a source with one key.
* C22: deletions are not entered in bloom filters, so deleted keys come back.
* C23, C49: single-level mode reports success without a record during and after a compaction.
* C27: the booster returns outdated documents under slot collisions.
* C29, C54: log files leaked, freed twice or used after being freed.
* C30, C55: batches become visible in part.
* C34, C35, C59: flush requests that flush the wrong records, are dropped when merged, or are never
  answered at shutdown.
* C36 (note): keys of 2 GiB and more compare wrongly.
* C38, C63, C64: direct I/O leaves unmarked zero units, overruns a thread's buffer, stops syncing
  after a truncation.
* C43, C84: the flag word of a record is covered by no checksum; 32 damaged bits across the border of
  a checksum and the bytes it covers can go unnoticed.
* C44, C45, C47: failed writes of manifests and tables lose data silently.
* C53: a spurious failure of a weak compare-and-swap gives two log files the same number.
* C56: two stores of one database group; failed writes reported as success.
* C57: checkpoints vanish from the list.
* C60: division by zero, or no throttling, for some settings.
* C61: background jobs work on tables that another job has replaced.
* C42, C65-C69: rollback with default settings crashes the next read; on an empty database it makes
  later synced writes disappear; a power failure brings rolled-back records back; names of log files
  are used again while readers of the old ones can still delete them; a gap in the numbers loses
  the later log files at reopening; the checkpoint at the target is lost.
* C77: a crash in a sync leaves half a batch; nothing in the log marks the end of a batch.
* C70-C75: closing or crashing and reopening with tables: numbers given twice after a flush that
  overtook the sync, or after a crash in the middle of a sync; batches after reopening unreadable or lost though synced (the simplest case: the
  first batch written to a database that was closed empty); records recovered
  from a log newer than the manifest lost by the next flush; a crash in a flush loses synced records
  or leaves no prefix; two log files with the same first number break reads by number and snapshots;
  log files completed by sync(false) are never fsynced.
* C80: stepping to the next entry of the index can return the same entry again while the following
  one is being erased.
* C81: the highest layer in use can be recorded too low when two insertions overlap, and a later
  erasure of the tall entry then uses pointers it never set; an insertion reads a node after giving
  up its reference; two erasures of one entry at once leave a node that is never safe to free.
* C82: a spurious failure of the weak compare-and-swap loses an insertion that reports success or
  leaves a node locked for ever.
* C87: a close that overlaps an open of the same path deletes the object the open returns, or makes
  the open return a null handle with success.
* C88: two closes at the same time, or a spurious failure of the compare-and-swap in one, leave the
  database open for ever.
* C91: a flush requested without delay waits for a timer if a delayed request is before it.
* C92: a spurious failure of a weak compare-and-swap stops a worker for good or loses a wake-up.
* C93: two databases opened at once leave a thread that spins for ever.
* C100, C101: the bulk builder loses records given out of order, and files whose number 0 is not the smallest.
* C102: given and counted sequence numbers coincide in the bulk builder.
* C98: in a group, names with a zero byte are cut when read back; names over 255 bytes write outside a buffer;
  a manifest that fails its check is ignored and numbers are given again.
* C104: closing a database with a pending delayed flush makes the timer thread step past the end of its list; a live timer behind a cancelled one is passed over once.
* C105: a timer that is due waits up to a second if another was started in the same pass.
* C106: closing a database while its delayed-flush callback has started lets the callback use the freed logger.
* C107: a delayed flush request made while the previous callback is finishing gets no timer and no wake-up.
* C109: a change of the number of level-0 partitions compacts the tables of one partition in the order of the list, which every reopening reverses; after a second opening, or a crash during the change, the older table overwrites the newer one in level 1: old values and deleted keys come back (table_mgr.cc:377-386).
* C112: a lookup reads the number of levels once; if a compaction adds a level meanwhile, an existing key is reported as not found. The states of the level-0 tables are read after their list is taken; if one compaction ends and the next one begins in between, the lookup succeeds without a record.
* C113: overlapping tables found at opening: a key in both tables whose newer version is in the second one is returned as success without a record; a table that overlaps more than its neighbour, or whose min key was corrected below that of the table before it, hides keys; a lookup during the repair can miss a key; with bloom filters a moved tombstone is no longer found.
* C114: the repair commits the removal of the records before their insertion; a crash in between loses them.

* C115: flushLogs and flushLogsAsync do not ask for the mode: on a read-only handle they return OK, write the tables, store the log manifest and delete log files (`C115_flush_refuted`, `C115_flush_deletes_refuted`).
* C116: a reader's flushLogs replaces the manifest by its own, older view: a log file the writer of another process has added and synced since is removed at the next opening (`C116_synced_write_lost_refuted`).

* C118: with logSectionOnly, a read through a snapshot dereferences the null memtable of a log file that the reclaimer has freed (before or after the snapshot was opened): only reads of the database itself load the file again.

* C119: a sync that flushes a log file without records remembers "nothing" as the last number written and then marks the file as synced up to its newest record; a first record put in between is marked as synced without being on disk, and neither later syncs nor closing write it (`C119_first_write_refuted`, `C119_new_file_refuted`).
* C120: the sync reads the batch barrier once, before its loop; a batch that begins after that is written partly, and a crash leaves half of it (`C120_half_batch_refuted`).
* C121: with allowOverwriteSeqNum, a record overwritten in a log file the running sync has already passed is forgotten: the end of the sync sets the last synced log file past it (`C121_overwrite_lost_refuted`).

* C123: a get reads the largest number of a log file and then the batch barrier. A batch that writes a key twice and ends in between lets the get return the first of the two values, which was never visible (`C123_key_twice_refuted`). If the newest log file is empty the largest number is "none", and a batch that begins after the barrier was read is visible while it is unfinished (`C123_empty_file_refuted`).
* C123: flushLogs with beyondLastSync reads the barrier before the largest number; a batch that begins in between is moved to the tables in part, where no barrier hides it (`C123_half_batch_refuted`).

* C124: a sync sets the last synced log file to the one it started from without looking at what a concurrent flushLogs with beyondLastSync did to it. If that flush has removed the file, the next flushLogs() looks it up, gets null and dereferences it (`C124_null_refuted`; log_mgr.cc:1299-1310, 1410-1437).

* C125: SizedBuf::resize(0) on a buffer that owns its memory releases the memory (realloc to 0 bytes) but keeps pointer, size and flag, as realloc returned null; the next free(), or the Holder, frees it again (`C125_resize_zero_refuted`; sized_buf.h:402-413).
* C126: SizedBuf keeps the size in 32 bits although its constructors and set/alloc take size_t. A value of 4 GiB + 5 bytes becomes a 5-byte value with no error (`C126_huge_refuted`; sized_buf.h:315, 383, 489).
* C128: Record::clone checks only the key and value pointers. A record for which empty() holds but which owns metadata loses that memory (`C128_leak_refuted`); a record whose key is an empty string is refused as ALREADY_INITIALIZED although empty() holds (`C128_refuse_refuted`; record.h:128-140, 166).

* C129: rollback shortens the log file before it writes the manifest that forgets the later files. A process that dies in between leaves a database in which the records after the target are missing up to the end of that file and the later ones are there (`C129_hole_refuted`). After the restart the hole stays unnoticed; once a read has loaded the shortened file, the next clean close and open finds the numbers inconsecutive and deletes all later log files, with records written and synced after the restart (`C129_later_record_refuted`; log_mgr.cc:291-322, log_manifest.cc:320-370).

* C130: discardDirty leaves the node of a key in the memtable when it takes all of its records away. The next key iterator over that log file reads the first element of an empty list (`assert(0)`, undefined in a release build): `C130_iterator_refuted`, `C130_iterator_next_refuted` (memtable.cc:105-125, 538). A nearest-key search that meets the node gives up (`C130_nearest_refuted`, memtable.cc:618-660).
* C130: discardDirty computes the last synced number and does not use it, so it takes synced writes away from the memory too, although they stay in the log file on disk (`C130_synced_refuted`, log_mgr.cc:1332-1341); and a snapshot opened before loses the writes (`C130_snapshot_refuted`).

* C131: the databases of a group share the logger and the manifest of the default database without counting. After DBGroup::close, closing (or using) a named database that is still open reads the deleted logger (`C131_order_refuted`, jungle.cc:1029-1034, 1047-1049, db_group.cc:110-114). If the group is then opened again, openDB hands out the old database with the dangling pointers (`C131_reopened_refuted`, db_group.cc:95-100).
* C131: DB::open of a path whose group is open returns the default database and counts one reference; DB::close of that handle returns at once because the database has a group (jungle.cc:267-274). The database is then never closed (`C131_beside_refuted`).

* C132: getMinSeqNum returns the last flushed number plus one without looking for such a record. With numbers chosen by the caller it names a record that does not exist, and getStats counts the gap as records (`C132_gap_refuted`, log_mgr.cc:1891-1904, jungle.cc:915-932). While a batch is written it names a record of the batch that readers cannot see, above what getMaxSeqNum reports (`C132_batch_refuted`).

* C133: the closing thread waits ten seconds for background tasks and then frees the database; a completion handler running longer makes its worker write into freed memory (`C133_long_refuted`, jungle.cc:1059-1069, db_internal.h:45, flusher.cc:253-289).
* C133: the log reclaimer copies raw pointers under the lock of the map and uses them after releasing it, without counting a task; a log-store database closed in between is used after it was freed (`C133_reclaim_refuted`, log_reclaimer.cc:57-76).
* C133: a completion handler of an asynchronous flush that closes its own database waits for itself for ten seconds, holding the lock of the map, then frees the database under its worker (`C133_handler_refuted`, flusher.cc:253-289).
* C133: a queued request is matched to a database by address only; after a close and an open at the same address it is executed on the other database and reported as done (`C133_reuse_refuted`, flusher.cc:152-163).
* C133: while one close waits, no other database can be opened, closed, flushed in the background or compacted (`C133_others_refuted`, db_mgr.cc:355-363).

* C135: a thread that loses the race in DB::open destroys what it loaded, and this stores its old view of the log files as the log manifest; records that the winner has written and fsynced meanwhile are lost if the process dies before the next sync (jungle.cc:159-164, log_mgr.cc:2108-2112).

* C136: the choice of a table to merge by the level average does not look at the locks; while another job works on the first such table, no other table of the level is merged (table_compact_condition.cc:215-253).
* C136: with compactionFactor 0, which is said to turn automatic compaction off (table_mgr.cc:107), tables of levels above 0 are compacted in place again and again, even without stale data (table_compact_condition.cc:164, 735-745).

* C137: the check that keeps small files from being compacted when traffic is idle uses the debug parameter urgentCompactionRatio, 0 by default, minus 100: the difference wraps, and a partition with two tables is never compacted for idle traffic (table_compact_condition.cc:532-540).
* C137: while keys are loaded in order, a compaction that was interrupted by the end of the process is not taken up again (table_compact_condition.cc:560-580 comes before 616).

* C138: getU8 to getU64 keep their status in a static variable that is never reset (internal_helper.h:41,103-106). After one read past the end of a buffer the position no longer moves, and deletions in tables are read as insertions until the process ends. Only metadata not written by the library (identifier 1, fewer than 9 bytes, or fewer than 13 with the flag of compression) leads to such a read.

## 7. Testing the theorems against wrong programs

`seeded/LOG.jsonl` has one line per attempt: a definition of the model is changed the way a real bug
would change the code, everything is rebuilt, and the theorems that fail are listed.  Where every
theorem still held although the claim was false of the changed model, a theorem was added or
strengthened (`tightened`).
