{"id": "C01", "title": "A record written to the log is read back unchanged", "statement": "If a record (insertion or deletion, with any key, metadata, value and sequence number) has been written to a log file, then reopening the database and reading that record back yields exactly the same key, metadata, value, type and sequence number, and reading continues exactly at the following record.", "quantifier": "every record whose key, metadata and value lengths fit in 32 bits, and every byte string following it in the file", "why_tests_cant": "Tests write a handful of records; the claim is about every byte content and every length, including lengths that straddle buffer boundaries and contents that look like markers.", "anchors": ["src/memtable.cc: MemTable::flush, MemTable::loadRecord, identify_type", "src/internal_helper.cc: RwSerializer"]}
{"id": "C02", "title": "After a crash the log recovers to a whole-record prefix", "statement": "If the machine stops while the log is being written, so that only the first n bytes of the log file survive, then reopening recovers exactly the records that lie entirely within those n bytes, in order, with their checkpoints - nothing is invented, reordered or half-applied.", "quantifier": "every sequence of records and checkpoint markers, and every truncation point n of the resulting file", "why_tests_cant": "Crash tests kill the process at a few random points; the claim covers every byte position of every log.", "anchors": ["src/memtable.cc: MemTable::load, MemTable::loadRecord, MemTable::loadCheckpoint", "src/log_file.cc: LogFile::loadMemTable"]}
{"id": "C03", "title": "A zero-filled tail after a crash does not lose synced records", "statement": "If after a power loss the file system has extended a log file with zero bytes after the last synced record, reopening the database still returns every record that a successful sync reported durable.", "quantifier": "every synced log content and every number of trailing zero bytes", "why_tests_cant": "File systems produce zero tails only after real power loss; unit tests truncate files but do not extend them with zeros.", "anchors": ["src/memtable.cc: MemTable::load, MemTable::loadRecord", "src/log_manifest.cc: LogManifest::load", "src/crc32.cc: crc32_8"]}
{"id": "C04", "title": "The fast checksum is the standard CRC-32 and can be chained", "statement": "The table-driven eight-bytes-at-a-time checksum used for log records and manifests equals the bit-by-bit CRC-32 definition for every input, and checksumming two buffers one after the other (feeding the first result into the second call) equals checksumming their concatenation.", "quantifier": "every byte string, every split point, every 32-bit starting value", "why_tests_cant": "The slicing loop has a different path for each length modulo 8 and 2048 table constants; samples cannot cover all inputs.", "anchors": ["src/crc32.cc: crc_lookup, crc32_1, crc32_8"]}
{"id": "C05", "title": "Any short corruption of a stored record is detected", "statement": "If a contiguous stretch of at most 32 bits inside the length header, inside the body (key, metadata, value) or inside one of the two checksum fields of a stored record is damaged on disk, reading the record back reports an error and never silently returns different data.", "quantifier": "every record, every position within each of these fields, and every error pattern confined to 32 consecutive bits", "why_tests_cant": "There are about 2^32 error patterns per position; tests flip a few bits.", "anchors": ["src/crc32.cc: crc32_8", "src/memtable.cc: MemTable::loadRecord"]}
{"id": "C06", "title": "How the log is chunked into page-sized writes does not change its bytes", "statement": "The bytes that end up in the log file after syncing a sequence of records and checkpoints are the concatenation of their individual encodings, independent of the internal page buffer size and of how many sync calls were used.", "quantifier": "every record sequence, every record size relative to the page limit, every grouping into sync calls", "why_tests_cant": "Interaction of record size with the page limit has many boundary cases that depend on exact byte counts.", "anchors": ["src/memtable.cc: MemTable::flush, MemTable::appendCheckpointMarker"]}
{"id": "C07", "title": "Taking a checkpoint never makes synced records unreadable", "statement": "Taking a checkpoint, also while another thread keeps writing to the same log, leaves every record that was synced readable after reopening.", "quantifier": "every log content, every record size, every placement of the checkpoint request among concurrent writes and syncs", "why_tests_cant": "Requires a write to land between the two internal steps of a checkpoint, together with a record larger than the page limit.", "anchors": ["src/memtable.cc: MemTable::flush (cold checkpoint part), MemTable::checkpoint", "src/log_file.cc: LogFile::checkpoint", "src/log_mgr.cc: LogMgr::checkpoint"]}
{"id": "C08", "title": "The log manifest round-trips", "statement": "Storing the list of log files and their sequence-number marks and loading it again yields the same list, marks and counters.", "quantifier": "every set of log files and every 64-bit value of every mark", "why_tests_cant": "Values near the 64-bit limits and arbitrary numbers of files are not sampled by tests.", "anchors": ["src/log_manifest.cc: LogManifest::storeInternal, LogManifest::load", "src/internal_helper.cc: RwSerializer"]}
{"id": "C09", "title": "Incremental manifest updates leave the same file as a full rewrite", "statement": "After any sequence of manifest updates, where each update rewrites only the part of the file that differs from the previous version, the file on disk is byte-for-byte the encoding of the latest manifest.", "quantifier": "every sequence of manifest versions (files added, removed, marks moved)", "why_tests_cant": "The first differing byte and the length change can combine arbitrarily; tests only exercise a few successive versions.", "anchors": ["src/log_manifest.cc: LogManifest::storeInternal", "src/internal_helper.cc: BackupRestore::backup"]}
{"id": "C10", "title": "A crash during a manifest update always leaves a usable manifest", "statement": "At every point at which the machine can stop during a synchronous manifest update, at least one of the manifest file and its backup is a complete copy of either the previous or the new version.", "quantifier": "every crash point inside the update and every subset of unsynced bytes that reached the disk", "why_tests_cant": "The number of crash points times torn-write patterns is exponential.", "anchors": ["src/log_manifest.cc: LogManifest::storeInternal", "src/internal_helper.cc: BackupRestore::backup, BackupRestore::restore", "src/log_mgr.cc: LogMgr::init"]}
{"id": "C11", "title": "A read returns the latest write (in-memory part)", "statement": "After any sequence of insertions and deletions, reading a key returns the value of the most recent write to that key, or 'not found' if the key was never written or its last write was a deletion.", "quantifier": "every sequence of writes over arbitrary keys, including rewriting and deleting the same key any number of times", "why_tests_cant": "Histories are unbounded; tests check specific ones.", "anchors": ["src/memtable.cc: MemTable::putNewRecord, MemTable::getRecordByKey, RecNode::getLatestRecord", "src/log_mgr.cc: LogMgr::get"]}
{"id": "C12", "title": "A snapshot read returns the latest write at or before the snapshot point", "statement": "Reading a key through a snapshot taken at sequence number c returns the most recent write to that key whose sequence number is at most c, no matter how many writes happened afterwards.", "quantifier": "every write history, every snapshot point, every key", "why_tests_cant": "The interleaving of versions around the snapshot point is unbounded.", "anchors": ["src/memtable.cc: RecNode::getLatestRecord, MemTable::getRecordByKeyInternal", "src/log_mgr.cc: LogMgr::get"]}
{"id": "C13", "title": "Automatically assigned sequence numbers are consecutive and never reused", "statement": "Every write without an explicit sequence number receives the successor of the largest number issued so far, across log file switches.", "quantifier": "every number of writes and every pattern of log file switches", "why_tests_cant": "Switch points depend on configured limits; tests use few switches.", "anchors": ["src/memtable.cc: MemTable::assignSeqNum", "src/log_mgr.cc: LogMgr::setSN, LogMgr::addNewLogFile"]}
{"id": "C14", "title": "An explicit sequence number that is not larger than the current maximum is rejected", "statement": "When overwriting is not enabled, a write that carries an explicit sequence number not larger than the current maximum sequence number of the database is refused and changes nothing.", "quantifier": "every write history, including a switch to a new log file just before the write", "why_tests_cant": "Only a write that lands exactly on a log file switch exposes the difference.", "anchors": ["src/memtable.cc: MemTable::assignSeqNum", "src/log_mgr.cc: LogMgr::setSN"]}
{"id": "C15", "title": "Flushed, synced and maximum sequence numbers stay ordered", "statement": "At every moment, for every log file: flushed mark <= synced mark <= largest sequence number, whenever the marks are defined.", "quantifier": "every sequence of write, sync, flush and truncate operations on a log file", "why_tests_cant": "Marks move independently; the invariant must hold for every order.", "anchors": ["src/log_file.cc: LogFile::setSyncedSeqNum, LogFile::setFlushedSeqNum", "src/memtable.cc: MemTable::updateMaxSeqNum"]}
{"id": "C16", "title": "Nearest-key search returns the closest live version", "statement": "Searching for the nearest key (greater-or-equal, greater, smaller-or-equal, smaller, exact) returns a record for the closest key that has a version visible at the requested point, if any key does.", "quantifier": "every set of keys and versions, every search key, every option, every visibility point", "why_tests_cant": "Depends on every combination of invisible neighbours.", "anchors": ["src/memtable.cc: MemTable::getRecordByKeyInternal", "src/log_mgr.cc: LogMgr::getNearest", "src/jungle.cc: DB::getNearestRecordByKey"]}
{"id": "C17", "title": "Prefix search visits every key with the prefix", "statement": "A prefix search reports every live key that starts with the prefix, no matter how the keys are distributed over the tables.", "quantifier": "every distribution of keys over range-partitioned tables and every prefix", "why_tests_cant": "A failure needs a prefix that spans at least three tables, which small tests never create.", "anchors": ["src/table_manifest.cc: TableManifest::getTablesPrefix", "src/table_mgr.cc: TableMgr::getPrefix"]}
{"id": "C18", "title": "Iteration by key yields each live key once, in order, with its newest version", "statement": "Iterating over the merged view of several sources (log files, tables) with any mixture of forward and backward steps behaves like a cursor over the sorted list of distinct keys, each with the newest version, and stops at the ends without losing its position.", "quantifier": "every number of sources, every content, every sequence of next and prev steps", "why_tests_cant": "Direction changes combine with per-source exhaustion flags; exponentially many step sequences.", "anchors": ["src/log_iterator.cc: LogMgr::Iterator::next, prev", "src/table_iterator.cc: TableMgr::Iterator::next, prev", "src/iterator.cc: Iterator::next, prev"]}
{"id": "C19", "title": "Seeking an iterator lands on the right record or reports out of range", "statement": "Seeking to a key with the 'smaller' (or 'greater') option positions the iterator on the greatest key not above (smallest key not below) the target, or reports that there is none.", "quantifier": "every set of sources and every seek target", "why_tests_cant": "Needs a source whose all keys are on the wrong side of the target next to one with keys on the right side.", "anchors": ["src/log_iterator.cc: LogMgr::Iterator::seekInternal, moveToLastValid", "src/iterator.cc: Iterator::seekInternal"]}
{"id": "C20", "title": "Iteration by sequence number stays inside the requested range", "statement": "An iterator opened on a sequence number range never returns a record outside of that range.", "quantifier": "every set of sequence numbers (with gaps) and every range", "why_tests_cant": "Gaps in the numbers at the range edge are needed.", "anchors": ["src/memtable_iterator.cc: MemTable::Iterator::initSN, seekSN"]}
{"id": "C21", "title": "Multi-level lookup returns the newest version", "statement": "In the multi-level mode, reading a (non-empty) key from the table part of the database returns the newest version of that key that was flushed to the tables, after any sequence of flushes, level-to-level compactions (completed or cancelled half way), splits, merges, in-place compactions, migrations and restarts in which no write and no file creation fails (failures are C47), when lookups use no bloom filter or no key is ever deleted (the rest is C22).", "quantifier": "every sequence of flush / compaction / split / merge / migration operations over every set of records", "why_tests_cant": "The number of table layouts is unbounded, and a wrong routing decision shows only for particular keys.", "anchors": ["src/table_mgr.cc: TableMgr::get", "src/table_compaction.cc: TableMgr::compactLevelItr, migrateLevel, compactInPlace", "src/table_split.cc: TableMgr::splitTableItr, mergeLevel", "src/table_manifest.cc: TableManifest::getTablesPoint"]}
{"id": "C22", "title": "A deleted key stays deleted when bloom filters are enabled", "statement": "With bloom filters enabled, a key whose last write is a deletion is reported as not found, whatever older versions exist in lower levels.", "quantifier": "every history and every distribution of versions over levels", "why_tests_cant": "Needs the deletion to be the only record of the key in the newer table while an older table holds an insertion.", "anchors": ["src/table_file.cc: TableFile::setSingle, TableFile::get", "src/table_mgr.cc: TableMgr::get"]}
{"id": "C23", "title": "A table-level read never reports success without a value", "statement": "If reading a key from the tables reports success then the returned record is a stored version of that key, and it is the newest among the tables that were searched.", "quantifier": "every number of tables of one level that contain the key, in every order", "why_tests_cant": "Needs two tables of the same level holding versions of the same key, visited newest first.", "anchors": ["src/table_mgr.cc: TableMgr::get"]}
{"id": "C24", "title": "Bloom filters have no false negatives", "statement": "After adding any set of keys to a bloom filter, and after saving and loading it, the membership check succeeds for each of them.", "quantifier": "every filter size, number of hash functions, set of keys and hash values", "why_tests_cant": "False negatives would depend on index arithmetic for particular sizes and hashes.", "anchors": ["src/bloomfilter.cc: BloomFilter::set, check", "src/generic_bitmap.h: GenericBitmap"]}
{"id": "C25", "title": "Merging two tables keeps exactly the newest live version of each key", "statement": "Compacting two tables into one produces, for each key, the version with the higher sequence number; keys whose newest version is a deletion are dropped (or kept if requested); nothing else changes and the output is in key order.", "quantifier": "every pair of sorted tables", "why_tests_cant": "The two-cursor loop has many end-of-input cases.", "anchors": ["src/table_file_compaction.cc: TableFile::mergeCompactTo"]}
{"id": "C26", "title": "Splitting a table loses no record and routes each key to one output", "statement": "Splitting a table distributes all of its records over the outputs, each record to the output whose key range contains it, and lookups return the same result before and after.", "quantifier": "every table content and every sequence of size-based cut decisions", "why_tests_cant": "Cut positions depend on record sizes; arbitrary many outputs.", "anchors": ["src/table_split.cc: TableMgr::splitTableItr"]}
{"id": "C27", "title": "The lookup shortcut never returns an outdated version", "statement": "The per-table lookup shortcut (hash to file offset) never makes a read return an older version of a key than the newest one in the table, including when readers and writers run concurrently.", "quantifier": "every interleaving of reads, writes and shortcut updates, and every hash collision pattern", "why_tests_cant": "The race window needs three threads and a slot collision.", "anchors": ["src/table_lookup_booster.cc: TableLookupBooster::get, setIfNew", "src/table_file.cc: TableFile::get, setSingle"]}
{"id": "C28", "title": "Table and log file numbers are unique under concurrency", "statement": "Concurrent requests for new table (or log) file numbers never receive the same number.", "quantifier": "every number of threads and every interleaving of their atomic steps", "why_tests_cant": "Schedules are exponential in the number of steps.", "anchors": ["src/table_manifest.cc: TableManifest::issueTableNumber", "src/log_manifest.cc: LogManifest::issueLogFileNumber"]}
{"id": "C29", "title": "A log file in use by a reader is never freed, and a removed one is eventually freed", "statement": "While any reader or snapshot holds a reference to a log file, the file object is not destroyed; after the file was removed and the last reference is released it is destroyed exactly once.", "quantifier": "every interleaving of the atomic steps of grab, release and remove by any number of threads", "why_tests_cant": "The relevant interleavings are between single atomic operations.", "anchors": ["src/log_manifest.h: LogFileInfo::grab, grabForSnapshot, doneInternal", "src/table_manifest.h: TableInfo::done"]}
{"id": "C30", "title": "A batch becomes visible all at once", "statement": "No read that happens while a batch is being applied sees some but not all of the batch's records.", "quantifier": "every batch, every position of a concurrent read among the individual insertions, including the very first batch of a database and log-section-only mode", "why_tests_cant": "A read must hit the window between two insertions of the batch.", "anchors": ["src/log_mgr.cc: LogMgr::setMulti, setMultiInternal, getVisibleSeqBarrier, get", "src/jungle.cc: DB::setRecordBatch"]}
{"id": "C31", "title": "A batch with an invalid record changes nothing", "statement": "If a batch contains a record whose sequence number is unacceptable, the batch is refused and no record of it is applied.", "quantifier": "every batch and every database state", "why_tests_cant": "The offending record can be at any position and depend on the state.", "anchors": ["src/log_mgr.cc: LogMgr::checkBatchValidity, setMultiInternal"]}
{"id": "C32", "title": "Concurrent multi-database batches never deadlock", "statement": "Any number of threads executing batches that span several databases, in any order of the databases inside each batch, can always make progress.", "quantifier": "every set of threads, every set of databases per thread, every interleaving of lock operations", "why_tests_cant": "Deadlock is a property of schedules.", "anchors": ["src/global_batch.cc: GlobalBatch::execute, addBatch"]}
{"id": "C33", "title": "Available checkpoints are the newest ones, sorted, without duplicates", "statement": "The list of checkpoints is strictly increasing, contains only checkpoints present in the log or in every first-level table partition, and contains the newest ones up to the configured limit.", "quantifier": "every history of checkpoints and every limit", "why_tests_cant": "The combination of log and table lists with trimming is unbounded.", "anchors": ["src/jungle.cc: DB::getCheckpoints", "src/table_mgr.cc: TableMgr::getAvailCheckpoints", "src/memtable.cc: MemTable::getCheckpoints"]}
{"id": "C34", "title": "Flushing moves the right records, each once, to the tables", "statement": "Flushing the log up to a sequence number passes to the tables, for every key, the newest version at or below that number and above the last flushed one, and reads give the same answers before and after.", "quantifier": "every log content, every flush bound", "why_tests_cant": "Depends on how versions of each key straddle the bound.", "anchors": ["src/memtable.cc: MemTable::getLogsToFlush", "src/log_mgr.cc: LogMgr::flush", "src/jungle.cc: DB::get"]}
{"id": "C35", "title": "A merged asynchronous flush request does what each requester asked for", "statement": "When several asynchronous flush requests for the same database are merged, each completion handler reports success only if the logs up to the sequence number that its own request asked for were flushed.", "quantifier": "every sequence of requests and every combination of bounds and options", "why_tests_cant": "Only overlapping requests with different options are merged; timing dependent.", "anchors": ["src/flusher.cc: FlusherQueue::push, Flusher::work"]}
{"id": "C36", "title": "Key comparison is a total order consistent with equality", "statement": "The default key comparison is a total order (reflexive, antisymmetric, transitive) and reports equality exactly for identical byte strings.", "quantifier": "every pair and triple of keys shorter than 2 GiB, including keys with a common prefix and empty keys", "why_tests_cant": "Order laws quantify over triples of arbitrary strings.", "anchors": ["include/libjungle/sized_buf.h: SizedBuf::cmp"]}
{"id": "C37", "title": "Two compactions never work on the same table at the same time", "statement": "The table locking used by background jobs guarantees that a table belongs to at most one running job, and that a failed lock attempt has no effect.", "quantifier": "every sequence of lock and unlock attempts by any number of jobs on any table sets", "why_tests_cant": "Depends on interleaving of jobs.", "anchors": ["src/table_helper.cc: TableLockHolder, LevelLockHolder"]}
{"id": "C38", "title": "Direct I/O writes exactly the logical stream", "statement": "With direct I/O enabled, after a flush the file content is the logical byte stream followed only by recognisable padding, and a positional read returns exactly the requested bytes, for every size and alignment.", "quantifier": "every sequence of append and flush calls with every size, every read offset and length, every buffer/alignment configuration", "why_tests_cant": "Alignment arithmetic has boundary cases for each residue.", "anchors": ["src/fileops_directio.cc: FileOpsDirectIO::append, flush, pread"]}
{"id": "C39", "title": "The table manifest round-trips", "statement": "Storing the table layout (levels, tables, minimum keys, hash numbers, checkpoints) and loading it again yields the same layout.", "quantifier": "every number of levels and tables, every minimum key and checkpoint list", "why_tests_cant": "Variable-length nested format; unbounded.", "anchors": ["src/table_manifest.cc: TableManifest::store, load", "src/table_file.cc: TableFile::appendCheckpoints, loadCheckpoints"]}
{"id": "C40", "title": "Record metadata stored in tables round-trips", "statement": "The user metadata, deletion flag and compression information of a record stored in a table are read back unchanged.", "quantifier": "every metadata byte string, every flag combination, every length", "why_tests_cant": "Byte contents are unbounded, e.g. metadata that itself looks like an internal header.", "anchors": ["src/table_file.cc: TableFile::userMetaToRawMeta, rawMetaToUserMeta"]}
{"id": "C41", "title": "Everything acknowledged by sync survives a crash and reopen", "statement": "If sync returns success, then after a crash at any later time and reopening, every write acknowledged before the sync is still readable with its latest value.", "quantifier": "every history of writes, syncs, log file switches, reopenings and every crash point", "why_tests_cant": "Crash points and histories are unbounded.", "anchors": ["src/log_mgr.cc: LogMgr::syncInternal, LogMgr::init", "src/log_file.cc: LogFile::flushMemTable", "src/log_manifest.cc: LogManifest::load"]}
{"id": "C42", "title": "Rolling back the log removes exactly the later writes", "statement": "In log-section-only mode, after rolling back to sequence number s every record with number at most s is still readable and no record above s is.", "quantifier": "every log content over any number of files and every s", "why_tests_cant": "s can fall at any position of any file, including exactly on a file boundary.", "anchors": ["src/log_mgr.cc: LogMgr::rollback", "src/log_file.cc: LogFile::truncate", "src/memtable.cc: MemTable::findOffsetOfSeq"]}
{"id": "C43", "title": "Damage to a record's type flag is detected", "statement": "If the stored type/flag word of a log record is damaged on disk, reopening reports an error instead of returning a record of another type (for example an insertion turned into a deletion).", "quantifier": "every record and every damage pattern of the flag word", "why_tests_cant": "Tests do not flip bits of the flag word of otherwise valid records.", "anchors": ["src/memtable.cc: MemTable::flush, MemTable::loadRecord"]}
{"id": "C44", "title": "A failed manifest update does not damage later ones", "statement": "If writing the log manifest fails part way (for example because the disk is full) and a later update reports success, the manifest file holds exactly the later version.", "quantifier": "every pair of versions, every number of bytes written before the failure", "why_tests_cant": "Write failures are not injected by tests, and only particular combinations of differing bytes expose the problem.", "anchors": ["src/log_manifest.cc: LogManifest::storeInternal"]}
{"id": "C45", "title": "Updating the manifest while a log file is being removed leaves a loadable manifest", "statement": "If one thread syncs (and so stores the log manifest) while another finishes a flush (and so removes log files), the stored manifest still loads to counters and files that exist.", "quantifier": "every interleaving of the two threads", "why_tests_cant": "The window between counting and listing the files is a few instructions wide.", "anchors": ["src/log_manifest.cc: LogManifest::storeInternal, LogManifest::removeLogFile, LogManifest::load", "src/log_mgr.cc: LogMgr::flush, LogMgr::syncInternal"]}
{"id": "C46", "title": "A crash during a table manifest update leaves a usable table manifest", "statement": "Once a table manifest has been stored synchronously, a crash at any point of any later update leaves the table manifest or its backup a complete copy of the version being written or of the last synchronously stored version.", "quantifier": "every layout, every crash point, every subset of unsynced bytes that reached the disk", "why_tests_cant": "The number of crash points times torn-write patterns is exponential.", "anchors": ["src/table_manifest.cc: TableManifest::store", "src/internal_helper.cc: BackupRestore::backup, copyFile", "src/table_mgr.cc: TableMgr::init"]}
{"id": "C47", "title": "A failed write during a flush or compaction loses nothing that was reported as done", "statement": "If a record cannot be written to a table file, or a table file cannot be created, during a flush, a compaction or a split that reports success, every record that was readable before is still readable.", "quantifier": "every position of the failure and every operation", "why_tests_cant": "Failures must be injected at each position of each operation.", "anchors": ["src/table_set_batch.cc: TableMgr::setTableFile, setBatchHash", "src/table_file.cc: TableFile::setBatch", "src/table_compaction.cc: TableMgr::compactLevelItr", "src/table_split.cc: TableMgr::splitTableItr"]}
{"id": "C48", "title": "L0-only mode: lookups return the newest flushed version", "statement": "When the database keeps a single level of tables, reading a non-empty key from the tables returns the newest version of it that was flushed, after every sequence of flushes (of records with growing sequence numbers), completed compactions and restarts, when lookups use no bloom filter or no key is ever deleted.", "quantifier": "every sequence of flush / compaction / restart operations over every set of records", "why_tests_cant": "Depends on the relative order and numbers of the tables a compaction leaves behind, for unboundedly long histories.", "anchors": ["src/table_compaction.cc: TableMgr::compactL0", "src/table_file_compaction.cc: TableFile::mergeCompactTo", "src/table_mgr.cc: TableMgr::get, getTwoSmallSrcTables, getTwoSmallNormalTables"]}
{"id": "C49", "title": "L0-only mode: a running compaction is invisible to readers", "statement": "In the single-level mode, a lookup made while a compaction is running returns what it would return before or after the compaction.", "quantifier": "every lookup between any two steps of any compaction", "why_tests_cant": "The window between adding the compacted table and removing its sources is too short to hit in a test.", "anchors": ["src/table_compaction.cc: TableMgr::compactL0", "src/table_mgr.cc: TableMgr::get"]}
{"id": "C50", "title": "Iteration in one direction shows exactly the live keys of the range", "statement": "An iterator opened by key on a range (either bound may be absent) is positioned on the smallest live key of the range; calling next() repeatedly visits every live key of the range once, in increasing order, each with its newest value, and then fails; after gotoEnd(), calling prev() repeatedly visits them in decreasing order; gotoBegin() starts again. Deleted keys and overwritten values never appear.", "quantifier": "every reachable mixture of writes, deletions, batches, flushes, compactions, splits, merges and reloads, every range, every number of calls", "why_tests_cant": "Each key may have versions in any number of log files and tables, with tombstones anywhere; the number of layouts is unbounded.", "anchors": ["src/iterator.cc: Iterator::init, next, prev, gotoBegin, gotoEnd", "src/log_iterator.cc: LogMgr::Iterator::initInternal, next, prev, seekInternal", "src/table_iterator.cc: TableMgr::Iterator::initInternal, next, prev, seekInternal", "src/memtable_iterator.cc: MemTable::Iterator::init, next, prev"]}
{"id": "C51", "title": "Writes do not disturb an open iterator", "statement": "An iterator by key goes on showing exactly the live keys and values of the moment it was opened, in order, while other threads write, overwrite and delete keys with new sequence numbers.", "quantifier": "every reachable database, every range, every number of calls, every schedule of later writes to the log files below the iterator", "why_tests_cant": "The writes may fall between any two steps of the iterator, and every combination of positions and schedules would have to be tried.", "anchors": ["src/memtable_iterator.cc: MemTable::Iterator::next, prev, get", "src/memtable.cc: MemTable::getLatestRecord, validKeyExist, addToByKeyIndex", "src/log_iterator.cc: LogMgr::Iterator::initInternal"]}
{"id": "C52", "title": "Prefix search through a snapshot reports the state of the snapshot", "statement": "A prefix search on a snapshot handle reports exactly the keys with the prefix that the snapshot has: nothing written later, and nothing missing because of later flushes.", "quantifier": "every history before and after the snapshot was opened, every prefix", "why_tests_cant": "Tests search a snapshot before anything else happens; the fault shows only if writes or flushes follow.", "anchors": ["src/log_mgr.cc: LogMgr::getPrefix", "src/jungle.cc: DB::getRecordsByPrefix"]}
{"id": "C53", "title": "A new log file never gets the number of an existing one", "statement": "Whenever the database starts a new log file, its number differs from the number of every log file it started before, whatever the other writers do at the same time.", "quantifier": "every sequence of attempts to start a log file, and every behaviour of the atomic compare-and-swap the language allows", "why_tests_cant": "The weak compare-and-swap fails spuriously only on some hardware and then rarely.", "anchors": ["src/log_mgr.cc:489-550", "src/log_manifest.cc:646-660", "src/log_manifest.cc:874-879"]}
{"id": "C54", "title": "A snapshot holds one reference per log file it lists", "statement": "While a snapshot is open it holds exactly one reference on every log file it will read, and after it is closed it holds none, even if log files were removed while it was being opened.", "quantifier": "every sequence of retries while the snapshot is opened, whatever log files disappear in between", "why_tests_cant": "The retry needs a flush to remove files between two steps of opening.", "anchors": ["src/log_mgr.cc:385-450", "src/log_mgr.cc:452-474"]}
{"id": "C55", "title": "A multi-database batch becomes visible in all databases at once", "statement": "Once a reader has seen any record of a batch that spans several databases, every read that starts afterwards, in any of the databases, sees the whole batch.", "quantifier": "every number of databases and records, every interleaving of the atomic steps of the batch and of any number of readers", "why_tests_cant": "The window is a few instructions wide and spans two databases.", "anchors": ["src/global_batch.cc:66-138", "src/log_mgr.cc:726-760", "src/log_mgr.cc:859-938"]}
{"id": "C56", "title": "A multi-database batch that reports success was written completely", "statement": "If executing a batch over several databases reports success, every record of every batch added to it was written to its database; if it reports an error, nothing was written.", "quantifier": "every list of databases and batches, including stores of one database group, and every outcome of the single writes", "why_tests_cant": "Failures in the middle of the batch and unusual combinations of databases are not triggered by tests.", "anchors": ["src/global_batch.cc:23-57", "src/global_batch.cc:66-138", "src/db_group.cc:103-117"]}
{"id": "C57", "title": "A checkpoint stays listed until newer ones push it out", "statement": "Every checkpoint that a call reported as created is in the list of checkpoints afterwards, whatever flushes and compactions run, unless as many newer checkpoints as the configured limit are listed.", "quantifier": "every sequence of writes, checkpoints, syncs, flushes and compactions, every number of partitions and limit", "why_tests_cant": "The list depends on which records are flushed and which partitions are compacted at each moment.", "anchors": ["src/jungle.cc:425-449", "src/jungle.cc:558-567", "src/table_mgr.cc:970-1013", "src/table_file.cc:619-663", "src/table_set_batch.cc:199-296"]}
{"id": "C58", "title": "A snapshot at a listed checkpoint shows exactly the data of that checkpoint", "statement": "Reading through a snapshot that was opened at a checkpoint of the list returns, for every key, its latest write up to the checkpoint, and keeps doing so while flushes and compactions run.", "quantifier": "every sequence of writes, checkpoints, syncs, flushes and compactions before and after the snapshot is opened, every key", "why_tests_cant": "Depends on the log files and tables that exist when the snapshot is opened and when it is read.", "anchors": ["src/jungle.cc:281-317", "src/log_mgr.cc:385-450", "src/table_mgr.cc:505-531", "src/table_file.cc:545-602", "src/table_mgr.cc:559-656"]}
{"id": "C59", "title": "Every asynchronous flush request is answered exactly once", "statement": "The completion handler of every asynchronous flush request is called, and is called once, whatever other requests it is merged with, whichever thread carries it out, and also when the database is closed or the library is shut down first.", "quantifier": "every interleaving of requests, flusher threads, user operations, opening and closing of databases", "why_tests_cant": "A lost or doubled answer needs a particular interleaving of requests with the threads, close and shutdown.", "anchors": ["src/jungle.cc:487-556", "src/flusher.cc:30-76", "src/flusher.cc:139-296", "src/db_mgr.cc:245-278"]}
{"id": "C60", "title": "Throttling keeps its documented bounds", "statement": "The sleep time that log throttling imposes on writers never exceeds the configured maximum, is zero up to the configured start, is the maximum from the configured limit on, and never shrinks when there are more log files; compaction throttling with factor F keeps the share of working time at (100 - F) percent up to the millisecond.", "quantifier": "every setting of the throttling options, every number of log files, every elapsed time", "why_tests_cant": "Depends on integer division, wrap-around and truncation for all settings and counts.", "anchors": ["src/flusher.cc:104-137", "src/table_mgr.cc:1129-1146", "src/log_mgr.cc:552-565", "include/libjungle/db_config.h:785-866"]}
{"id": "C61", "title": "Background jobs never undo each other's work", "statement": "Whatever compactions, splits, merges and in-place compactions run at the same time, every lookup afterwards returns the newest value written for the key: no job writes into a table that another one has removed, and no job brings back a table that another one has replaced.", "quantifier": "every number of jobs of every kind, every interleaving of their steps (choosing a table, listing the tables next to it or below it, locking, working) with each other, with flushes and with explicitly requested compactions", "why_tests_cant": "The window between choosing a table and locking it is a few microseconds wide; a test with real threads practically never hits it.", "anchors": ["src/table_compaction.cc: compactLevelItr, compactInPlace", "src/table_split.cc: splitTableItr, mergeLevel", "src/table_compact_condition.cc: pickVictimTable, findLocalVictim", "src/table_helper.cc: TableLockHolder"]}
{"id": "C62", "title": "With direct I/O, flushed log entries load again", "statement": "With direct I/O enabled, when complete log entries are appended (in any pieces) and a flush succeeds, loading the log file returns exactly the entries written so far and reports success, for every buffer size, alignment and entry sizes; and entries that were flushed are still returned whatever is appended afterwards, also if the process dies in between.", "quantifier": "for all buffer and alignment sizes, all sequences of entries, all ways of cutting them into append calls, all points of interruption between calls", "why_tests_cant": "Whether the padding that a flush leaves is completely overwritten depends on every residue of the file length modulo the alignment; tests use one alignment and few lengths.", "anchors": ["src/fileops_directio.cc:353-507", "src/memtable.cc:964-1094", "src/log_file.cc:129-178"]}
{"id": "C63", "title": "With direct I/O, a successful sync makes the stream durable", "statement": "With direct I/O enabled, after a successful flush followed by a successful fsync, the whole logical byte stream written so far is durable, also after the file was truncated.", "quantifier": "for all sequences of append, flush, fsync and truncate calls and all sizes", "why_tests_cant": "Tests do not cut power; a skipped fsync has no visible effect without a crash.", "anchors": ["src/fileops_directio.cc:509-598"]}
{"id": "C64", "title": "With direct I/O, an interrupted append does not look like corruption", "statement": "With direct I/O enabled, if the process dies while log entries are being appended between two flushes, loading the log file afterwards returns the flushed entries and reports success or an incomplete tail, not a checksum error.", "quantifier": "for all entry sizes and interruption points", "why_tests_cant": "It depends on where an entry ends relative to the alignment unit (within 8 bytes of its end) and on when the process dies.", "anchors": ["src/fileops_directio.cc:353-422", "src/fileops_directio.cc:438-507", "src/memtable.cc:964-1094"]}
{"id": "C65", "title": "A failed rollback leaves the database as it was", "statement": "If a rollback of a log-section-only database reports an error, every record is readable as before, later writes are numbered as if the rollback had not been called, and a sync that reports success stores them.", "quantifier": "every reachable database, including an empty one, every target number", "why_tests_cant": "A test that expects an error code stops there; what later writes and syncs do after the error is rarely looked at.", "anchors": ["src/log_mgr.cc: LogMgr::rollback", "src/log_file.cc: LogFile::truncate", "src/memtable.cc: MemTable::flush"]}
{"id": "C66", "title": "Rolled-back records do not come back", "statement": "After a rollback has reported success, no record above the target is readable after the database is closed and opened again, or after a power failure.", "quantifier": "every log, target number and moment of failure after the rollback returned", "why_tests_cant": "A power failure cannot be produced by a unit test.", "anchors": ["src/log_mgr.cc: LogMgr::rollback", "src/log_file.cc: LogFile::truncate", "src/fileops_posix.cc: FileOpsPosix::ftruncate", "src/log_manifest.cc: LogManifest::load"]}
{"id": "C67", "title": "The log files of an open database stay on disk", "statement": "Whatever sequence of writes, flushes, rollbacks, and openings and closings of iterators and snapshots happens, every log file that belongs to the database is on disk under its name.", "quantifier": "every interleaving of these operations with the background removal of files", "why_tests_cant": "It takes an iterator that is open across a rollback and closed after further writes, or an unlucky moment of the background remover.", "anchors": ["src/log_mgr.cc: LogMgr::rollback", "src/log_mgr.cc: LogMgr::addNewLogFile", "src/log_manifest.h: LogFileInfo::doneInternal", "src/log_file.cc: LogFile::destroySelf", "src/db_mgr.cc: DBMgr::addFileToRemove", "src/cmd_handler.cc"]}
{"id": "C68", "title": "Closing and reopening keeps every record of a log-section-only database", "statement": "After a clean close and reopen of a log-section-only database in log-store mode, every record that was written is readable by key and by number.", "quantifier": "every history of writes (assigned or explicit ascending numbers), syncs, rollbacks, evictions and reopenings, every size of log files", "why_tests_cant": "Whether a file is kept at reopening depends on how its numbers continue those of the file before.", "anchors": ["src/log_manifest.cc: LogManifest::load", "src/log_mgr.cc: LogMgr::init", "src/log_mgr.cc: LogMgr::close", "src/memtable.cc: MemTable::load"]}
{"id": "C69", "title": "Rollback keeps the checkpoints up to its target", "statement": "After rolling back to sequence number s every checkpoint with a number up to s is still stored in the log.", "quantifier": "every log file content and every target", "why_tests_cant": "Only the checkpoint exactly at the target, written after its record, tells the difference.", "anchors": ["src/log_file.cc: LogFile::truncate", "src/memtable.cc: MemTable::findOffsetOfSeq", "src/memtable.cc: MemTable::checkpoint"]}
{"id": "C70", "title": "A number is given to one record only, also across close and reopen", "statement": "When a database is closed and opened again, or recovers from a crash, a write without a number of its own gets a number larger than that of every record that was acknowledged before and is still in the database.", "quantifier": "every sequence of writes, syncs, flushes, closes, crashes and reopenings", "why_tests_cant": "The numbers repeat only when a flush overtook the last sync before the close; tests sync before they close.", "anchors": ["src/log_mgr.cc: LogMgr::init", "src/log_mgr.cc: LogMgr::close", "src/log_mgr.cc: LogMgr::flush", "src/memtable.cc: MemTable::load"]}
{"id": "C71", "title": "A write acknowledged after reopening is readable, and durable once synced", "statement": "After any close or crash and a successful reopening, a write or batch that is acknowledged can be read back at once; if a later sync returns OK it can still be read after the next close and reopening.", "quantifier": "every history before the reopening and every write after it", "why_tests_cant": "Needs a particular history before the reopening: a flush beyond the last sync, or a crash in the middle of a log write.", "anchors": ["src/log_mgr.cc: LogMgr::setMultiInternal", "src/log_file.cc: LogFile::flushMemTable", "src/memtable.cc: MemTable::load", "src/log_manifest.cc: LogManifest::load"]}
{"id": "C72", "title": "What is readable after recovery stays readable through flushes", "statement": "A record that can be read after crash recovery can still be read, unless overwritten, after any number of successful syncs and flushes.", "quantifier": "every crash point, every recovered state, every sequence of syncs and flushes", "why_tests_cant": "The crash has to fall between writing the log file and storing the manifest.", "anchors": ["src/memtable.cc: MemTable::load", "src/memtable.cc: MemTable::getLogsToFlush", "src/log_mgr.cc: LogMgr::flush"]}
{"id": "C73", "title": "A crash during a flush loses nothing synced and keeps a prefix", "statement": "If the process dies in the middle of flushLogs, reopening recovers every synced record, and the recovered data is the effect of a prefix of the acknowledged writes.", "quantifier": "every state, every flush and every point of the flush at which the process dies", "why_tests_cant": "Needs a crash between the commit to the tables and the store of the log manifest, with particular readers or options.", "anchors": ["src/log_mgr.cc: LogMgr::flush", "src/log_manifest.cc: LogManifest::load", "src/log_mgr.cc: LogMgr::init"]}
{"id": "C74", "title": "Reads by number and snapshots work after crash recovery", "statement": "After crash recovery and any further writes, every acknowledged record not yet flushed is found by its number, and a snapshot can be opened and read.", "quantifier": "every crash between operations and every sequence of writes after it", "why_tests_cant": "The crash has to fall after a new log file was registered and before its first record was synced.", "anchors": ["src/log_manifest.cc: LogManifest::getLogFileInfoBySeq", "src/log_mgr.cc: LogMgr::addNewLogFile", "src/memtable.cc: MemTable::load", "src/log_mgr.cc: LogMgr::openSnapshot"]}
{"id": "C75", "title": "sync with fsync covers everything written before it", "statement": "When sync(true) returns OK, every record acknowledged before the call survives a power failure, including those that earlier calls of sync(false) had already written to the log files.", "quantifier": "every mixture of writes, sync(false), sync(true) and log file changes, every outcome of the power failure", "why_tests_cant": "Needs a power failure, and a log file completed by sync(false) before the next one was started.", "anchors": ["src/log_mgr.cc: LogMgr::syncInternal", "src/log_file.cc: LogFile::flushMemTable", "src/log_manifest.cc: LogManifest::store"]}
{"id": "C76", "title": "Any number of closes and crashes between calls: exactly the synced writes survive a crash, everything survives a close", "statement": "In the default mode, with flushes limited to synced records: every read returns the latest write that no crash took; closing and opening keeps every write; after a crash between two calls, or a power failure if every sync was called with fsync, opening succeeds and the content is exactly the effect of the writes acknowledged before the last sync, so that no batch is cut; numbers go on from the largest one present. Conditions: a crash that is followed by more than one write happens when every log file has a synced record and leaves no incomplete record; the database is not closed while empty or inside a batch.", "quantifier": "every sequence of writes, batches, syncs, flushes, checkpoints, closes and crashes, every number of log files, every outcome of a power failure", "why_tests_cant": "Each test crashes once, at a point of its own choosing; here recovered states are recovered from again.", "anchors": ["src/log_mgr.cc: LogMgr::init, LogMgr::syncInternal, LogMgr::flush, LogMgr::close", "src/log_manifest.cc: LogManifest::load, LogManifest::store", "src/log_file.cc: LogFile::load, LogFile::flushMemTable", "src/memtable.cc: MemTable::load, MemTable::flush"]}
{"id": "C77", "title": "A batch is all or nothing, also across a crash", "statement": "After a crash at any point and reopening, either every record of an acknowledged batch is there (unless overwritten) or none is.", "quantifier": "every run with batches of any size, every crash point, between calls, in a sync or in a flush", "why_tests_cant": "The crash has to fall between two records of one batch, in a write that is normally too short to be hit.", "anchors": ["include/libjungle/jungle.h:210 (\"The batch will be applied atomically (all or nothing)\")", "src/log_mgr.cc: LogMgr::setMulti, LogMgr::syncInternal", "src/memtable.cc: MemTable::flush", "src/log_file.cc: LogFile::flushMemTable"]}
{"id": "C78", "title": "Searches in the in-memory index while other threads insert and erase", "statement": "A search in the ordered index (exact, smaller, smaller-or-equal, greater-or-equal, and the step to the next entry) that runs while other threads insert and erase returns an entry that fits the query (for the step: that is not behind the entry it started from) and that was in the index at some moment of the call; and if an entry that fits was in the index during the whole call, the search returns one at least as near to the query. A search always ends with an answer, never by following a null pointer.", "quantifier": "any number of threads, every interleaving of their single memory steps, any keys, any number of layers, any history of insertions, erasures and searches", "why_tests_cant": "The bad schedules are a handful out of astronomically many and depend on preemption between two instructions.", "anchors": ["src/skiplist.cc: _sl_next 293-362, skiplist_find 599-670, skiplist_next 947-981", "src/memtable.cc: getRecordByKey, getNearest (readers run beside writers)", "src/log_manifest.cc, src/table_manifest.cc: lists of files"]}
{"id": "C79", "title": "Concurrent insertions and erasures in the in-memory index", "statement": "An insertion that reports success put its entry in the index at a moment of the call; an insertion that reports a duplicate met another entry with the same key that was there during the call; an erasure that reports success took the entry out at a moment of the call. At no time are there two entries with the same key, every entry inserted and not erased is reached from the head in key order, and when no call is under way no node is left locked.", "quantifier": "any number of threads, every interleaving of single memory steps, any keys and layers, compare-and-swap that fails only when the values differ", "why_tests_cant": "Two threads inserting the same key, or neighbours, at the same time: needs particular preemption points.", "anchors": ["src/skiplist.cc: _skiplist_insert 403-575, skiplist_erase_node_passive 690-883", "src/memtable.cc: addToByKeyIndex (insert_nodup)"]}
{"id": "C80", "title": "Walking the in-memory index moves forward", "statement": "Stepping to the next entry returns an entry with a greater key, also while other threads erase entries, so a walk over the index visits no entry twice.", "quantifier": "any number of threads, every interleaving, any keys", "why_tests_cant": "The walk has to step exactly between two stores of an erasure of the next entry.", "anchors": ["src/skiplist.cc: skiplist_next 947-981, _skiplist_find 599-670 (GT)", "src/log_manifest.cc: getLogFileInfoRange, storeInternal", "src/table_manifest.cc: walks over levels and tables"]}
{"id": "C81", "title": "Erasing from the in-memory index and freeing what was erased is safe", "statement": "No call on the index uses memory that was not set or was freed after the index said that it may be freed, and an entry that was erased and is no longer used can be freed eventually.", "quantifier": "any number of threads, every interleaving, any keys and layers", "why_tests_cant": "Needs two insertions to overlap in a few instructions and a later erasure, or an erasure and a free inside another thread's search.", "anchors": ["src/skiplist.cc: _skiplist_insert 445-575, skiplist_erase_node_passive 690-883, skiplist_is_safe_to_free 916, skiplist_wait_for_free 921-930"]}
{"id": "C82", "title": "The in-memory index works with compare-and-swap as the language defines it", "statement": "The guarantees of C79 also hold when a weak compare-and-swap fails although the values agree, as the standard lets it.", "quantifier": "every run in which any compare-and-swap may fail spuriously", "why_tests_cant": "Does not happen on x86; on other machines it is rare and cannot be provoked.", "anchors": ["src/skiplist.cc:61, 86-90 (compare_exchange_weak) and every use of ATM_CAS"]}
{"id": "C83", "title": "The lock of an index node excludes writers from readers and other writers", "statement": "At most one thread holds a node of the index for writing, no thread holds it for reading meanwhile, the lock word never overflows its 32 bits, and it is zero again when nobody holds it.", "quantifier": "every interleaving of up to 4095 threads that take and give back the lock in both ways", "why_tests_cant": "The lock word is touched in separate steps; a violation needs exact timing.", "anchors": ["src/skiplist.cc: _sl_read_lock_an 238-260, _sl_write_lock_an 262-290"]}
{"id": "C84", "title": "Short corruption across the border of two fields of a record", "statement": "If at most 32 consecutive bits of a stored record are damaged, also when the damage reaches from one field into the next (from a checksum into the bytes it covers, or from the lengths into a checksum), reading the record back reports an error and never returns different data.", "quantifier": "every record, every error pattern confined to 32 consecutive bits that touches two neighbouring fields", "why_tests_cant": "An undetected pattern is one out of 2^32 for a position and exists only for some lengths.", "anchors": ["src/memtable.cc: MemTable::flush (record layout), MemTable::loadRecord", "src/crc32.cc: crc32_8"]}
{"id": "C85", "title": "The merge order of an iterator's sources is a correct ordered set", "statement": "The ordered tree in which iterators keep one entry for each source they merge holds, after any sequence of insertions and removals, exactly the entries inserted and not removed, at most one for each key; walking it forwards or backwards gives them in the order of the comparison function or in the opposite order; a search gives the entry with an equal key, the least entry not smaller or the greatest entry not greater, or none; no null pointer is followed and no balance factor leaves its two bits.", "quantifier": "every comparison function that is an ordering, every sequence of insertions and removals that inserts a node only while it is out of the tree, every initial content of the nodes", "why_tests_cant": "Which of the rotations run, and whether the balance bits stay right afterwards, depends on the whole history; tests visit a few shapes.", "anchors": ["src/avltree.cc", "src/iterator.cc", "src/log_iterator.cc"]}
{"id": "C86", "title": "Logarithmic cost of the merge step", "statement": "In the ordered tree that iterators use, each loop of an insertion, removal, search or step takes at most 2 log2(n + 1) + 2 rounds when the tree has n entries, and an insertion says truly whether an entry with an equal key was there already.", "quantifier": "every history of the tree, every further call", "why_tests_cant": "A lost balance factor makes calls slow only after particular histories and never makes a result wrong.", "anchors": ["src/avltree.cc"]}
{"id": "C87", "title": "A handle from open is usable until its owner closes it", "statement": "If several threads of a process open and close the database of one path, each open that reports success yields a handle that is not null, and the object behind it exists until the thread that got the handle closes it.", "quantifier": "for all numbers of threads and all interleavings of their opens and closes", "why_tests_cant": "The windows are between two atomic instructions of different threads; a test hits them at random if at all.", "anchors": ["src/db_mgr.cc:297-372", "src/jungle.cc:50-188", "src/jungle.cc:256-279"]}
{"id": "C88", "title": "The last close closes the database", "statement": "After every handle of a path has been closed and no call is running, the database object is gone (files closed, background work ended), and a later open starts afresh.", "quantifier": "for all numbers of threads and all interleavings of their opens and closes, and any failures a weak compare-and-swap may have", "why_tests_cant": "Two closes at the same time, and spurious failures of a compare-and-swap, cannot be provoked by a test at will; the leak shows no error.", "anchors": ["src/db_mgr.cc:342-372", "src/jungle.cc:256-279"]}
{"id": "C89", "title": "Waking a background worker is never lost", "statement": "After a call that wakes a started worker (flusher, compactor, log reclaimer) has returned, the worker starts a pass that began after the call, without waiting for its timer, whatever other threads wake it at the same time. Assumes that no compare-and-swap fails spuriously (see C92).", "quantifier": "for all numbers of threads that wake the worker, all interleavings with the steps of the worker, and all spurious wake-ups", "why_tests_cant": "The windows are single instructions between going to sleep and being woken; a lost wake-up shows only as a delay until the timer.", "anchors": ["src/event_awaiter.h:39-90", "src/worker_mgr.cc:39-99"]}
{"id": "C90", "title": "Workers end when told to", "statement": "A worker told to terminate and then woken ends in a bounded number of its own steps and starts at most one more pass, whatever it was doing; shutdown does not hang on it or have to wait for its timer.", "quantifier": "for all states of the worker and all interleavings, spurious failures included", "why_tests_cant": "A test ends workers in the few states it happens to be in.", "anchors": ["src/worker_mgr.cc:39-119", "src/event_awaiter.h:39-90"]}
{"id": "C91", "title": "An asynchronous flush without delay does not wait for a timer", "statement": "A flush requested asynchronously without a delay is taken up by the worker in a number of its steps bounded by the number of requests waiting, without waiting for a timer.", "quantifier": "for all numbers of requesting threads and databases and all interleavings", "why_tests_cant": "The request is served late, not never: tests with time limits above the timer period do not notice.", "anchors": ["src/jungle.cc:490-556", "src/flusher.cc:38-76", "src/flusher.cc:139-296"]}
{"id": "C92", "title": "Spurious failures of a compare-and-swap do no lasting harm to workers", "statement": "If a weak compare-and-swap of a worker's loop or of its start fails spuriously, as the language allows, no wake-up is lost and the worker goes on working.", "quantifier": "for all points at which a spurious failure can happen", "why_tests_cant": "On the processors used for testing, spurious failures do not happen.", "anchors": ["src/worker_mgr.cc:74-99"]}
{"id": "C93", "title": "Idle background threads sleep", "statement": "A background thread with nothing to do sleeps; the number of threads created for reclaiming log files is one.", "quantifier": "for all states of a worker and all interleavings of the threads that open databases", "why_tests_cant": "A thread that takes a processor for ever does not fail any test.", "anchors": ["src/worker_mgr.cc:39-99", "src/worker_mgr.cc:144-157", "src/db_mgr.cc:280-295", "src/log_manifest.cc:205-216"]}
{"id": "C94", "title": "Parallel writes cover every piece exactly once", "statement": "When a flush into partitions, a level compaction or a split divides its work among the shared pool of table writers, every piece of the work that has a target is written exactly once before the call ends, and no piece is ever written twice, however many writers there are, however many calls compete for them and however the threads interleave.", "quantifier": "all numbers of writers, calls, pieces and writers per job; all interleavings of all threads; calls that are cancelled half way", "why_tests_cant": "lost or doubled pieces would depend on the moment a writer wakes up, looks at its payload and is leased to another call; a test sees a handful of the interleavings", "anchors": ["src/table_writer.cc:97-175", "src/table_writer.h:98-138", "src/table_set_batch.cc:215-291", "src/table_compaction.cc:415-491", "src/table_split.cc:254-317", "src/db_config.cc:46-67"]}
{"id": "C95", "title": "Leased table writers are exclusive and never work for a call that has returned", "statement": "A table writer is leased to at most one call at a time and returned afterwards; while it writes, its instructions do not change and the call whose data it uses has not returned (also when the call is cancelled); it never starts with empty instructions; and when no call is active all writers are free.", "quantifier": "all numbers of writers and calls; all interleavings", "why_tests_cant": "a writer that outlives its call uses freed memory, visible only under unlucky timing", "anchors": ["src/table_writer.cc:97-151", "src/table_writer.h:98-138,206-221", "src/table_set_batch.cc:274-281", "src/table_compaction.cc:474-488"]}
{"id": "C96", "title": "No flush, compaction or split is stuck for want of table writers", "statement": "From every state, a call that is under way can finish by its own steps and those of the writers leased to it, without waiting for any other call, even if the pool is empty or all writers are leased for ever.", "quantifier": "all reachable states; all numbers of writers and calls", "why_tests_cant": "absence of deadlock concerns all interleavings", "anchors": ["src/table_writer.cc:97-114", "src/table_set_batch.cc:216-224"]}
{"id": "C97", "title": "The list of named databases of a group survives being written and read", "statement": "Writing the list of the databases of a group, with their names and numbers, over whatever the file held before, and reading it back gives the same list: every name opened so far is known and no other.", "quantifier": "all lists of distinct names of 1 to 255 bytes without zero bytes, all old file contents", "why_tests_cant": "the list may have any length and names any content; tests use a handful of names", "anchors": ["src/db_manifest.cc:70-170", "src/db_manifest.cc:173-230", "src/db_group.cc"]}
{"id": "C98", "title": "A name of a group denotes one database for ever", "statement": "In a group of databases, a name given to openDB always leads to the same files, across any sequence of openings, closings and crashes, and two different names never lead to the same files; opening the group never touches memory outside its buffers.", "quantifier": "all names, all histories of opening named databases, closing and reopening the group, and crashing", "why_tests_cant": "needs names with special bytes or unusual length, or a crash at one instant of adding a name", "anchors": ["src/db_manifest.cc:70-230", "src/db_group.cc", "src/jungle.cc:85-137"]}
{"id": "C99", "title": "A database built from sorted records holds exactly those records", "statement": "After giving the builder any number of records with distinct non-empty keys in ascending order and committing, every record reads back with its value and metadata and no other key is found, however the records were spread over table files; and this stays so, together with later writes, through later flushes, compactions, splits, merges and reopenings.", "quantifier": "all lists of records with ascending keys, all table size limits, all partition counts, all later histories", "why_tests_cant": "depends on where the file boundaries fall relative to the keys and on later compactions routing by the smallest keys that the builder recorded", "anchors": ["src/jungle_builder.cc:27-114", "src/jungle_builder.cc:147-289", "src/table_manifest.cc:610-653"]}
{"id": "C100", "title": "A database built from records holds them whatever their order", "statement": "The builder accepts records in any order; after commit, every record reads back.", "quantifier": "all lists of records with distinct non-empty keys", "why_tests_cant": "records in one file hide the fault; it needs unsorted records over a file boundary", "anchors": ["src/jungle_builder.cc:147-289", "include/libjungle/jungle_builder.h"]}
{"id": "C101", "title": "A database assembled from table files holds what is in them", "statement": "Given table files with disjoint key ranges, described truthfully by number, smallest key and largest sequence number, the assembled database finds exactly the records in the files, also after later writes and compactions.", "quantifier": "all sets of table files with disjoint ranges, all numbers, all orders in the list, all later histories", "why_tests_cant": "depends on which number the file with the smallest keys has", "anchors": ["src/jungle_builder.cc:27-114", "include/libjungle/jungle_builder.h:36-80"]}
{"id": "C102", "title": "Sequence numbers of a built database are distinct and below later ones", "statement": "All records of a built database have different sequence numbers, and a record written later gets a larger one.", "quantifier": "all lists of records with ascending keys, with or without given sequence numbers", "why_tests_cant": "needs records with and without given numbers in one build", "anchors": ["src/jungle_builder.cc:101-110", "src/jungle_builder.cc:233-235", "src/jungle_builder.cc:250-281"]}
{"id": "C103", "title": "A delayed flush request's timer fires once, not early, and not after cancellation", "statement": "The timer set for a delayed asynchronous flush fires at most once, only after the whole delay since it was set, and never if closing the database cancelled it.", "quantifier": "all interleavings of setting timers on any number of databases, passes of the timer thread, executing callbacks, and closing", "why_tests_cant": "needs races between the timer thread, requests and close", "anchors": ["src/simple_thread_pool.h:108-286", "src/simple_thread_pool.h:467-606", "src/jungle.cc:486-555", "src/jungle.cc:1016-1030"]}
{"id": "C104", "title": "No timer is forgotten and the timer thread is well defined", "statement": "A timer that was set stays pending until it fires or is cancelled; a pass of the timer thread that finds a timer due starts one, and has no undefined behaviour.", "quantifier": "all interleavings of setting, cancelling, firing", "why_tests_cant": "the bad step needs a cancelled timer last in the list, and does no visible harm with the usual library", "anchors": ["src/simple_thread_pool.h:467-606"]}
{"id": "C105", "title": "A timer is not late because of another timer", "statement": "When the timer thread goes to sleep, it wakes up before the next timer is due.", "quantifier": "all sets of timers of several databases", "why_tests_cant": "needs two timers due at about the same time and a measurement of when the second fires", "anchors": ["src/simple_thread_pool.h:467-606"]}
{"id": "C106", "title": "Closing a database is safe while its delayed flush fires", "statement": "The callback of a delayed flush does not use memory of a database after closing it freed that memory.", "quantifier": "all interleavings of the callback with close", "why_tests_cant": "needs close to fall between the start of the callback and its use of the logger", "anchors": ["src/jungle.cc:535-549", "src/jungle.cc:1016-1052", "src/simple_thread_pool.h:197-231"]}
{"id": "C107", "title": "A delayed flush request is followed by a wake-up of the flusher", "statement": "After a delayed asynchronous flush request on an open database, the flusher is woken, or a timer or callback that will wake it is pending.", "quantifier": "all interleavings of requests with the timer thread", "why_tests_cant": "needs a request to fall between the wake-up and the end of the callback", "anchors": ["src/jungle.cc:518-549", "src/simple_thread_pool.h:197-231"]}
{"id": "C108", "title": "Changing the number of level-0 partitions keeps every record", "statement": "Opening an existing database with a different number of level-0 partitions makes every key readable with the newest version that was flushed (a deleted key may be reported as not found), whatever flushes, compactions, splits, merges, reopenings and earlier changes or attempted changes preceded, and for any later history; a change that is cut short at any point leaves the database readable with the old number; a change that runs to the end leaves exactly one empty table for each new partition. This assumes that within each partition that has two tables (because a compaction was cut short by a close) the older one is listed first, which is so at the first opening after that close.", "quantifier": "for all configurations, all numbers of partitions, all partition and hash functions, all histories with any number of changes, all decisions of the compactions about full tables and all keys", "why_tests_cant": "The result depends on the contents of all tables, on the point at which earlier compactions were cut short and on the order in which the tables of one partition are listed; tests change the number on one small database that was closed cleanly.", "anchors": ["src/table_mgr.cc:252-265", "src/table_mgr.cc:325-445", "src/table_compaction.cc:29-579", "src/table_manifest.cc:552-608"]}
{"id": "C109", "title": "A change of the number of level-0 partitions never brings an old version back", "statement": "Opening a database with a different number of level-0 partitions makes every key readable with the newest version that was flushed, also if the database was opened and closed any number of times, and changes were cut short any number of times, while one partition had two tables.", "quantifier": "for all histories of flushes, compactions, reopenings and interrupted changes", "why_tests_cant": "It needs a close in the middle of a compaction, a second reopening with a store of the manifest in between (or a crash during the change) and a key that is in both tables; each reopening reverses the order of the tables.", "anchors": ["src/table_mgr.cc:325-445", "src/table_compaction.cc:514", "src/table_compaction.cc:546", "src/table_manifest.cc:552-608"]}
{"id": "C110", "title": "Sample keys are different keys of the database", "statement": "getSampleKeys returns keys without duplicates, at most as many as requested, each of them the key of a record in the database, and with liveKeysOnly each of them existing when it was looked up; it needs at most as many rounds as samples were requested.", "quantifier": "for all contents of the database, all numbers of samples, and any writes by others meanwhile", "why_tests_cant": "Duplicates depend on overwritten keys near the sampling points and on how the step is adapted; tests only count the samples of one database.", "anchors": ["src/sampler.cc:9-109", "include/libjungle/jungle.h:575-588", "include/libjungle/params.h:178-197"]}
{"id": "C111", "title": "A database in which no key was overwritten yields as many samples as requested", "statement": "If every sequence number belongs to a different key (and, with liveKeysOnly, all of them exist), getSampleKeys returns exactly the requested number of keys, at a fixed distance from each other in the order of insertion.", "quantifier": "for all numbers of keys and all numbers of samples up to it", "why_tests_cant": "The step is a rounded quotient and is recomputed on the way; tests use 10000 keys and 100 samples, where everything divides.", "anchors": ["src/sampler.cc:26-32", "src/sampler.cc:91-103"]}
{"id": "C112", "title": "A lookup is not disturbed by flushes and compactions that run at the same time", "statement": "While other threads flush and compact, a lookup of a key that is in the tables returns a version of it that was the newest one at some moment between the call and the return; in particular, a key that exists all the time is never reported as not found, and a lookup never succeeds without a record.", "quantifier": "for all histories before the call, all operations of other threads and all interleavings of them with the steps of the lookup", "why_tests_cant": "Needs the compaction to finish between two particular statements of the lookup; a stress test would have to hit the window and to know which versions were current.", "anchors": ["src/table_mgr.cc:559-656", "src/table_mgr.cc:827-842", "src/table_manifest.cc:610-653"]}
{"id": "C113", "title": "Tables that are found to overlap are searched completely, and their repair loses nothing", "statement": "If the key ranges of tables of one level overlap (which the code detects when it opens the database and repairs later), a lookup in the level still returns the newest version of the key that any of its tables has, right after opening and during and after the repair.", "quantifier": "for all contents of the tables, all orders of repairs, all moments at which they are given up", "why_tests_cant": "Tests write tables in order; overlapping tables appear only after an earlier fault, and the interesting cases need particular positions of keys in three tables.", "anchors": ["src/table_manifest.cc:174-260", "src/table_manifest.cc:626-650", "src/table_split.cc:519-680"]}
{"id": "C114", "title": "A crash during the repair of overlapping tables loses nothing", "statement": "After a crash at any moment of the repair of overlapping tables, and the next opening, a lookup returns the newest version of the key that was in the tables before the repair.", "quantifier": "for all contents of the tables and all moments of the crash", "why_tests_cant": "Needs a crash between two commits.", "anchors": ["src/table_split.cc:598-660"]}
{"id": "C115", "title": "A read-only handle changes nothing and reads the same", "statement": "A handle opened with the read-only option refuses every modifying call, leaves the files of the database exactly as they were from opening to closing, and answers every read as a handle opened for writing on the same directory would; after a close or a crash of the writer these are the values of the last stored writes.", "quantifier": "for all directories left by any sequence of writes, syncs, flushes, closes and crashes, all sequences of calls on the read-only handle and all keys", "why_tests_cant": "A test checks that one set fails on one read-only handle; it does not compare the files before and after every combination of calls, nor after every kind of crash.", "anchors": ["src/jungle.cc:50-183", "src/log_mgr.cc:1206", "src/log_mgr.cc:1361-1593", "include/libjungle/db_config.h:425-428"]}
{"id": "C116", "title": "A read-only handle of another process does not disturb the writer", "statement": "While one process writes a database, another may open it read-only and call anything on that handle: no acknowledged and synced write of the writer is lost at the next opening because of it.", "quantifier": "for all interleavings of a writer and a read-only handle on the same directory, and all keys", "why_tests_cant": "Needs two processes and a crash between particular steps; tests run in one process, where a second open returns the first handle.", "anchors": ["src/log_mgr.cc:1361-1593", "src/log_mgr.cc:333-375", "src/log_manifest.cc:490-586"]}
{"id": "C117", "title": "Freeing and reloading memtables is invisible in log-store mode", "statement": "In log-store mode (logSectionOnly) the log reclaimer frees memtables of synced log files and later reads load them again. Whatever it frees and whenever, every write, sync, get and getSN answers as if nothing had ever been freed, a get returns the last write of its key, every record can be read by its number, the files on disk are the same, and no freed memtable is accessed.", "quantifier": "for all sequences of writes, batches, syncs, reads by key and by number and evictions, one call at a time, all keys and records, all configurations of log-store mode", "why_tests_cant": "Eviction is driven by age and a background thread; tests see one or two evictions with short logs.", "anchors": ["src/log_manifest.cc:35-150", "src/log_file.cc:180-259", "src/log_file.cc:532-570", "src/log_mgr.cc:833-900"]}
{"id": "C118", "title": "Snapshots read safely in log-store mode", "statement": "In log-store mode a get through an open snapshot returns the last write of the key at or before the snapshot, also when memtables have been freed since or before.", "quantifier": "for all runs with evictions, all snapshots and keys", "why_tests_cant": "Needs the background reclaimer to run between two calls on a snapshot; no test combines snapshots with logSectionOnly.", "anchors": ["src/log_mgr.cc:872-884", "src/log_manifest.cc:694-709", "src/log_file.cc:363-374"]}
{"id": "C119", "title": "A sync made while other threads write is still a sync", "statement": "When sync returns OK, every write acknowledged before that call of sync began survives a later crash or close, whatever other threads wrote while it or earlier syncs were running; after a crash at any moment the database shows an initial part of the acknowledged writes that includes them; and reads during a sync see every acknowledged write.", "quantifier": "for all interleavings of writes, batches, steps of syncs and flushes, all crash points", "why_tests_cant": "The window is a few instructions between flushing an empty log file and marking it; tests that sync and write from several threads almost never hit it, and the loss shows only after a crash or reopening.", "anchors": ["src/log_mgr.cc:1198-1310", "src/log_file.cc:404-521", "src/log_file.cc:627-647", "src/log_mgr.cc:489-550"]}
{"id": "C120", "title": "Batches stay atomic under concurrent syncs", "statement": "If the process dies while setRecordBatch is in progress and another thread syncs, then after reopening either all records of the batch are visible or none.", "quantifier": "for all interleavings of one batch with syncs, all crash points", "why_tests_cant": "Needs a sync whose steps surround the beginning of a batch, and a crash before its end; no test kills the process between two steps of two threads.", "anchors": ["src/log_mgr.cc:1261", "src/log_mgr.cc:1198-1310", "src/log_file.cc:404-521"]}
{"id": "C121", "title": "Overwriting by sequence number during a sync", "statement": "With allowOverwriteSeqNum, when an overwrite has been acknowledged and a sync that begins afterwards returns OK, the new version survives a crash.", "quantifier": "for all interleavings of overwrites with the steps of syncs", "why_tests_cant": "Tests overwrite and sync in one thread; the loss needs an overwrite of an old log file while a sync is past that file.", "anchors": ["src/log_mgr.cc:655-670", "src/log_file.cc:331-356", "src/log_mgr.cc:1281-1309"]}
{"id": "C122", "title": "A get is atomic beside writers and a flush", "statement": "A get that runs while other threads write single records and one flushes the log to the tables returns the value the key had at one moment between the begin and the end of the get: it never misses a write acknowledged before it began, never returns a value that was already replaced then, and never finds nothing because the record is just moving from the log to the tables.", "quantifier": "every sequence of writes (increasing sequence numbers), of flushes up to any written record, of log files being filled, and every interleaving of the atomic steps of the get, the flush and the writers", "why_tests_cant": "The windows are between two loads of a few fields; a stress test hits a few of the interleavings and cannot tell a stale answer from a legal one without the order of events.", "anchors": ["src/jungle.cc:635-672", "src/log_mgr.cc:859-938", "src/log_mgr.cc:1361-1590", "src/log_manifest.cc:711-740"]}
{"id": "C123", "title": "A batch is visible as a whole or not at all to concurrent gets", "statement": "A get that runs while a batch is being written, with any flush of the log beside it, answers from the acknowledged data of one moment between its begin and its end, in which the batch is contained as a whole or not at all.", "quantifier": "every batch, every interleaving of the atomic steps of batches, writes, a flush and a get", "why_tests_cant": "The races are a few instructions wide and depend on three threads.", "anchors": ["src/log_mgr.cc:692-724", "src/log_mgr.cc:909-936", "src/log_mgr.cc:1401-1437"]}
{"id": "C124", "title": "sync and flushLogs may be called from different threads", "statement": "If one thread calls sync and another calls flushLogs at the same time, both calls and all later ones return a status, the process does not crash, and reads go on seeing every acknowledged write.", "quantifier": "every sequence of writes, every point of the sync at which the flush runs, flushes below and beyond the last sync", "why_tests_cant": "sync and flushLogs hold different locks; the harmful order needs two log file switches inside one sync.", "anchors": ["src/log_mgr.cc:1198-1310", "src/log_mgr.cc:1361-1590", "src/log_manifest.cc:802-808"]}
{"id": "C125", "title": "SizedBuf programs that follow the header's rules are memory-safe", "statement": "A program that uses SizedBuf as its header says (free or move an owner before it gets something else, do not duplicate an owner with operator= or set, claim ownership only of memory nobody owns) never frees memory twice or with the wrong function, never uses freed memory through an owner, and leaks nothing: every allocated block has exactly one owner at all times, and free() releases it.", "quantifier": "every sequence of constructor, set, alloc, operator=, moveTo, copyTo, referTo, free, resize, clear and byte writes, over any number of buffers", "why_tests_cant": "The number of call sequences and aliasings is unbounded; double frees often go unnoticed at run time.", "anchors": ["include/libjungle/sized_buf.h:28-160", "include/libjungle/sized_buf.h:283-494"]}
{"id": "C126", "title": "A SizedBuf stands for all the bytes it was made from", "statement": "A SizedBuf made from (size, pointer) by a constructor, set or alloc stands for exactly the first size bytes there; resize(n) keeps the common prefix and gives n bytes.", "quantifier": "all sizes of type size_t, all contents", "why_tests_cant": "Tests do not use buffers of 4 GiB or more.", "anchors": ["include/libjungle/sized_buf.h:313-317", "include/libjungle/sized_buf.h:374-413", "include/libjungle/sized_buf.h:486-489"]}
{"id": "C127", "title": "A cloned SizedBuf is independent of its source", "statement": "After copyTo, the destination has the same bytes as the source had, and keeps them whatever is done to the source and to other buffers, including freeing and writing, as long as the destination itself is left alone; writing to the copy does not change the source. What a buffer owns is changed by no call on other buffers that do not point into it. moveTo transfers bytes and ownership and leaves the source empty.", "quantifier": "every state a rule-following program reaches, and every continuation of it", "why_tests_cant": "Aliasing shows only for particular sequences of later calls.", "anchors": ["include/libjungle/sized_buf.h:128-160", "include/libjungle/sized_buf.h:326-328", "include/libjungle/sized_buf.h:374-394"]}
{"id": "C128", "title": "Record::clone into an empty record gives a full copy and leaks nothing", "statement": "Calling clone on a record for which empty() holds returns OK, gives it the key, value and metadata of the source, and after free() on it the memory is as before. moveTo transfers all three parts and leaves the source empty.", "quantifier": "all records and all memory states", "why_tests_cant": "Leaks are not observed by functional tests.", "anchors": ["include/libjungle/record.h:97-166", "include/libjungle/keyvalue.h:112-127", "include/libjungle/keyvalue.h:214-217"]}
{"id": "C129", "title": "A rollback interrupted by the death of the process has happened or has not", "statement": "If the process dies while rollback(n) runs on a log-section-only database, then after the next open all reads, by key and by sequence number, are those of the log before the call or those of the log with exactly the records up to n. In no case is a record up to n lost.", "quantifier": "all reachable databases with consecutive numbers, all n with a record, every moment between two writes of rollback", "why_tests_cant": "The moment of death would have to be forced between two system calls, for every layout of the log files.", "anchors": ["src/log_mgr.cc:226-331", "src/log_file.cc:261-324", "src/log_manifest.cc:296-449"]}
{"id": "C130", "title": "discardDirty takes back exactly the unsynced writes from a number on", "statement": "If discardDirty(n) succeeds, every later read, by key, by sequence number, by iterator or by nearest-key search, answers as if the unsynced writes numbered n and above had not been made. Synced writes stay readable, and a snapshot opened before the call keeps its contents.", "quantifier": "all sequences of writes, batches, syncs, flushes and checkpoints before the call, all n, all keys", "why_tests_cant": "The layout of keys over log files, what was synced and the number given are all free; an empty node is only met by an iterator that passes it.", "anchors": ["include/libjungle/jungle.h:468-475", "src/jungle.cc:465-470", "src/log_mgr.cc:1312-1359", "src/memtable.cc:515-562", "src/memtable.cc:105-125"]}
{"id": "C131", "title": "The handles of a group work until their owner closes them, in any order", "statement": "A handle from DBGroup::open, from its openDefaultDB or openDB, or from DB::open of the same path can be used until its owner closes it, in whatever order other handles are closed. Two handles from openDB are the same database if and only if the names are the same. When every handle is closed, every database is closed and a later open starts afresh. DBGroup::open is refused exactly while the path is open by DB::open.", "quantifier": "all sequences of opens, uses and closes of groups, default, named and direct handles, all names", "why_tests_cant": "The order of closes is the caller's; a read of deleted memory shows no error in a test, and a database left open shows only at the next open.", "anchors": ["src/db_group.cc:19-165", "src/jungle.cc:256-279", "src/jungle.cc:1015-1050", "src/db_mgr.cc:297-372"]}
{"id": "C132", "title": "The smallest number and the number of records reported for the log section are right", "statement": "getMinSeqNum returns the smallest sequence number of a write that is in the log section (acknowledged and not flushed), and LOG_NOT_EXIST exactly if there is none; getLastFlushedSeqNum is the number up to which writes are in the tables; the records of the log that getStats counts are as many as there are.", "quantifier": "all sequences of writes, batches, syncs, flushes and checkpoints, all layouts over log files", "why_tests_cant": "The answer depends on which log file holds the mark and on gaps in the numbers; tests look at a few layouts.", "anchors": ["include/libjungle/jungle.h:362-368", "src/log_mgr.cc:1800-1834", "src/log_mgr.cc:1873-1933", "src/jungle.cc:906-932"]}
{"id": "C133", "title": "Closing a database is safe while background workers are busy", "statement": "DB::close may be called at any time, also from the completion handler of an asynchronous flush: no background thread uses a database after it was freed, the close ends when the running jobs end, a queued flush request is executed only on the database it was made for, and other databases are not held up.", "quantifier": "all numbers of workers and databases, all interleavings of opens, requests, jobs, reclaims and closes", "why_tests_cant": "A use after free needs a particular interleaving of the closing thread with a worker, or a job that outlasts a ten-second wait; unit tests close idle databases.", "anchors": ["src/db_mgr.cc:342-372", "src/jungle.cc:1012-1069", "src/flusher.cc:139-296", "src/compactor.cc:102-270", "src/log_reclaimer.cc:51-78"]}
{"id": "C134", "title": "Numbers in the files are stored most significant byte first and read back as written", "statement": "A number stored in eight, four or two bytes has its most significant byte first; reading gives the number stored, and writing a number read gives the same bytes; files written on a little-endian and on a big-endian machine are the same; stored numbers compare as bytes as they compare as numbers.", "quantifier": "all 64-, 32- and 16-bit numbers and all byte strings of these lengths", "why_tests_cant": "There are 2^64 numbers, and the tests run on one kind of machine.", "anchors": ["src/endian_encode.h:60-117", "src/internal_helper.h:405-449"]}
{"id": "C135", "title": "Opening a path that another thread is opening does not harm what is synced", "statement": "When two threads call DB::open for the same path at once, both get the same handle; its calls answer as if only one had opened it, and a record that one of them has written and synced survives a kill of the process, also when the other one returns from DB::open later.", "quantifier": "all interleavings of the calls of the first thread with the load and the giving up of the second, all histories of the database", "why_tests_cant": "The loser of the race must be delayed until the winner has synced, and the process must die before the next sync; everything reads correctly until then.", "anchors": ["src/jungle.cc:55-176", "src/jungle.cc:1012-1050", "src/log_mgr.cc:2076-2131", "src/db_mgr.cc"]}
{"id": "C136", "title": "The compactor takes a table only for a configured reason, the worst first, and misses none", "statement": "In levels above 0, the background compactor splits a table only if its active data exceeds one and a half times the table limit, compacts one in place only if its file has reached compactionFactor percent of the active data and minFileSizeToCompact, and then the one with the highest percentage, merges only small tables that are neither first nor last; it does nothing only when no table needs work; tables that another job works on are left alone; with compactionFactor 0 nothing is compacted automatically.", "quantifier": "all levels: any number of tables, all sizes, locks and settings", "why_tests_cant": "Which table is chosen depends on the sizes of all tables and on what other jobs hold at the moment; tests see that some compaction happens.", "anchors": ["src/table_compact_condition.cc:36-345", "src/table_compact_condition.cc:649-760", "src/table_mgr.cc:88-108", "include/libjungle/db_config.h:301-337"]}
{"id": "C137", "title": "A partition of level 0 is compacted when and only when the settings call for it", "statement": "With compactionFactor 0, in read-only or log-only mode and when compaction is not allowed there is no automatic compaction of level 0; otherwise each one has a documented reason (stale data above the factor and the minimum size, active data above maxL0TableSize, block reuse, a compaction interrupted before), such reasons lead to a compaction, and when traffic is idle the factor for idle traffic counts.", "quantifier": "all settings, all sizes of one or two tables, all states of traffic, levels and requests", "why_tests_cant": "The decision combines about twenty settings and measurements; tests set up a few of them.", "anchors": ["src/table_compact_condition.cc:391-646", "src/table_compaction.cc:786-862", "include/libjungle/db_config.h:301-337", "include/libjungle/params.h:239-245"]}
{"id": "C138", "title": "How a record in a table is read does not depend on the records read before", "statement": "A record read from a table has the same type, value and user metadata whatever other records, of any database in the process, have been read before; damaged or foreign metadata affects only its own record.", "quantifier": "all sequences of documents with any metadata, all records written by the library", "why_tests_cant": "The dependence goes through a variable of the process; a test would have to plant a document the library does not write and then read others.", "anchors": ["src/internal_helper.h:41", "src/internal_helper.h:103-106", "src/internal_helper.cc:193-257", "src/table_file.cc:700-767"]}
