{
 "claims": [
  {
   "property": "C01",
   "status": "proved",
   "theorems": [
    "C01_accepted_modes",
    "C01_rejected_modes",
    "C01_standard_meaning",
    "C01_order_irrelevant"
   ],
   "note": "Over all strings of 8-bit characters, both before and after Python 3.11."
  },
  {
   "property": "C02",
   "status": "proved",
   "theorems": [
    "C02_equivalence_table"
   ],
   "note": ""
  },
  {
   "property": "C03",
   "status": "proved",
   "theorems": [
    "C01_accepted_modes",
    "C01_rejected_modes",
    "C03_advanced_meaning",
    "C01_order_irrelevant"
   ],
   "note": ""
  },
  {
   "property": "C04",
   "status": "proved",
   "theorems": [
    "C04_stdlib_agreement"
   ],
   "note": "Stdlib parser modelled from the _pyio backup shipped in the repository."
  },
  {
   "property": "C06",
   "status": "partial",
   "theorems": [
    "C06_split_join",
    "C06_join_split",
    "C06_negative_rejected",
    "C06_unsigned_signed_unsigned",
    "C06_signed_unsigned_signed",
    "C06_split_overflow",
    "C06_winerror_known",
    "C06_winerror_default",
    "C06_join_signed_partial",
    "C06_join_signed_refuted"
   ],
   "note": "Everything proved except 'joining accepts signed dwords', which is false of the code: refuted, with the exact condition under which it holds. pywin32 passes nFileIndexLow possibly negative."
  },
  {
   "property": "C41",
   "status": "proved",
   "theorems": [
    "C41_range_exact",
    "C41_range_infinite",
    "C41_pywin32_words"
   ],
   "note": ""
  },
  {
   "property": "C07",
   "status": "proved",
   "theorems": [
    "C07_granted_iff_no_common_byte",
    "C07_recorded_area"
   ],
   "note": ""
  },
  {
   "property": "C08",
   "status": "proved",
   "theorems": [
    "C08_table_invariant"
   ],
   "note": "Histories are arbitrary lists of registry calls including forks; the same invariant is re-proved inside the full multi-process model (see C11)."
  },
  {
   "property": "C09",
   "status": "partial",
   "theorems": [
    "C09_unlock_exact",
    "C09_unlock_not_owned_partial",
    "C09_unlock_not_owned_refuted"
   ],
   "note": "Exactness proved. 'Unlocking something not owned raises' is false when the file has no registry entry (silent success): refuted; proved when it has one."
  },
  {
   "property": "C10",
   "status": "partial",
   "theorems": [
    "C10_never_granted_twice",
    "C10_double_lock_raises_partial",
    "C10_double_lock_raises_refuted"
   ],
   "note": "Never granted: proved. RuntimeError is not raised when a conflicting lock of another handle precedes in the list (the call is reported busy and waits): refuted; proved otherwise."
  },
  {
   "property": "C11",
   "status": "proved",
   "theorems": [
    "C11_exclusive_exclusive",
    "C11_exclusive_is_enforced",
    "C11_same_process"
   ],
   "note": "Asynchronous model of any number of processes/threads/streams/files; kernel record locks per POSIX (M_Kernel). Descriptors of the file closed by code that does not use rsfile are outside the model."
  },
  {
   "property": "C12",
   "status": "partial",
   "theorems": [
    "C12_shared_vs_exclusive_partial",
    "C12_shared_vs_exclusive_refuted",
    "C11_same_process"
   ],
   "note": "False of the code: when two streams of one process share-lock a common byte, releasing one releases the kernel lock of both (refuted, with a run). Proved for runs in which no process takes overlapping shared locks through two streams."
  },
  {
   "property": "C13",
   "status": "partial",
   "theorems": [
    "C13_locks_survive_partial",
    "C13_only_owner_releases",
    "C13_locks_survive_refuted"
   ],
   "note": "Proved for exclusive locks in all runs, and for shared ones in runs without overlapping shared locks in one process; refuted otherwise."
  },
  {
   "property": "C14",
   "status": "proved",
   "theorems": [
    "C14_no_residual_lock",
    "C14_dead_process",
    "C14_critical_section_ends"
   ],
   "note": ""
  },
  {
   "property": "C15",
   "status": "partial",
   "theorems": [
    "C15_waiter_has_a_reason_partial",
    "C15_notified_proceeds",
    "C15_lost_wakeup_refuted"
   ],
   "note": "remove_file_locks (close) does not notify: lost wake-up refuted with a run. Proved when streams are unlocked before being closed."
  },
  {
   "property": "C16",
   "status": "proved",
   "theorems": [
    "C16_waiter_count",
    "C16_entry_kept"
   ],
   "note": ""
  },
  {
   "property": "C17",
   "status": "proved",
   "theorems": [
    "C17_child_owns_nothing",
    "C17_locks_out_of_reach",
    "C11_exclusive_is_enforced"
   ],
   "note": "Assumes the child's pid differs from the pid stored in the inherited registry."
  },
  {
   "property": "C18",
   "status": "partial",
   "theorems": [
    "C18_no_descriptor_left_partial",
    "C18_only_zombies_closed",
    "C18_streams_keep_their_descriptor",
    "C18_no_descriptor_left_refuted"
   ],
   "note": "Proved when all streams own their descriptors and the process is not a forked child; refuted with a closefd=False stream. A forked child leaks inherited pending descriptors."
  },
  {
   "property": "C23",
   "status": "proved",
   "theorems": [
    "C23_raw_refines_byte_array",
    "C23_raw_refines_byte_array_no_faults"
   ],
   "note": "Unix raw streams; the abstract machine is a byte array with a cursor, nondeterministic only in the number of bytes per call and in system failures."
  },
  {
   "property": "C24",
   "status": "proved",
   "theorems": [
    "C24_truncate",
    "C24_truncate_negative",
    "C24_truncate_failure"
   ],
   "note": "Unix."
  },
  {
   "property": "C25",
   "status": "proved",
   "theorems": [
    "C25_readall"
   ],
   "note": "Unix."
  },
  {
   "property": "C26",
   "status": "proved",
   "theorems": [
    "C26_append_write",
    "C26_append_concatenates"
   ],
   "note": "Other activity between two writes is arbitrary as long as others only append to the file."
  },
  {
   "property": "C27",
   "status": "proved",
   "theorems": [
    "C27_closed",
    "C27_access",
    "C27_close_idempotent"
   ],
   "note": ""
  },
  {
   "property": "C19",
   "status": "proved",
   "theorems": [
    "C19_failed_lock_no_trace",
    "C19_failed_lock_tables_unchanged"
   ],
   "note": "Sequential model with an arbitrary environment during every wait. 'Exactly as before' concerns the locks, pending descriptors and waiter counts; an empty registry entry may have been created. Non-terminating calls (EHang) raise nothing and are excluded."
  },
  {
   "property": "C20",
   "status": "proved",
   "theorems": [
    "C20_lock_timeout",
    "C20_lock_blocking",
    "C20_lock_enforced_timeout",
    "C20_lock_result_prefix",
    "C20_lock_available",
    "C20_lock_timeout_zero"
   ],
   "note": "For calls whose arguments are accepted and whose lock system calls do not themselves fail (a failing call, e.g. EINVAL for a negative absolute offset, is retried like a busy lock). Time is an integer; the clock may move arbitrarily, also backwards."
  },
  {
   "property": "C21",
   "status": "proved",
   "theorems": [
    "C21_lock_file_rejects",
    "C21_lock_file_wrong_kind",
    "C21_lock_file_closed",
    "C21_lock_file_default_share",
    "C21_lock_file_obtains"
   ],
   "note": ""
  },
  {
   "property": "C22",
   "status": "partial",
   "theorems": [
    "C22_with_lock_releases_partial",
    "C22_with_lock_exception_keeps",
    "C22_context_manager_releases_refuted"
   ],
   "note": "True when the block is left normally (system calls working, stream still open, lock not already released by the block). False when it is left by an exception: _lock_remover has no try/finally around its yield, so the lock stays; proved in general and by a witness."
  },
  {
   "property": "C05",
   "status": "proved",
   "theorems": [
    "C05_open_file_system",
    "C05_open_success",
    "C05_open_succeeds_iff",
    "C05_rsopen_entries"
   ],
   "note": "Unix. Permissions are not modelled (a refusal is an IoErr of open)."
  },
  {
   "property": "C28",
   "status": "proved",
   "theorems": [
    "C28_erase_only_under_lock",
    "C28_no_lock_no_erase",
    "C28_failed_lock_releases"
   ],
   "note": "Unix. Other processes may write during the waits; that is allowed for explicitly. The descriptor is released: closed, or kept pending if closing it would drop locks of other streams of the process."
  },
  {
   "property": "C29",
   "status": "partial",
   "theorems": [
    "C29_wrapping_keeps_files_partial",
    "C29_wrapping_never_erases_refuted"
   ],
   "note": "Proved for every descriptor but 0, in every way of giving it; refuted for descriptor 0 (0 is taken for absent)."
  },
  {
   "property": "C30",
   "status": "partial",
   "theorems": [
    "C30_open_failure_released",
    "C30_failed_rsopen_releases_partial",
    "C30_failed_rsopen_releases_refuted",
    "C30_unlock_error_refuted",
    "C30_descriptor_zero_refuted"
   ],
   "note": "Proved by path for non-directories, descriptor number not 0, unlock call of the final close working. Each of the three restrictions is shown necessary by a refutation."
  },
  {
   "property": "C31",
   "status": "partial",
   "theorems": [
    "C31_buffered_refines_byte_array_partial",
    "C31_one_way_streams_refine",
    "C31_truncate_refuted",
    "C31_failed_seek_refuted"
   ],
   "note": "Files not opened for appending (C68 has those). Streams that only read or only write: proved for all sequences of read/readall/peek/read1/write/seek/tell/flush/truncate, any buffer size and any short-count schedule. Read-write streams: proved for the sequences where truncate() and a failing seek do not follow a read that left read-ahead in the buffer; both are shown to give wrong results then. What the file holds after close is in C34."
  },
  {
   "property": "C32",
   "status": "proved",
   "theorems": [
    "C32_failing_flush"
   ],
   "note": "A write() that raises BlockingIOError says how much it took; one that raises another OSError may have accepted all of its data or none of it, and the theorem allows either."
  },
  {
   "property": "C33",
   "status": "proved",
   "theorems": [
    "C33_fresh_after_lock",
    "C33_buffers_dropped",
    "C33_fresh_after_lock_appending"
   ],
   "note": "C33_buffers_dropped holds in every state; C33_fresh_after_lock describes all later reads, for sequences of operations as in C31; C33_fresh_after_lock_appending is the same for append mode (machine of C68)."
  },
  {
   "property": "C34",
   "status": "partial",
   "theorems": [
    "C34_unlock_flushes_first",
    "C34_unlock_flushes_first_random",
    "C34_close_flushes_first_partial",
    "C34_unlock_flushes_first_appending",
    "C34_unlock_flushes_first_appending_any_kind",
    "C34_close_flushes_first_appending_partial",
    "C34_with_block_refuted",
    "C34_close_failing_flush_refuted"
   ],
   "note": "True of unlock_file() (also when the flush fails: the lock is then kept) and of close() when the flush succeeds. False when leaving the with-block of lock_file(), which unlocks the raw stream without flushing, and of close() when its flush fails. Append mode has its own theorems (machine of C68)."
  },
  {
   "property": "C35",
   "status": "proved",
   "theorems": [
    "C35_size_counts_buffered",
    "C35_size_counts_buffered_any_kind",
    "C35_size_counts_buffered_appending",
    "C35_size_counts_buffered_appending_any_kind"
   ],
   "note": "Append mode has its own theorems (machine of C68)."
  },
  {
   "property": "C38",
   "status": "proved",
   "theorems": [
    "C38_sync_needs_flush",
    "C38_raw_sync_durable",
    "C38_sync_everything",
    "C38_sync_reader",
    "C38_buffered_sync_durable",
    "C38_buffered_sync_durable_any_kind",
    "C38_buffered_sync_durable_appending",
    "C38_buffered_sync_durable_appending_any_kind",
    "C38_write_to_file_durable",
    "C38_append_to_file_durable",
    "C38_synchronized_write",
    "C38_unsynced_not_durable"
   ],
   "note": "A kernel flush that fails is taken to leave the data in the cache, so that a later one that succeeds writes it. The helpers with sync=True: any buffering but 0 (see C36)."
  },
  {
   "property": "C36",
   "status": "partial",
   "theorems": [
    "C36_write",
    "C36_read",
    "C36_round_trip_partial",
    "C36_unbuffered_round_trip_refuted",
    "C36_must_create_erases_refuted"
   ],
   "note": "Binary data, regular files. Proved for every previous content, every schedule of partial writes and reads, any buffering but 0. False for buffering=0 (the count returned by write() is ignored) and, with must_create, when another process writes in the new file before it is locked: both refuted."
  },
  {
   "property": "C37",
   "status": "partial",
   "theorems": [
    "C37_append",
    "C37_append_concatenates_partial",
    "C37_appends_concatenate_partial",
    "C37_append_among_others_partial",
    "C37_unbuffered_refuted"
   ],
   "note": "Binary data, regular files. In every outcome the previous content (as the others left it when the lock was obtained) is followed by a beginning of the data, by all of it when the call returns; sequences of calls concatenate, by one process or several. False for buffering=0 after a short write: refuted."
  },
  {
   "property": "C39",
   "status": "partial",
   "theorems": [
    "C39_protected_calls_exclusive",
    "C39_serialised_partial",
    "C39_mutex_released",
    "C39_first_calls_refuted",
    "C39_close_during_read_refuted",
    "C39_iteration_refuted"
   ],
   "note": "False as stated: the first look-up of each method through the wrapper returns the unprotected method (__getattr__ returns attr, not the proxy it caches), and iteration is never protected. True once every method used was looked up before, for all schedules; calls through proxies are always exclusive and always release the mutex."
  },
  {
   "property": "C40",
   "status": "proved",
   "theorems": [
    "C40_unknown_option",
    "C40_set_options",
    "C40_only_set_changes",
    "C40_snapshot",
    "C40_stream_options",
    "C40_raw_stream_takes_options"
   ],
   "note": "Any history of calls; dictionaries are modelled as mutable objects, so that sharing would show."
  },
  {
   "property": "C42",
   "status": "partial",
   "theorems": [
    "C42_windows_truncate_partial",
    "C42_multiple_of_8192",
    "C42_windows_truncate_refuted",
    "C42_short_write_refuted",
    "C42_failed_truncate_moves_refuted",
    "C42_no_zero_fill"
   ],
   "note": "False: extending by a positive multiple of 8192 bytes always raises AssertionError and leaves the position at the end (proved for all contents and sizes). Proved for all other sizes when the system writes all it is asked to."
  },
  {
   "property": "C45",
   "status": "partial",
   "theorems": [
    "C45_windows_refines_partial",
    "C45_gap_zero_refuted",
    "C45_empty_write_refuted",
    "C45_bad_whence"
   ],
   "note": "Proved for every sequence of read, readinto, write of at least a byte, seek, tell, size, flush and every schedule of short counts, on a system that clears the space it adds to files. Elsewhere the gap left by a write beyond the end is not filled with zeros (the zero_fill branch of _inner_extend does nothing): refuted. write(b'') returns None."
  },
  {
   "property": "C43",
   "status": "proved",
   "theorems": [
    "C43_pieces_exist",
    "C43_translated",
    "C43_chunk_independent",
    "C43_untranslated",
    "C43_no_split",
    "C43_one_output_each",
    "C43_nothing_pending",
    "C43_newlines_seen"
   ],
   "note": "Any text, any non-empty list of chunks, the last one flagged final. The newlines attribute reports exactly the spellings present."
  },
  {
   "property": "C46",
   "status": "proved",
   "theorems": [
    "C46_text_reads",
    "C46_read_all",
    "C46_iteration"
   ],
   "note": "Any codec that satisfies the contract good_codec (proved for strict UTF-8 and Latin-1); files whose bytes decode without error, shorter than 2^59 bytes; blocking reads that do not fail."
  },
  {
   "property": "C47",
   "status": "partial",
   "theorems": [
    "C47_tell_seek_partial",
    "C47_tell_without_seek",
    "C47_tell_after_seek_refuted",
    "C47_tell_after_size_refuted",
    "C47_tell_after_size_assert_refuted"
   ],
   "note": "Proved: seek() to any position given by tell() brings back the text that was left then, and tell() without an earlier seek() fails only during an iteration. False: tell() after a seek() may fail an assertion (the bytes-per-character ratio of an older chunk is used), and size() during an iteration enables tell() with an outdated snapshot, which gives a wrong position or fails. Sequences of read, readline, next, tell, seek to a told position, seek to the end."
  },
  {
   "property": "C48",
   "status": "partial",
   "theorems": [
    "C48_seek_write_partial",
    "C48_append_partial",
    "C48_first_write_partial",
    "C48_write_after_read_refuted"
   ],
   "note": "False right after a read(): the bytes go behind what was read ahead. Proved for a write() after seek(n) to a byte position (any position that tell() gives when no decoder state is packed in it), after seek(0, 2), and on a new stream, whatever was read, told and sought before."
  },
  {
   "property": "C49",
   "status": "partial",
   "theorems": [
    "C49_truncate_partial",
    "C49_truncate_refuted"
   ],
   "note": "False in general: the number of tell(), in which decoder states are packed, is used as a size. Proved when that number is a byte position (below 2^64): the file is cut there and the bytes cut off are those of the text left to read."
  },
  {
   "property": "C50",
   "status": "partial",
   "theorems": [
    "C50_reset_keeps_text_partial",
    "C50_lock_in_iteration_refuted",
    "C50_unlock_refuted"
   ],
   "note": "False: lock_file() during an iteration raises OSError, and unlock_file() after lock_file() may fail an assertion and leave the lock. Proved: the first thing both methods do, to drop the buffers, keeps the place in the text and succeeds after any sequence of read() and readline()."
  },
  {
   "property": "C44",
   "status": "partial",
   "theorems": [
    "C44_write",
    "C44_read",
    "C44_round_trip",
    "C44_codecs",
    "C44_default_newline_refuted",
    "C44_cr_newline_refuted",
    "C44_unencodable_keeps_file_refuted"
   ],
   "note": "The text read is the text written exactly when: no carriage return in it for newline=None, no line feed for newline='\\r' or '\\r\\n', always for newline='' and '\\n'. For any codec whose decoder inverts its encoder and is silent after the end (proved for UTF-8, UTF-8 with a mark, Latin-1), any buffering, schedule and previous content. False as stated: both exceptions refuted. A text that cannot be encoded erases the file."
  },
  {
   "property": "C51",
   "status": "partial",
   "theorems": [
    "C51_append",
    "C51_append_text_partial",
    "C51_appends_concatenate_partial",
    "C51_codecs",
    "C51_two_appends_refuted"
   ],
   "note": "Proved for calls in sequence, for codecs whose encoder can be told that it is not at the start of the file (UTF-8, UTF-8 with a mark, Latin-1). False when another process writes in the empty file during the wait for the lock: the decision to write a byte order mark was taken before, and a mark lands in the middle of the file: refuted."
  },
  {
   "property": "C52",
   "status": "partial",
   "theorems": [
    "C52_readline",
    "C52_readline_whole",
    "C52_limit_refuted",
    "C52_readlines",
    "C52_writelines",
    "C52_readline_appending",
    "C52_readline_whole_appending",
    "C52_readlines_appending",
    "C52_writelines_appending"
   ],
   "note": "Append mode included (machine of C68), any short-count schedule. False as stated: readline(n) may return up to 2n-1 bytes (the limit of each turn of the loop is n, not what is left of n): refuted; the exact bounds are in C52_readline. The rest is proved."
  },
  {
   "property": "C53",
   "status": "partial",
   "theorems": [
    "C53_readinto1",
    "C53_readinto_or_error_partial",
    "C53_readinto_after_seek_partial",
    "C53_readinto1_appending",
    "C53_readinto_or_error_appending_partial",
    "C53_readinto_after_seek_appending_partial",
    "C53_readinto_fills_refuted"
   ],
   "note": "readinto1() is proved. readinto() is false: with read-ahead in the buffer it may raise ValueError and lose bytes (avail does not take into account what was stored): refuted. Proved: it fills the buffer or raises ValueError; after a successful seek and without short counts it fills the buffer."
  },
  {
   "property": "C54",
   "status": "proved",
   "theorems": [
    "C54_opened_descriptor",
    "C54_inheritable_iff",
    "C54_wrapped_descriptor",
    "C54_rights_checked_refuted"
   ],
   "note": "Unix. Through the whole of rsopen, including locking, truncation and buffers. Additionally: the rights of a wrapped descriptor are not compared with the mode (the documentation leaves that to the caller)."
  },
  {
   "property": "C55",
   "status": "partial",
   "theorems": [
    "C55_one_designation_partial",
    "C55_one_designation_refuted"
   ],
   "note": "Proved except for an opener together with descriptor 0, which is taken for no descriptor and silently ignored: refuted. A descriptor made by the opener stays open when the arguments are refused."
  },
  {
   "property": "C56",
   "status": "proved",
   "theorems": [
    "C56_file_system",
    "C56_open_success",
    "C56_open_succeeds"
   ],
   "note": "With CreateFile, the handle table and the C descriptor table as contracts of the system. Share modes, permissions other than the read-only attribute, and path syntax are not modelled."
  },
  {
   "property": "C57",
   "status": "partial",
   "theorems": [
    "C57_lifetime",
    "C57_released_partial",
    "C57_failed_open",
    "C57_writable_streams_leak",
    "C57_exhausted",
    "C57_writable_refuted",
    "C57_wrapped_refuted"
   ],
   "note": "Proved for handles, and for C descriptors of streams that are not writable or on Pythons without os.set_blocking. False otherwise (Python 3.12): the descriptor made to test for a non-blocking pipe is never closed, each writable stream costs one for good, and after as many streams as there are free descriptors no file can be opened for writing. Also false for a wrapped handle with closefd=False."
  },
  {
   "property": "C58",
   "status": "partial",
   "theorems": [
    "C58_fileno_partial",
    "C58_fileno_zero_refuted"
   ],
   "note": "Proved except for descriptor 0, for which fileno() fails an assertion: refuted."
  },
  {
   "property": "C59",
   "status": "partial",
   "theorems": [
    "C59_exclusion_partial",
    "C59_system_agrees",
    "C59_exclusion_refuted"
   ],
   "note": "Proved for offsets and lengths below 2^64 and bytes below 2^64-1. False for a length of 2^64, whose words are masked to zero: the lock is granted but locks nothing."
  },
  {
   "property": "C60",
   "status": "partial",
   "theorems": [
    "C60_lock",
    "C60_unlock",
    "C60_close",
    "C60_lock_to_infinity_refuted"
   ],
   "note": "The exact condition of success of each call is proved. It contains one more clause than stated: a system that refuses ranges beyond 2^64 refuses every lock without length from an offset above 1, even on a file nobody locked."
  },
  {
   "property": "C61",
   "status": "partial",
   "theorems": [
    "C61_not_owned_kept",
    "C61_not_owned_close",
    "C61_directory_kept",
    "C61_failure_keeps_refuted"
   ],
   "note": "Proved with closefd=False and for directories (descriptor other than 0), for a descriptor that is not that of a stream whose closing was put off. With closefd=True a failed lock closes the caller's descriptor: refuted."
  },
  {
   "property": "C62",
   "status": "partial",
   "theorems": [
    "C62_refused_early_partial",
    "C62_no_erasure_asked",
    "C62_bad_timeout_no_erasure",
    "C62_refused_keeps_files_refuted",
    "C62_refused_creates_nothing_refuted"
   ],
   "note": "Proved: a refusal (BadValueTypeError) that is not one of the late mistakes (bad timeout with locking, text without buffer, what the text layer refuses) changes nothing; no erasure without w or E; a bad timeout is noticed before the erasure. Refuted in general: rsopen(f, 'w', buffering=0) erases the file, then raises; with 'x' it leaves a new file."
  },
  {
   "property": "C63",
   "status": "partial",
   "theorems": [
    "C63_closed_refuses_partial",
    "C63_closed_no_effect",
    "C63_closed_read_partial",
    "C63_close_closes",
    "C63_closed_read_refuted"
   ],
   "note": "Proved for every method but read() of the reader and readline(0); no method whatsoever touches the world. Refuted for read(n) of a reader: it gives bytes that were read ahead before the closing, and read() drops them. readline(0) gives no byte without complaint."
  },
  {
   "property": "C64",
   "status": "partial",
   "theorems": [
    "C64_failing_reads_partial",
    "C64_first_failure_harmless_partial",
    "C64_lost_bytes_refuted"
   ],
   "note": "Proved for peek(), read1(), tell(), size(), flush() and seek(), for would-block results of read(), and for read(n) failing at its first system call; a seek() that succeeds always finds a known place again. Refuted for read(n) failing later: the bytes got are dropped while the older ones stay in the buffer, so that the next read gives bytes that are not next to each other in the file."
  },
  {
   "property": "C65",
   "status": "proved",
   "theorems": [
    "C65_buffered_confined",
    "C65_text_confined",
    "C65_reader_changes_nothing",
    "C65_text_reader_changes_nothing"
   ],
   "note": "For every state and every outcome of the system calls. lock_file, unlock_file and close, which do touch locks and descriptors, are the subject of other properties; pipes lose what is read and are left out of the last two theorems."
  },
  {
   "property": "C66",
   "status": "partial",
   "theorems": [
    "C66_exclusive_isolated",
    "C66_shared_isolated_partial",
    "C66_shared_isolated_refuted"
   ],
   "note": "Proved for exclusive locks in all executions. For shared locks: proved when no process takes overlapping shared locks through two of its streams, refuted otherwise (the release of one drops the kernel lock of the other, as in C12, and another process then writes)."
  },
  {
   "property": "C67",
   "status": "partial",
   "theorems": [
    "C67_free_lock_obtained_partial",
    "C67_child_locked_out",
    "C67_free_lock_obtained_refuted"
   ],
   "note": "Proved for every process but one forked while another thread of its parent was inside unlock_file() or close(): the child inherits a mutex that nobody releases, and is proved to obtain no lock, give none back and close no stream, ever (closing would block): refuted by a run in which this child is the only process left and there is no lock at all."
  },
  {
   "property": "C68",
   "status": "partial",
   "theorems": [
    "C68_append_refines_partial",
    "C68_all_bytes_at_the_end",
    "C68_failing_appends",
    "C68_flush_keeps_position_refuted",
    "C68_truncate_here_keeps_appended_refuted",
    "C68_truncate_here_writer"
   ],
   "note": "Proved: any sequence of calls behaves as an append-only byte array, tell() being wrong by a known amount; without truncate() the file is the previous content and the written bytes in order; failing system calls: the bytes taken are in the file or pending, in order. Refuted: tell() counts pending bytes from where the cursor was (a flush changes its answer), and truncate() without argument on a stream that also reads then cuts the file there, losing old and new bytes. Other processes writing meanwhile, threads, and streams that read and write with failing system calls: C103 (not for truncate()). Missing: the discipline of C31 (no truncate or failing seek with bytes read ahead) is assumed."
  },
  {
   "property": "C69",
   "status": "proved",
   "theorems": [
    "C69_positions_are_bytes",
    "C69_seek_anywhere",
    "C69_errors",
    "C69_position_of_rest",
    "C69_truncate_here",
    "C69_reset_buffers",
    "C69_carriage_return_refuted",
    "utf8_plain",
    "latin1_plain",
    "utf8_reversible",
    "latin1_reversible"
   ],
   "note": "UTF-8 and latin-1 are proved to satisfy the conditions. With universal newlines and carriage returns, positions are not byte positions (refuted). truncate() is for streams that read and write; within an iteration tell() is off by design."
  },
  {
   "property": "C70",
   "status": "proved",
   "theorems": [
    "C70_text_writer",
    "C70_settled",
    "C70_text_in_file",
    "C70_new_file",
    "C70_codecs",
    "C70_blocking_count_refuted"
   ],
   "note": "With line buffering, BlockingIOError may say that 0 bytes were taken when all were (refuted): a program that writes them again gets them twice. The encoder is an oracle whose state is kept when it raises."
  },
  {
   "property": "C71",
   "status": "proved",
   "theorems": [
    "C71_close_writes",
    "C71_close_closes",
    "C71_close_again",
    "C71_closed_refuses",
    "C71_failed_close_refuted"
   ],
   "note": "When close() raises, what was pending is lost for good, and a second close() is silent (refuted that it is kept)."
  },
  {
   "property": "C72",
   "status": "partial",
   "theorems": [
    "C72_sections_are_serial_partial",
    "C72_shared_sections_refuted"
   ],
   "note": "Proved for lock calls that return without waiting (C82 has those that wait), system calls that work, and other writers only when all streams here are writable. Streams in append mode follow the machine of C68, whose tell() may be off by what waits to be written. With readers it is refuted: the first unlock_file() of two readers gives back the kernel lock of the whole process (as POSIX fcntl locks do), another process writes while the second reader still is in its section."
  },
  {
   "property": "C73",
   "status": "partial",
   "theorems": [
    "C73_mode_says_rights_partial",
    "C73_standard_modes",
    "C73_closed",
    "C73_mode_of_created_refuted"
   ],
   "note": "Refuted for files that had to be created with advanced modes: 'RC' (read only) and 'AC' (append) both say 'xb', which means writing, without appending."
  },
  {
   "property": "C74",
   "status": "partial",
   "theorems": [
    "C74_open_without_lock",
    "C74_open_does_not_wait",
    "C74_open_w_is_empty",
    "C74_seventh_argument_refused",
    "C74_file_io",
    "C74_wrapped_descriptor_refuted"
   ],
   "note": "Two differences from what is replaced. A seventh positional argument (closefd) is taken for fileno, so the call is always refused. FileIO(fd, 'w') erases the file behind a descriptor it is given, which the standard FileIO does not (refuted)."
  },
  {
   "property": "C75",
   "status": "proved",
   "theorems": [
    "C75_one_way_streams_are_serial",
    "C75_no_deadlock",
    "C75_threads_see_a_byte_array",
    "C75_each_byte_to_one_reader",
    "C75_records_are_not_mixed"
   ],
   "note": "For the calls that hold the lock of the stream all the time; the others (tell, size, readline, close) are in C77. A call of a method of the raw stream is one step."
  },
  {
   "property": "C76",
   "status": "proved",
   "theorems": [
    "C76_wrapped_calls_are_serial",
    "C76_no_deadlock",
    "C76_no_self_deadlock"
   ],
   "note": "For calls that go through _secure_call: the first look-up of a method name does not (C39)."
  },
  {
   "property": "C77",
   "status": "partial",
   "theorems": [
    "C77_unwrapped_serial_partial",
    "C77_tell_refuted",
    "C77_readline_refuted",
    "C77_close_refuted",
    "C77_random_refuted"
   ],
   "note": "Proved for one-way streams without tell, size, readline and close. Refuted otherwise: tell() beside flush() forgets the bytes just flushed; two readline() calls give two lines as one; a write() accepted while close() is under way is lost in silence; on a stream that reads and writes, a write() beside a read() lands at the wrong place of the file."
  },
  {
   "property": "C78",
   "status": "partial",
   "theorems": [
    "C78_reported_after_timeout_partial",
    "C78_reported_at_once_partial",
    "C78_reported_when_enforced_partial",
    "C78_waits_forever",
    "C78_refusals_are_reported_refuted"
   ],
   "note": "Never granted: proved. With a timeout, or an enforced timeout, the exception comes, but only when the time is up. Without timeout it is false: every error of fcntl is taken for a conflict (except EnvironmentError in the loop of lock_file), so that lock_file(offset=-1), or locking for writing a descriptor that was opened for reading, never returns, proved for all schedules; meanwhile the range stays reserved in the process."
  },
  {
   "property": "C79",
   "status": "partial",
   "theorems": [
    "C79_same_arguments_partial",
    "C79_negative_offset",
    "C79_same_arguments_refuted"
   ],
   "note": "Proved for offsets that are not negative. Negative offsets relative to the position or to the end, which lock_file() takes, are always refused by unlock_file(): refuted with the last two bytes of a file. System calls working."
  },
  {
   "property": "C80",
   "status": "proved",
   "theorems": [
    "C80_text_until_error",
    "C80_utf8",
    "C80_only_real_text",
    "C80_read_all_fails"
   ],
   "note": "The stream is compared with the cursor of C47 in the text that a tolerant codec makes of the bytes (a mark for each malformed byte). As this holds for every mark, what is read before the error cannot depend on the malformed bytes. C80_text_until_error is for any codec with a tolerant extension, the others for strict UTF-8. Same setting as C46: files that only this stream uses, short reads but no failing system calls."
  },
  {
   "property": "C81",
   "status": "partial",
   "theorems": [
    "C81_seek_back_partial",
    "C81_errors_lose_nothing_refuted",
    "C81_decoded_text_lost_refuted",
    "C81_hole_refuted"
   ],
   "note": "False: the chunk with the malformed byte has been taken from the buffer when decoding fails, and is dropped, so that a program that carries on reads a text with a hole of up to a chunk (three witnesses: lost first character, lost characters that were already decoded, lost lines). Proved: seek() to the start gets everything back."
  },
  {
   "property": "C82",
   "status": "partial",
   "theorems": [
    "C82_turns_make_the_call",
    "C82_waiting_sections_are_serial_partial"
   ],
   "note": "C82_turns_make_the_call says that the turns of M_Waiting, put one after the other, are the lock_file of M_Raw. Same limits as C72, the waiting apart: system calls that work, other writers only when all streams here are writable (C72_shared_sections_refuted otherwise)."
  },
  {
   "property": "C83",
   "status": "proved",
   "theorems": [
    "C83_sleeper_is_served",
    "C83_patient_calls_never_fail",
    "C83_no_deadlock"
   ],
   "note": "Same setting as C82. That a sleeper gets its turn at all (notify_all, the scheduler) is not part of the model: a turn is an action of the run. Never failing is for streams without enforced timeout option."
  },
  {
   "property": "C84",
   "status": "partial",
   "theorems": [
    "C84_first_come_first_served_refuted"
   ],
   "note": "False: a stream that unlocks and locks again gets the lock before the sleeper has woken up; C84_starvation repeats this a hundred times. What does hold of waiting calls is C83."
  },
  {
   "property": "C85",
   "status": "proved",
   "theorems": [
    "C85_logs_concatenate",
    "C85_records_in_one_piece"
   ],
   "note": "Same setting as C82: system calls that work, other writers only when all streams here are writable. No truncate() among the calls."
  },
  {
   "property": "C86",
   "status": "partial",
   "theorems": [
    "C86_unlocked_records_partial",
    "C86_between_system_calls_refuted"
   ],
   "note": "Proved as long as nothing comes between the system calls of one write() or flush() call. Refuted for the calls cut into steps (M_Threads): after a short write the loop of _flush_unlocked writes the rest with a second system call, and the record of another process can be in between. Even then no byte is lost or out of order (C103)."
  },
  {
   "property": "C87",
   "status": "partial",
   "theorems": [
    "C87_appends_survive",
    "C87_windows_calls",
    "C87_windows_partial",
    "C87_windows_refuted"
   ],
   "note": "Proved for linux in full. Refuted for windows: write() in append mode is seek to the end, tell, size, WriteFile, and what another process appends after the seek is overwritten (rsfileio_windows.py:393 says so in a comment: no atomicity); C87_windows_partial has the case of nothing in between."
  },
  {
   "property": "C88",
   "status": "partial",
   "theorems": [
    "C88_turns_share_one_cursor_partial",
    "C88_records_once_partial",
    "C88_reading_refuted",
    "C88_writing_refuted",
    "C88_unflushed_fork_refuted"
   ],
   "note": "The buffers are copied by fork(), the lock does not help. Refuted for single calls: a byte read by the parent takes the whole buffer away from the child (C88_reading_refuted), the child's tell() ignores what the parent wrote (C88_writing_refuted), and bytes in the buffer at the time of the fork are written twice (C88_unflushed_fork_refuted). Proved: turns under the mutex that end with seek(0, 1) (or flush() for writers) are serial on one content and one cursor; records are stored once, whole and in the order of their process, if flush() precedes fork(). System calls may be short but do not fail; streams that read and write are used as in C31; the first theorem is for streams not in append mode."
  },
  {
   "property": "C89",
   "status": "partial",
   "theorems": [
    "C89_ctypes_leaves_no_trace",
    "C89_identity_is_stable",
    "C89_identity_of_the_file",
    "C89_identities_differ",
    "C89_pywin32_uses_descriptors_up",
    "C89_pywin32_refuted"
   ],
   "note": "Proved for the ctypes backend in full; identity and stability for both. Refuted for pywin32, which is preferred when installed: GetFileInformationByHandle opens a C descriptor (windows_pywin32.py:90) that nobody closes; C89_pywin32_uses_descriptors_up: every successful times() costs one, so that no more of them succeed than descriptors are free."
  },
  {
   "property": "C90",
   "status": "partial",
   "theorems": [
    "C90_write_to_file",
    "C90_append_to_file",
    "C90_read_from_file",
    "C90_descriptor_0_refuted",
    "C90_locked_elsewhere",
    "C90_descriptor_stays_refuted"
   ],
   "note": "Proved for path names, calls without text arguments, and a first free descriptor other than 0; with buffering=0 a prefix of the data is written (one system call). Refuted when descriptor 0 is free (the number is taken for no descriptor: AssertionError after the file has been opened), and, for the descriptors, when another stream of the process has a lock on the file."
  },
  {
   "property": "C91",
   "status": "partial",
   "theorems": [
    "C91_read",
    "C91_read_text",
    "C91_append",
    "C91_without_locking_refuted",
    "C91_creation_refuted"
   ],
   "note": "Proved for other processes; other streams of the same process are covered by C72 and C82. Refuted for a file that write_to_file() itself is creating: between open() and lock_file() it is empty and not locked, so that a reader gets nothing and no error. Without locking nothing protects the reader."
  },
  {
   "property": "C92",
   "status": "partial",
   "theorems": [
    "C92_opens",
    "C92_opens_iff",
    "C92_creation_refused",
    "C92_append_at_end_partial",
    "C92_append_at_end_refuted",
    "C92_mark_comes_first_refuted"
   ],
   "note": "For paths. Mode \"AE\" (append and erase) is the exception: __init__ looks for the end of the file before rsopen() erases it, so tell() gives the former size of a file that is empty now, and a text stream, which looks at the position, leaves out the byte order mark of utf-8-sig. What happens when files are locked is C28 and C83, descriptors that are wrapped are C55, refused arguments are C62."
  },
  {
   "property": "C93",
   "status": "partial",
   "theorems": [
    "C93_new_file",
    "C93_existing_file",
    "C93_later_opens",
    "C93_like_python_partial",
    "C93_like_python_refuted"
   ],
   "note": "The last part is false: the default is 0o777, where python uses 0o666, so that after monkey patching every new data file is executable (0o755 instead of 0o644 with umask 022). All other bits and all outcomes are those of python. Windows (the read-only attribute) is C56. The model has one owner or root, no groups, and no directories that refuse the creation."
  },
  {
   "property": "C94",
   "status": "partial",
   "theorems": [
    "C94_pipe_is_a_queue_partial",
    "C94_nothing_lost_partial",
    "C94_calls_end",
    "C94_nothing_lost_refuted",
    "C94_would_block_is_told_refuted"
   ],
   "note": "Proved for all calls as long as read(), readline() and readinto() do not raise; read1() and peek() may. It is false when they do: readinto() of more bytes than the buffer of the stream, on a non-blocking pipe that is empty for the moment, raises a TypeError (rsfileio_abstract.py:404, len(None)) after taking the buffered bytes, which are lost; a failing read() loses bytes as in C64. Also, only read() tells such a pipe (None) from one that has ended: read1(), peek(), readline() and a small readinto() give b\"\" in both cases. The limit of readline() is respected within a factor of two, because of C52."
  },
  {
   "property": "C95",
   "status": "partial",
   "theorems": [
    "C95_lines_arrive_partial",
    "C95_line_by_line_partial",
    "C95_codecs",
    "C95_lines_arrive_refuted"
   ],
   "note": "Proved when no system call fails (transfers may be short), for lines that end with \"\\n\" on both sides, and as long as no line is asked for before it was flushed. It is false on a pipe that does not block: when it is empty for the moment the text reader takes b\"\" for the end, so that an iteration ends early, readline() gives a piece of a line, or a character cut in two raises a UnicodeDecodeError, and the characters before it on the line are lost."
  },
  {
   "property": "C96",
   "status": "partial",
   "theorems": [
    "C96_flush_partial",
    "C96_flush_after_write",
    "C96_reset_buffers",
    "C96_flush_refuted",
    "C96_readall_partial",
    "C96_readall_after_reset",
    "C96_readall_refuted",
    "C96_write_after_readall_refuted",
    "C96_text_bytes_refuted",
    "C96_text_bytes_below"
   ],
   "note": "Proved of the bytes pushed by flush(), of the positions of streams that only write, of those that read and write after a write, and of every stream after the reset that lock_file() and unlock_file() begin with. False after a read: flush() leaves the raw stream ahead of tell() by what was read ahead. False of readall(), which the buffered streams take from the raw stream: it leaves out what was read ahead, and what a stream that reads and writes stores afterwards overwrites bytes that are neither where the stream was nor at the end. A text stream gives bytes from after the chunk that it decoded."
  },
  {
   "property": "C97",
   "status": "partial",
   "theorems": [
    "C97_random_order",
    "C97_orders",
    "C97_interface",
    "C97_arguments_partial",
    "C97_arguments_refuted",
    "C97_zero_fill",
    "C97_buffers_heeded_partial",
    "C97_buffers_heeded_refuted",
    "C97_forwarded_buffered",
    "C97_forwarded_text",
    "C97_random_methods",
    "C97_one_way_methods",
    "C97_special_partial",
    "C97_special_refuted"
   ],
   "note": "All documented names exist on all streams. The arguments are taken apart from those of truncate(): size= and zero_fill= are accepted by raw streams only, a TypeError on the others. What depends on buffers is answered by the stream itself apart from readall(), and on text streams read1(), readinto1() and peek() (consequences in C96). next() does not take what rsopen() returns by default: the thread-safe wrapper has __iter__ but no __next__."
  },
  {
   "property": "C98",
   "status": "partial",
   "theorems": [
    "C98_same_as_unix_partial",
    "C98_byte_array_partial",
    "C98_readline",
    "C98_readinto_partial",
    "C98_append",
    "C98_failing_flush",
    "C98_truncate_refuted",
    "C98_write_after_truncate_refuted"
   ],
   "note": "Proved call by call (simulation of the unix model) for regular files on a file system that zeroes added space, without truncate() when transfers are short or fail, and as long as no assertion fails. False of truncate(): an extension by a multiple of 8192 bytes raises AssertionError on windows and moves the stream, so that the next bytes are stored after the new end instead of where the stream was."
  },
  {
   "property": "C99",
   "status": "partial",
   "theorems": [
    "C99_raw_calls_partial",
    "C99_buffered_calls_partial",
    "C99_right_calls_environment_errors",
    "C99_opening_partial",
    "C99_sessions_partial",
    "C99_policy_refuted",
    "C99_opening_zero_refuted",
    "C99_readinto_value_error_refuted",
    "C99_readinto_type_error_refuted",
    "C99_windows_refuted",
    "C99_text_refuted"
   ],
   "note": "Proved on unix for raw and buffered streams whose descriptor is not 0, whatever the system does; a call may also wait for ever, lock_file() only. In particular no loop bound of the model is ever reached. False of descriptor 0: rsopen with the default buffering, and close(), fail an assertion. False of readinto(): ValueError after a short read, TypeError when the stream would block. False of windows (a wrong whence is a KeyError) and of text streams (tell() may fail an assertion)."
  },
  {
   "property": "C100",
   "status": "partial",
   "theorems": [
    "C100_forgotten_is_closed_partial",
    "C100_referenced_is_kept",
    "C100_used_wrapper_stays",
    "C100_one_method_is_enough",
    "C100_collected_outermost_first",
    "C100_collected_is_closed",
    "C100_collected_loses_buffers",
    "C100_forgotten_refuted",
    "C100_forgotten_data_arrives",
    "C100_forgotten_text_arrives",
    "C100_silent_loss_refuted"
   ],
   "note": "Proved of streams without thread-safe wrapper, or whose wrapper was never asked for a public method. False of the default, thread_safe=True: __getattr__ stores in the wrapper a function that refers to the wrapper, so that one method call makes a cycle; the forgotten stream then stays open, its locks held, until the garbage collector runs, which destroys the raw stream first, so that the buffered data is lost without any message. False also when close() would have raised: the loss is silent."
  },
  {
   "property": "C101",
   "status": "partial",
   "theorems": [
    "C101_like_one_attempt_partial",
    "C101_timeout",
    "C101_no_timeout",
    "C101_failed_no_trace",
    "C101_available",
    "C101_timeout_zero",
    "C101_returns_when_free_refuted"
   ],
   "note": "Proved for the whole loop, with others acting on other handles during the waits. Refuted: a range the system refuses (offset>1 and no length, on a system that checks ranges) is taken for contention, so lock_file() without timeout never returns although nobody has a lock. Not covered: other threads of the process calling the same stream meanwhile."
  },
  {
   "property": "C102",
   "status": "partial",
   "theorems": [
    "C102_hands_over_partial",
    "C102_after_write",
    "C102_after_reset",
    "C102_failing",
    "C102_text_writer",
    "C102_position_refuted",
    "C102_text_position_refuted"
   ],
   "note": "The position is refuted for streams that have read ahead: the raw stream stands after the read-ahead, and a text stream loses the rest of the chunk it decoded; it holds for writers, after a write, and after seek(0, 1). What the other methods of a detached stream raise is not modelled."
  },
  {
   "property": "C103",
   "status": "proved",
   "theorems": [
    "C103_nothing_lost_or_reordered",
    "C103_flush"
   ],
   "note": "Bytes of one write() call can be apart from each other (C86). A write() that raises another exception than BlockingIOError has taken all of its bytes or none; which one is not told to the caller."
  },
  {
   "property": "C104",
   "status": "partial",
   "theorems": [
    "C104_writer",
    "C104_wrapped",
    "C104_raw_wrapped",
    "C104_random_partial",
    "C104_reader_refuted",
    "C104_close_twice_refuted",
    "C104_random_refuted",
    "C104_raw_refuted"
   ],
   "note": "Proved for writers without wrapper and for all streams in the wrapper (calls that go through _secure_call: by C39 the first look-up of each method does not, and is a call without wrapper). Refuted without it: raw streams (write() writes into another file, truncate() cuts it, close() closes it), readers (read() returns bytes of another file; a second close() closes its descriptor), streams for reading and writing (seek() and read() move its position); for the latter C104_random_partial shows that nothing worse happens: the descriptors stay open and the bytes of regular files the same. Line reading, peek, readinto and lock_file are not among the calls."
  },
  {
   "property": "C105",
   "status": "partial",
   "theorems": [
    "C105_no_deadlock_partial",
    "C105_timeouts",
    "C105_shared_mutex_refuted",
    "C105_unlock_refuted"
   ],
   "note": "False: lock_file() waits with the mutex of the wrapper in hand. Two processes that share an inherited stream (or a mutex), and use lock_file(), write(), unlock_file(): while the first has the lock the second waits for it, and the first cannot get the mutex to write or to unlock; both wait for ever. Proved when users that share a mutex hold it during all of each piece of work ('with stream.mutex:'), in particular when none is shared, and when every lock_file() has a timeout; runs are finite as well. For calls that go through _secure_call (the first look-up of a method does not, C39) and users that hold one lock at a time. That a lock is granted once no other one is in the way is C83."
  },
  {
   "property": "C106",
   "status": "partial",
   "theorems": [
    "C106_interrupted_no_trace_partial",
    "C106_timed_call_no_trace_partial",
    "C106_registry_wait",
    "C106_oserror_swallowed",
    "C106_returned_has_lock",
    "C106_waiter_refuted",
    "C106_after_lock_refuted",
    "C106_after_register_refuted",
    "C106_alarm_refuted",
    "C106_close_makes_up",
    "C106_close_waits_refuted",
    "C106_unlock_makes_up",
    "C106_unlock_makes_up_later"
   ],
   "note": "Proved for interruptions while the call waits in the kernel or sleeps between two attempts, hence for all waits of calls with a timeout. False otherwise. (1) In the wait for another stream of the process (call without timeout) the count of waiters is not given back: there is no try/finally around Condition.wait, and the entry of the file is never deleted from the registry. (2) Between the return of lockf and 'success = True' the finally clause unregisters the lock but does not release it in the kernel: other processes are kept out and unlock_file() raises RuntimeError. (3) Between the return of register_file_lock and the 'try' the record stays without lock; unlock_file() removes it. (4) An OSError raised by the handler while the call waits in the kernel (TimeoutError, the usual way of an alarm) is caught by 'except EnvironmentError' and the call goes on waiting. Whatever was left, close() makes up for it unless another stream of the process has locks on the file, in which case the forgotten kernel lock outlives the stream (refuted). Interruptions at other instructions (inside the registry's methods, after 'success = True') are not modelled."
  },
  {
   "property": "C107",
   "status": "partial",
   "theorems": [
    "C107_nothing_lost_partial",
    "C107_uninterrupted",
    "C107_same_calls",
    "C107_repeated_refuted"
   ],
   "note": "False: a handler that raises between the return of raw.write() and 'del self._write_buf[:n]' leaves in the buffer bytes that are in the file; the next flush, or close(), writes them again. Proved: nothing is ever lost or reordered, a call takes all or nothing unless it says how much, and each interruption repeats at most one piece, at once. Writers in append mode; handlers that raise something else than an EnvironmentError."
  },
  {
   "property": "C108",
   "status": "partial",
   "theorems": [
    "C108_child_partial",
    "C108_handler_partial",
    "C108_child_hangs_iff",
    "C108_handler_hangs_iff",
    "C108_tell",
    "C108_children_refuted",
    "C108_handlers_refuted"
   ],
   "note": "False for every kind of stream and every wrapping: _read_lock and _write_lock are plain process-local locks, copied in the taken state by fork() and not recursive, so the child or the handler waits for ever; the wrapper's recursive and interprocess mutexes let it through to that lock and do not help. Proved: with no thread in a call at the fork (streams in a wrapper, readers and writers without one), or a handler outside the locked parts, all calls return with the serial results; for readers and writers, exactly which calls hang at which moments; tell() never waits. Missing: the exact condition for read-write streams, and close()/readline()/size()/tell() before the fork for unwrapped ones; the registry's own RLock (rsfile_registries.py:78), which has the same fate at a fork, is not in this model."
  },
  {
   "property": "C109",
   "status": "partial",
   "theorems": [
    "C109_in_order_partial",
    "C109_same_calls",
    "C109_lost_refuted",
    "C109_end_refuted"
   ],
   "note": "False: bytes that raw.read() has handed over are local variables of the interrupted call and are lost, in the middle of what later calls return; and an interruption between the two assignments of _reset_read_buf leaves _read_pos beyond the end of _read_buf, after which read(n) can return b'' before the end of the file. Proved for all runs: what is handed over, followed by what is in the buffer, is the file in order with some bytes left out (nothing twice, nothing out of order), and no loop runs for ever; a call in which no handler raises, on a stream with no interruption before, is that of M_Buffered, so that C31 applies. Missing: a bound on what one interruption loses (everything the interrupted call had read, plus the buffer), and read-write streams."
  },
  {
   "property": "C110",
   "status": "partial",
   "theorems": [
    "C110_uninterrupted",
    "C110_first_instruction",
    "C110_marking",
    "C110_again",
    "C110_only_its_own",
    "C110_locks_of_others",
    "C110_other_file_partial",
    "C110_where",
    "C110_closed_refuted",
    "C110_released_refuted",
    "C110_waiting_refuted",
    "C110_other_file_refuted"
   ],
   "note": "Proved for every instruction: only descriptors of the stream and those that waited for it are closed; locks of other streams and other processes stay. False that close() can be completed: the stream is marked closed first and a second close() does nothing, so the descriptor may stay open for ever (C110_where says exactly at which instructions, for a stream without locks), kernel locks may stay that the registry has forgotten, and descriptors that waited may be forgotten. An interruption between close() and IOBase.close() leaves the stream closed but not marked: the next close() closes the same number again, which may be that of another file (refuted; C110_other_file_partial proves that this is the only such instruction). Left out: interruptions inside the registry calls, which are single steps here, and while the mutex is acquired or released; a second handler that raises."
  },
  {
   "property": "C111",
   "status": "partial",
   "theorems": [
    "C111_uninterrupted",
    "C111_before",
    "C111_locks_of_others",
    "C111_close_releases",
    "C111_released",
    "C111_released_refuted"
   ],
   "note": "Proved: before the registry was changed the call did nothing; after lockf(LOCK_UN) the area is released; wherever it is cut, other streams and processes keep their locks, and close() releases everything if no other stream of the process has locks on the file and no system call fails. False that the same call made again releases the lock: between the two (two instructions) the registry has no record, so that unlock_file() raises RuntimeError, while the system still has the lock. Left out: interruptions inside the registry calls, which are single steps here, and while the mutex is acquired or released; other processes acting meanwhile."
  },
  {
   "property": "C112",
   "status": "partial",
   "theorems": [
    "C112_uninterrupted",
    "C112_before",
    "C112_leaks",
    "C112_no_leak",
    "C112_locks_of_others",
    "C112_wrapped",
    "C112_contents",
    "C112_no_leak_refuted",
    "C112_given_refuted"
   ],
   "note": "Proved for interruptions before open(2) (nothing happened) and after the two keys of the lock registry are assigned (the finalizer's close() does its work). In the six instructions between, the descriptor leaks (C112_leaks, C112_no_leak_refuted): self._fileno is assigned only after open(2) has returned, and close() of an object without _lock_registry_descriptor closes nothing, although it knows self._fileno. No lock is lost and no existing file changes wherever the call is interrupted (C112_locks_of_others, C112_contents). A wrapped descriptor with closefd=False is always left open (C112_wrapped); with closefd=True the instruction decides whether it is closed, which the caller cannot know (C112_given_refuted). The handler raises once, not again in the finalizer; the layers above the raw stream (rsopen) are not interrupted here."
  }
 ]
}